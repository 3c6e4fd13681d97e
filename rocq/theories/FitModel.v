(** Polynomial fits: optika/distortion/_distortion.py:273-400, [PolynomialDistortionModel];
    optika/radiometry/_vignetting.py:20-190, [PolynomialVignettingModel];
    optika/systems/_sequential.py:1208-1368, [distortion] and [vignetting]. *)
From Coq Require Import Reals List Bool Arith.
From Verif Require Import Vec Num RayModel DistortionModel.
Import ListNotations.
Open Scope R_scope.
Open Scope opt_scope.

(** [na.PolynomialFitFunctionArray] (external, named_arrays): a linear combination of the
    products of powers of the three components, up to a total [degree], of the difference
    between the coordinates and [center]. *)
Definition exponents := (nat * nat * nat)%type.
Definition total_degree (e : exponents) : nat := let '(i, j, k) := e in (i + j + k)%nat.
Definition monomial (e : exponents) (c : spv) : R :=
  let '(i, j, k) := e in sp_wavelength c ^ i * sp_x c ^ j * sp_y c ^ k.
Definition coefficients := list (exponents * R).
Definition evaluate (p : coefficients) (c : spv) : R := rsum (map (fun t => snd t * monomial (fst t) c) p).

(** [na.PolynomialFitFunctionArray.from_degree]: the least-squares solver [solve] is external;
    it is given the degree, the centred inputs and the outputs selected by [where_polynomial].
    A NaN among the selected points or in the center is a NaN in every result.  (Simplified:
    a fit of degree zero does not use the center in named_arrays.) *)
Definition solver := nat -> list (spv * R) -> coefficients.
Definition mean (l : list R) : option R := odiv (rsum l) (INR (length l)).
Definition sp_mean (l : list spv) : option spv :=
  let* w := mean (map sp_wavelength l) in
  let* x := mean (map sp_x l) in
  let* y := mean (map sp_y l) in
  Some (mkSpv w x y).
Fixpoint all_of {A} (l : list (option A)) : option (list A) :=
  match l with
  | [] => Some []
  | a :: l => let* a := a in let* l := all_of l in Some (a :: l)
  end.
Definition fit (solve : solver) (degree : nat) (center : option spv) (selected : list (option (spv * R)))
    (c : spv) : option R :=
  let* o := center in
  let* points := all_of selected in
  Some (evaluate (solve degree (map (fun p => (sp_sub (fst p) o, snd p)) points)) (sp_sub c o)).

(** _distortion.py:321-337: a calibration point; the position on the sensor may be NaN. *)
Record calibration := mkCalibration { k_scene : spv; k_sensor : option (R * R); k_where : bool }.

(** Lines 344-355: the center is the mean of all points, selected or not. *)
Definition selected (points : list calibration) : list calibration := filter k_where points.
Definition fit_forward (solve : solver) (degree : nat) (points : list calibration) (output : R * R -> R) : spv -> option R :=
  fit solve degree (sp_mean (map k_scene points))
    (map (fun k => omap (fun s => (k_scene k, output s)) (k_sensor k)) (selected points)).
(** Lines 357-372 *)
Definition inverse_input (k : calibration) : option spv :=
  omap (fun s => mkSpv (sp_wavelength (k_scene k)) (fst s) (snd s)) (k_sensor k).
Definition fit_backward (solve : solver) (degree : nat) (points : list calibration) (output : spv -> R) : spv -> option R :=
  fit solve degree (let* l := all_of (map inverse_input points) in sp_mean l)
    (map (fun k => omap (fun i => (i, output (k_scene k))) (inverse_input k)) (selected points)).

(** Lines 374-391 *)
Definition poly_distort (solve : solver) (degree : nat) (points : list calibration) (c : spv) : option spv :=
  let* x := fit_forward solve degree points fst c in
  let* y := fit_forward solve degree points snd c in
  Some (mkSpv (sp_wavelength c) x y).
Definition poly_undistort (solve : solver) (degree : nat) (points : list calibration) (c : spv) : option spv :=
  let* x := fit_backward solve degree points sp_x c in
  let* y := fit_backward solve degree points sp_y c in
  Some (mkSpv (sp_wavelength c) x y).

(** _sequential.py:1263-1285, [distortion]: a calibration point from the rays of one wavelength
    and field position, through all positions of the pupil. *)
Definition ray_calibration (scene : spv) (rays : list ray) : calibration :=
  let wh := existsb r_unvignetted rays in
  let sensor :=
    let* ps := all_of (map r_position (filter (fun r => r_unvignetted r || negb wh) rays)) in
    let* x := mean (map vx ps) in
    let* y := mean (map vy ps) in
    Some (x, y) in
  mkCalibration scene sensor wh.
Definition system_calibration (bundles : list (spv * list ray)) : list calibration :=
  map (fun b => ray_calibration (fst b) (snd b)) bundles.

(** _sequential.py:1348-1356, [vignetting], at one wavelength: the rays of each field position.
    The fraction of unvignetted rays, over its mean over the field positions that have any. *)
Definition fraction (rays : list ray) : option R :=
  mean (map (fun r => if r_unvignetted r then 1 else 0) rays).
Definition illumination (field : list (list ray)) : list (option R) :=
  let total :=
    let* l := all_of (map fraction (filter (existsb r_unvignetted) field)) in mean l in
  map (fun rays => let* f := fraction rays in let* m := total in odiv f m) field.

(** _vignetting.py:153-190: the fit of the illumination, and [inverse] of lines 40-56. *)
Definition poly_vignetting (solve : solver) (degree : nat) (points : list (spv * option R * bool)) : spv -> option R :=
  fit solve degree (sp_mean (map (fun p => fst (fst p)) points))
    (map (fun p => omap (fun i => (fst (fst p), i)) (snd (fst p))) (filter snd points)).
Definition vignetting_inverse (solve : solver) (degree : nat) (points : list (spv * option R * bool)) (c : spv) : option R :=
  let* i := poly_vignetting solve degree points c in odiv 1 i.
