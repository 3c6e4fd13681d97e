(** optika/sensors/materials/_diffusion.py: charge diffusion. *)
From Coq Require Import Reals List ZArith.
From Verif Require Import Num ExtNum ProfileModel.
Import ListNotations.
Open Scope R_scope.
Open Scope opt_scope.

(** Lines 13-137 *)
Definition charge_diffusion (absorption thickness_substrate thickness_depletion : R) : option R :=
  let s := thickness_substrate in
  let f := s - thickness_depletion in
  let a := absorption in
  let numerator := f * (a * f + exp (- a * f) - 1) in
  let denominator := a * (1 - exp (- a * s)) in
  let* q := odiv numerator denominator in
  osqrt q.

(** The quotient of a width by another: a zero width is a positive zero. *)
Definition width_ratio (x y : R) : ext :=
  if Req_EM_T y 0 then (if Req_EM_T x 0 then NaN else Inf (r_neg x)) else Fin (x / y).
(** [np.exp] and [scipy.special.erf]; the latter is the integral of [ProfileModel]. *)
Definition eexp (a : ext) : ext :=
  match a with Fin x => Fin (exp x) | Inf true => Fin 0 | Inf false => Inf false | NaN => NaN end.
Definition eerf (a : ext) : ext :=
  match a with Fin x => Fin (erf x) | Inf s => Fin (if s then -1 else 1) | NaN => NaN end.

(** Lines 140-257 *)
Definition mean_charge_capture (width_diffusion width_pixel : R) : ext :=
  let a := width_ratio width_pixel width_diffusion in
  let t1 := ediv (emul (Fin (sqrt (2 / PI))) (esub (eexp (ediv (eopp (emul a a)) (Fin 2))) (Fin 1))) a in
  let t2 := eerf (ediv a (Fin (sqrt 2))) in
  emul (eadd t1 t2) (eadd t1 t2).

(** Lines 260-305; the index of the pixel is an integer. *)
Definition kernel_1d (width_diffusion width_pixel : R) (index_pixel : Z) : ext :=
  let n := IZR index_pixel in
  let x := width_ratio width_pixel width_diffusion in
  let x2 := emul x x in
  let c := ediv (Fin 1) (emul x (Fin (sqrt (2 * PI)))) in
  let g m := eexp (ediv (emul (eopp x2) (Fin m)) (Fin 2)) in
  let e m := emul (Fin m) (eerf (ediv (emul x (Fin m)) (Fin (sqrt 2)))) in
  let g1 := g ((n - 1) * (n - 1)) in
  let g2 := emul (Fin (-2)) (g (n * n)) in
  let g3 := g ((n + 1) * (n + 1)) in
  let e1 := ediv (e (n - 1)) (Fin 2) in
  let e2 := eopp (e n) in
  let e3 := ediv (e (n + 1)) (Fin 2) in
  eadd (eadd (eadd (emul c (eadd (eadd g1 g2) g3)) e1) e2) e3.

(** Lines 308-418: the indices -1, 0, 1 along both axes. *)
Definition kernel_indices : list Z := [-1; 0; 1]%Z.
Definition kernel_product (width_diffusion width_pixel : R) (i j : Z) : ext :=
  emul (kernel_1d width_diffusion width_pixel i) (kernel_1d width_diffusion width_pixel j).
Definition esum (l : list ext) : ext := fold_right eadd (Fin 0) l.
Definition kernel_total (width_diffusion width_pixel : R) : ext :=
  esum (flat_map (fun i => map (fun j => kernel_product width_diffusion width_pixel i j) kernel_indices) kernel_indices).
Definition kernel_diffusion (width_diffusion width_pixel : R) (i j : Z) : ext :=
  ediv (kernel_product width_diffusion width_pixel i j) (kernel_total width_diffusion width_pixel).

(** optika/sensors/materials/depletion/_depletion.py:125-145,
    [JanesickDepletionModel.mean_charge_capture], for the absorption coefficient of the
    substrate at the given wavelength. *)
Definition depletion_capture (absorption thickness_substrate thickness width_pixel : R) : ext :=
  match charge_diffusion absorption thickness_substrate thickness with
  | Some w => mean_charge_capture w width_pixel
  | None => NaN
  end.

(** Lines 85-108: the objective of [fit_mcc] for a list of absorption coefficients and
    measured values, [np.sqrt(np.mean(np.square(diff)))]. *)
Definition fit_objective (thickness_substrate width_pixel : R) (measured : list (R * R)) (thickness_depletion : R) : ext :=
  let diff m := esub (Fin (snd m)) (depletion_capture (fst m) thickness_substrate thickness_depletion width_pixel) in
  esqrt (ediv (esum (map (fun m => emul (diff m) (diff m)) measured)) (Fin (INR (length measured)))).
