(** optika/surfaces.py, optika/sags/_abc.py, optika/rulings/_rulings.py
    (effective direction), optika/apertures/_apertures.py (clipping) and
    optika/propagators.py.

    A sag, a material, a set of rulings and an aperture enter
    [AbstractSurface.propagate_rays] through the methods it calls; the records
    below hold those methods, so the theorems hold for every implementation of
    them.  Concrete classes are modelled in [SagModel], [ApertureModel],
    [RulingModel] and [MaterialModel]. *)
From Coq Require Import Reals List Bool.
From Verif Require Import Vec Num RayModel SnellModel.
Import ListNotations.
Open Scope R_scope.
Open Scope opt_scope.

(** optika/sags/_abc.py: the two methods used by a surface.  [intercept] only
    reads position and direction and only replaces the position. *)
Record sag := mkSag {
  sag_intercept : vec3 -> vec3 -> option vec3;   (* position, direction *)
  sag_normal : vec3 -> option vec3;
}.

(** optika/materials/_materials.py:20-78, [AbstractMaterial]. *)
Record material := mkMaterial {
  mat_index : ray -> R;
  mat_attenuation : ray -> R;
  mat_efficiency : ray -> option vec3 -> option R;
  mat_is_mirror : bool;
}.

(** optika/rulings/_rulings.py:131-222, [AbstractRulings]; [rul_spacing] is the
    vector returned by [spacing_]. *)
Record rulings := mkRulings {
  rul_order : R;
  rul_spacing : vec3 -> vec3 -> option vec3;     (* position, normal *)
  rul_efficiency : ray -> option vec3 -> option R;
}.

(** optika/apertures/_apertures.py:31-102: [ap_accepts] is [__call__];
    [ap_on_position] is the outcome of the unit test of [clip_rays]. *)
Record aperture := mkAperture {
  ap_on_position : bool;
  ap_accepts : option vec3 -> bool;
}.

(** optika/surfaces.py:44-121, 350-384. [sf_transformation] is optional. *)
Record surface := mkSurface {
  sf_sag : sag;
  sf_material : material;
  sf_aperture : option aperture;
  sf_rulings : option rulings;
  sf_transformation : option rigid;
}.

(** optika/sags/_abc.py:109-122, [AbstractSag.propagate_rays]. *)
Definition sag_propagate (s : sag) (r : ray) : ray :=
  let p := let* x := r_position r in let* d := r_direction r in sag_intercept s x d in
  let f := let* q := p in let* x := r_position r in
           Some (exp (- r_attenuation r * vlen (vsub q x))) in
  let i := let* f := f in let* i := r_intensity r in Some (f * i) in
  set_intensity i (set_position p r).

(** optika/rulings/_rulings.py:24-128, [incident_effective]. *)
Definition incident_effective (wavelength : R) (a : vec3) (n : R) (u : vec3) (m d : R)
    (g : vec3) : option vec3 :=
  let* q := odiv 1 (n * d) in
  Some (vadd a (vscale (rsign (dot a u) * m * wavelength * q) g)).

(** optika/rulings/_rulings.py:170-204, [AbstractRulings.incident_effective]. *)
Definition rulings_effective (g : rulings) (r : ray) (normal : option vec3) : ray :=
  let d :=
    let* x := r_position r in
    let* a := r_direction r in
    let* u := normal in
    let* kappa := rul_spacing g x u in
    let spacing := vlen kappa in
    let* q := odiv 1 spacing in
    incident_effective (r_wavelength r) a (r_index r) u (rul_order g) spacing (vscale q kappa) in
  set_direction d r.

(** optika/apertures/_apertures.py:82-102, [clip_rays]. *)
Definition clip_rays (ap : aperture) (r : ray) : ray :=
  let mask := ap_accepts ap (if ap_on_position ap then r_position r else r_direction r) in
  set_unvignetted (r_unvignetted r && mask) r.

Definition apply_transformation (t : option rigid) (r : ray) : ray :=
  match t with None => r | Some t => ray_transform t r end.
Definition apply_inverse (t : option rigid) (r : ray) : ray :=
  match t with None => r | Some t => ray_transform (rigid_inv t) r end.

(** optika/surfaces.py:144-154: the ray at the intercept, with its effective
    direction, in surface coordinates; and the normal there. *)
Definition surface_normal (s : surface) (r1 : ray) : option vec3 :=
  let* x := r_position r1 in sag_normal (sf_sag s) x.
Definition surface_incident (s : surface) (r : ray) : ray :=
  let r1 := sag_propagate (sf_sag s) r in
  match sf_rulings s with
  | None => r1
  | Some g => rulings_effective g r1 (surface_normal s r1)
  end.

(** optika/surfaces.py:175-177 *)
Definition surface_efficiency (s : surface) (r1 : ray) (normal : option vec3) : option R :=
  let* e := mat_efficiency (sf_material s) r1 normal in
  match sf_rulings s with
  | None => Some e
  | Some g => let* e' := rul_efficiency g r1 normal in Some (e * e')
  end.

(** optika/surfaces.py:144-193, the body in surface coordinates. *)
Definition surface_local (s : surface) (r : ray) : ray :=
  let r1 := surface_incident s r in
  let normal := surface_normal s r1 in
  let n1 := r_index r1 in
  let n2 := mat_index (sf_material s) r1 in
  let b := let* a := r_direction r1 in let* u := normal in
           snells_law a n1 n2 (mat_is_mirror (sf_material s)) u in
  let i := let* i1 := r_intensity r1 in
           let* e := surface_efficiency s r1 normal in Some (i1 * e) in
  let r2 := mkRay (r_wavelength r1 / (n1 / n2)) (r_position r1) b i
                  (mat_attenuation (sf_material s) r1) n2 (r_unvignetted r1) in
  match sf_aperture s with None => r2 | Some ap => clip_rays ap r2 end.

(** optika/surfaces.py:123-198, [AbstractSurface.propagate_rays]. *)
Definition surface_propagate (s : surface) (r : ray) : ray :=
  apply_transformation (sf_transformation s)
    (surface_local s (apply_inverse (sf_transformation s) r)).

(** optika/propagators.py: the argument is one propagator or a sequence. *)
Inductive propagators (P : Type) := Single (p : P) | Sequence (l : list P).
Arguments Single {P}. Arguments Sequence {P}.

(** optika/propagators.py:35-36, 63-64 *)
Definition as_list {P} (p : propagators P) : list P :=
  match p with Single p => [p] | Sequence l => l end.

(** optika/propagators.py:19-41, [propagate_rays], with [step] the method
    [propagate_rays] of the propagators. *)
Fixpoint propagate_list {P X} (step : P -> X -> X) (l : list P) (x : X) : X :=
  match l with [] => x | p :: l => propagate_list step l (step p x) end.
Definition propagate_rays {P X} (step : P -> X -> X) (p : propagators P) (x : X) : X :=
  propagate_list step (as_list p) x.

(** optika/propagators.py:44-73, [accumulate_rays]; [na.stack] along a new axis
    is the list itself.  The loop body is written with the two loop variables
    [result] and [rays]. *)
Fixpoint accumulate_loop {P X} (step : P -> X -> X) (l : list P) (result : list X) (x : X)
    : list X :=
  match l with
  | [] => result
  | p :: l => let x' := step p x in accumulate_loop step l (result ++ [x']) x'
  end.
Definition accumulate_rays {P X} (step : P -> X -> X) (p : propagators P) (x : X) : list X :=
  accumulate_loop step (as_list p) [] x.
