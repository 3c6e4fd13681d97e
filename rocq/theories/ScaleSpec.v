(** Specification: the same rays and surfaces in another unit of length.  A length [x] becomes
    [k * x]. *)
From Coq Require Import Reals List Bool.
From Verif Require Import Vec Num RayModel SurfaceModel SagModel ApertureModel RulingModel.
Import ListNotations.
Open Scope R_scope.

Definition scale_ray (k : R) (r : ray) : ray :=
  mkRay (k * r_wavelength r) (omap (vscale k) (r_position r)) (r_direction r) (r_intensity r)
        (r_attenuation r / k) (r_index r) (r_unvignetted r).

Definition same_sag (k : R) (s s' : sag) : Prop :=
  (forall o u, sag_intercept s' (vscale k o) u = omap (vscale k) (sag_intercept s o u)) /\
  (forall x, sag_normal s' (vscale k x) = sag_normal s x).
Definition same_material (k : R) (m m' : material) : Prop :=
  (forall r, mat_index m' (scale_ray k r) = mat_index m r) /\
  (forall r, mat_attenuation m' (scale_ray k r) = mat_attenuation m r / k) /\
  (forall r n, mat_efficiency m' (scale_ray k r) n = mat_efficiency m r n) /\
  mat_is_mirror m' = mat_is_mirror m.
Definition same_aperture (k : R) (a a' : aperture) : Prop :=
  ap_on_position a' = ap_on_position a /\
  forall p, ap_accepts a' (if ap_on_position a then omap (vscale k) p else p) = ap_accepts a p.
Definition same_rulings (k : R) (g g' : rulings) : Prop :=
  rul_order g' = rul_order g /\
  (forall x n, rul_spacing g' (vscale k x) n = omap (vscale k) (rul_spacing g x n)) /\
  (forall r n, rul_efficiency g' (scale_ray k r) n = rul_efficiency g r n).
Definition same_option {A} (same : A -> A -> Prop) (x x' : option A) : Prop :=
  match x, x' with
  | None, None => True
  | Some a, Some a' => same a a'
  | _, _ => False
  end.
Definition same_rigid (k : R) (t t' : rigid) : Prop :=
  rg_mat t' = rg_mat t /\ rg_shift t' = vscale k (rg_shift t).

(** The same surface in the other unit. *)
Definition same_surface (k : R) (s s' : surface) : Prop :=
  same_sag k (sf_sag s) (sf_sag s') /\
  same_material k (sf_material s) (sf_material s') /\
  same_option (same_aperture k) (sf_aperture s) (sf_aperture s') /\
  same_option (same_rulings k) (sf_rulings s) (sf_rulings s') /\
  same_option (same_rigid k) (sf_transformation s) (sf_transformation s').

(** The parameters of the sags in the other unit. *)
Definition scale_class (k : R) (c : sag_class) : sag_class :=
  match c with
  | NoSag => NoSag
  | SphericalSag r => SphericalSag (k * r)
  | ConicSag r kappa => ConicSag (k * r) kappa
  | ParabolicSag f => ParabolicSag (k * f)
  | CylindricalSag r => CylindricalSag (k * r)
  | ToroidalSag r r' => ToroidalSag (k * r) (k * r')
  end.
(** Of a conic, the quadratic coefficient is not below the threshold in either unit. *)
Definition above_threshold (k : R) (c : sag_class) (u : vec3) : Prop :=
  match c with
  | ConicSag r kappa =>
      1 / 10 ^ 12 <= Rabs (conic_a (1 / r) kappa u) /\ 1 / 10 ^ 12 <= Rabs (conic_a (1 / (k * r)) kappa u)
  | _ => True
  end.
(** The search of the toroid gives the same path length in the other unit. *)
Definition same_search (k : R) (c : sag_class) (solver solver' : vec3 -> vec3 -> option R) : Prop :=
  match c with
  | ToroidalSag _ _ => forall o u, solver' (vscale k o) u = omap (Rmult k) (solver o u)
  | _ => True
  end.

Definition scale_shape (k : R) (s : ap_shape) : ap_shape :=
  match s with
  | Circular r => Circular (k * r)
  | Sector r a b => Sector (k * r) a b
  | Elliptical a b => Elliptical (k * a) (k * b)
  | Polygonal vs => Polygonal (map (vscale k) vs)
  | Rectangular a b => Rectangular (k * a) (k * b)
  | RegularPolygon r n => RegularPolygon (k * r) n
  | Trapezoid a b angle => Trapezoid (k * a) (k * b) angle
  end.
Definition scale_rigid (k : R) (t : option rigid) : option rigid :=
  omap (fun t => mkRigid (rg_mat t) (vscale k (rg_shift t))) t.
(** An aperture given by angles has no lengths. *)
Definition scale_aperture (k : R) (a : aperture_obj) : aperture_obj :=
  if ao_is_length a then
    mkApertureObj (scale_shape k (ao_shape a)) (ao_active a) (ao_inverted a) (scale_rigid k (ao_transformation a)) true
  else a.

Definition scale_profile (k : R) (p : profile) : profile :=
  match p with
  | Ideal => Ideal
  | Measured nodes => Measured (map (fun n => (k * fst n, snd n)) nodes)
  | Sinusoidal d => Sinusoidal (k * d)
  | Square d => Square (k * d)
  | Sawtooth d => Sawtooth (k * d)
  | Triangular d => Triangular (k * d)
  | RectangularGroove d ratio => RectangularGroove (k * d) ratio
  end.
(** Spacings are lengths; the coefficients of a polynomial are lengths per power of length. *)
Definition scale_coefficients (k : R) (l : list (nat * R)) : list (nat * R) :=
  map (fun c => (fst c, k * (snd c / k ^ fst c))) l.
(** The library's test whether a point is in a polygon does not depend on the unit. *)
Definition same_pip (k : R) (pip : list vec3 -> R -> R -> bool) : Prop :=
  forall vs x y, pip (map (vscale k) vs) (k * x) (k * y) = pip vs x y.
