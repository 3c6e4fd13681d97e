(** Specification: symmetries of surfaces. *)
From Coq Require Import Reals List Bool.
From Verif Require Import Vec Num RayModel SurfaceModel SagModel ApertureModel RulingModel.
Import ListNotations.
Open Scope R_scope.

(** The image of a ray under a rotation or reflection about the origin. *)
Definition image_ray (q : mat3) (r : ray) : ray :=
  mkRay (r_wavelength r) (omap (mapply q) (r_position r)) (omap (mapply q) (r_direction r))
        (r_intensity r) (r_attenuation r) (r_index r) (r_unvignetted r).

(** Rotations about the z axis and reflections in planes through it. *)
Definition axial (q : mat3) : Prop := orthogonal q /\ mapply q (V3 0 0 1) = V3 0 0 1.
(** Reflections in the planes x = 0 and y = 0, and the half turn. *)
Definition flips (q : mat3) : Prop :=
  exists a b, (a = 1 \/ a = -1) /\ (b = 1 \/ b = -1) /\ q = M3 (V3 a 0 0) (V3 0 b 0) (V3 0 0 1).

Definition symmetric_sag (q : mat3) (s : sag) : Prop :=
  (forall o u, sag_intercept s (mapply q o) (mapply q u) = omap (mapply q) (sag_intercept s o u)) /\
  (forall x, sag_normal s (mapply q x) = omap (mapply q) (sag_normal s x)).
Definition symmetric_material (q : mat3) (m : material) : Prop :=
  (forall r, mat_index m (image_ray q r) = mat_index m r) /\
  (forall r, mat_attenuation m (image_ray q r) = mat_attenuation m r) /\
  (forall r n, mat_efficiency m (image_ray q r) (omap (mapply q) n) = mat_efficiency m r n).
Definition symmetric_aperture (q : mat3) (a : aperture) : Prop :=
  forall p, ap_accepts a (omap (mapply q) p) = ap_accepts a p.
Definition symmetric_grooves (q : mat3) (g : rulings) : Prop :=
  forall x n, rul_spacing g (mapply q x) (mapply q n) = omap (mapply q) (rul_spacing g x n).
Definition symmetric_rulings (q : mat3) (g : rulings) : Prop :=
  symmetric_grooves q g /\
  (forall r n, rul_efficiency g (image_ray q r) (omap (mapply q) n) = rul_efficiency g r n).
(** A transformation along the axis or within the plane of the symmetry. *)
Definition symmetric_rigid (q : mat3) (t : rigid) : Prop :=
  (forall v, mapply q (mapply (rg_mat t) v) = mapply (rg_mat t) (mapply q v)) /\
  mapply q (rg_shift t) = rg_shift t /\ is_rigid t.
Definition for_option {A} (P : A -> Prop) (x : option A) : Prop := forall a, x = Some a -> P a.

Definition symmetric_surface (q : mat3) (s : surface) : Prop :=
  symmetric_sag q (sf_sag s) /\
  symmetric_material q (sf_material s) /\
  for_option (symmetric_aperture q) (sf_aperture s) /\
  for_option (symmetric_rulings q) (sf_rulings s) /\
  for_option (symmetric_rigid q) (sf_transformation s).

(** A surface of revolution *)
Definition of_revolution (c : sag_class) : Prop :=
  match c with
  | NoSag | SphericalSag _ | ConicSag _ _ | ParabolicSag _ => True
  | CylindricalSag _ | ToroidalSag _ _ => False
  end.
(** The search of the toroid gives the same path length on the other side. *)
Definition symmetric_search (q : mat3) (c : sag_class) (solver : vec3 -> vec3 -> option R) : Prop :=
  match c with
  | ToroidalSag _ _ => forall o u, solver (mapply q o) (mapply q u) = solver o u
  | _ => True
  end.

(** What the efficiencies leave out: everything about a ray but its intensity. *)
Definition same_path (r r' : ray) : Prop :=
  r_wavelength r = r_wavelength r' /\ r_position r = r_position r' /\ r_direction r = r_direction r' /\
  r_attenuation r = r_attenuation r' /\ r_index r = r_index r' /\ r_unvignetted r = r_unvignetted r'.
(** A surface that is symmetric but for its efficiencies. *)
Definition symmetric_figure (q : mat3) (s : surface) : Prop :=
  symmetric_sag q (sf_sag s) /\
  (forall r r', same_path r' (image_ray q r) ->
     mat_index (sf_material s) r' = mat_index (sf_material s) r /\
     mat_attenuation (sf_material s) r' = mat_attenuation (sf_material s) r) /\
  for_option (symmetric_aperture q) (sf_aperture s) /\
  for_option (symmetric_grooves q) (sf_rulings s) /\
  for_option (symmetric_rigid q) (sf_transformation s).
