(** Rays and rigid transformations. *)
From Coq Require Import Reals Bool.
From Verif Require Import Vec Num.
Open Scope R_scope.
Open Scope opt_scope.

(** optika/rays/_ray_vectors.py:239-278, [RayVectorArray], one ray.
    [None] in a field stands for NaN (all three components of a vector are
    lumped together). *)
Record ray := mkRay {
  r_wavelength : R;
  r_position : option vec3;
  r_direction : option vec3;
  r_intensity : option R;
  r_attenuation : R;
  r_index : R;
  r_unvignetted : bool;
}.

(** [named_arrays.transformations]: an affine transformation with a rotation
    (or reflection) matrix, the only kind used by optika.  The inverse is
    written with the transpose, which is the inverse of an orthogonal matrix
    (all theorems using it assume [orthogonal]). *)
Record rigid := mkRigid { rg_mat : mat3; rg_shift : vec3 }.

Definition rigid_point (t : rigid) (v : vec3) : vec3 := vadd (mapply (rg_mat t) v) (rg_shift t).
Definition rigid_vector (t : rigid) (v : vec3) : vec3 := mapply (rg_mat t) v.
Definition rigid_inv (t : rigid) : rigid :=
  mkRigid (mtrans (rg_mat t)) (vopp (mapply (mtrans (rg_mat t)) (rg_shift t))).
Definition rigid_id : rigid := mkRigid mid vzero.
(** [t1 @ t2] *)
Definition rigid_compose (t1 t2 : rigid) : rigid :=
  mkRigid (mmul (rg_mat t1) (rg_mat t2)) (vadd (mapply (rg_mat t1) (rg_shift t2)) (rg_shift t1)).
Definition is_rigid (t : rigid) : Prop := orthogonal (rg_mat t).

(** optika/rays/_ray_vectors.py:104-166, [__array_matmul__] acts on position and
    direction, [__array_add__] on the position only; every other field is
    copied by [dataclasses.replace]. *)
Definition ray_transform (t : rigid) (r : ray) : ray :=
  mkRay (r_wavelength r) (omap (rigid_point t) (r_position r))
        (omap (rigid_vector t) (r_direction r))
        (r_intensity r) (r_attenuation r) (r_index r) (r_unvignetted r).

Definition set_position (p : option vec3) (r : ray) : ray :=
  mkRay (r_wavelength r) p (r_direction r) (r_intensity r) (r_attenuation r) (r_index r)
        (r_unvignetted r).
Definition set_direction (d : option vec3) (r : ray) : ray :=
  mkRay (r_wavelength r) (r_position r) d (r_intensity r) (r_attenuation r) (r_index r)
        (r_unvignetted r).
Definition set_intensity (i : option R) (r : ray) : ray :=
  mkRay (r_wavelength r) (r_position r) (r_direction r) i (r_attenuation r) (r_index r)
        (r_unvignetted r).
Definition set_unvignetted (b : bool) (r : ray) : ray :=
  mkRay (r_wavelength r) (r_position r) (r_direction r) (r_intensity r) (r_attenuation r)
        (r_index r) b.
