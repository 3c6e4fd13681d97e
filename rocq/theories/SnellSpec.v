(** Specification of refraction and reflection, independent of the code. *)
From Coq Require Import Reals.
From Verif Require Import Vec.
Open Scope R_scope.

(** The part of [a] tangential to the plane with unit normal [u]. *)
Definition tangential (u a : vec3) : vec3 := vsub a (vscale (dot a u) u).

(** Phase matching: the tangential wave vectors n*a agree on both sides. *)
Definition phase_matched (u : vec3) (n1 : R) (a : vec3) (n2 : R) (b : vec3) : Prop :=
  vscale n2 (tangential u b) = vscale n1 (tangential u a).

(** The ray [b] leaves on the side of the interface [a] was heading to. *)
Definition same_side (u a b : vec3) : Prop := 0 <= dot a u * dot b u.
Definition opposite_side (u a b : vec3) : Prop := dot a u * dot b u <= 0.

(** Specular reflection. *)
Definition mirror_image (u a : vec3) : vec3 := vsub a (vscale (2 * dot a u) u).
