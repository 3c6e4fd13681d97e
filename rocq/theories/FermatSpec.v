(** Specification of the optical length of paths and of their variations. *)
From Coq Require Import Reals List.
From Coquelicot Require Import Coquelicot.
From Verif Require Import Vec Num RayModel SurfaceModel SagModel SagSpec SequenceSpec FocusSpec.
Import ListNotations.
Open Scope R_scope.

(** The optical length of the broken line from [x] through the listed points to [e]: the sum of
    the distances, each times the index of the medium it lies in.  [n] is the index before the
    first point; every point comes with the index after it. *)
Fixpoint optical_length (n : R) (x : vec3) (l : list (R * vec3)) (e : vec3) : R :=
  match l with
  | [] => n * vlen (vsub e x)
  | (n', p) :: l => n * vlen (vsub p x) + optical_length n' p l e
  end.

(** Each of the rays starts further on along the one before it, and [e] lies on the last. *)
Definition ahead (r : ray) (p : vec3) : Prop :=
  exists x d t, r_position r = Some x /\ r_direction r = Some d /\ 0 < t /\ p = vadd x (vscale t d).
Fixpoint forward (r : ray) (rays : list ray) (e : vec3) : Prop :=
  match rays with
  | [] => ahead r e
  | r' :: rays => (exists p, r_position r' = Some p /\ ahead r p) /\ forward r' rays e
  end.

(** At the parameter 0 the curve is in [x] and has the velocity [v]. *)
Definition moves (c : R -> vec3) (x v : vec3) : Prop :=
  c 0 = x /\ is_derive (fun t => vx (c t)) 0 (vx v) /\ is_derive (fun t => vy (c t)) 0 (vy v) /\
  is_derive (fun t => vz (c t)) 0 (vz v).

(** Around 0 the curve stays on the surface. *)
Definition stays_on (k : sag_class) (s : surface) (c : R -> vec3) : Prop :=
  locally 0 (fun t => on_graph (class_z k) (local_point s (c t))).

(** Every point at which the ray meets a surface is varied along a curve in the surface. *)
Fixpoint varied (l : list (sag_class * surface)) (rays : list ray) (cs : list (R -> vec3)) : Prop :=
  match l, rays, cs with
  | [], [], [] => True
  | (k, s) :: l, r :: rays, c :: cs =>
      (exists x v, r_position r = Some x /\ moves c x v /\ stays_on k s c /\
         interior k (vx (local_point s x)) (vy (local_point s x))) /\ varied l rays cs
  | _, _, _ => False
  end.

(** The point lies in the plane of a flat surface. *)
Definition in_plane (s : surface) (y : vec3) : Prop := vz (local_point s y) = 0.
