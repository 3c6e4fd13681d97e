(** Specification for spot diagrams. *)
From Coq Require Import Reals List Bool.
From Verif Require Import Vec Num RayModel.
Import ListNotations.
Open Scope R_scope.

(** None of the rays is NaN and they strike the sensor at [ps]. *)
Definition strike (rays : list ray) (ps : list vec3) : Prop := map r_position rays = map Some ps.

(** The balance point of a set of points. *)
Definition centroid (ps : list (R * R)) (c : R * R) : Prop :=
  rsum (map (fun p => fst p - fst c) ps) = 0 /\ rsum (map (fun p => snd p - snd c) ps) = 0.

(** [qs] is [ps] seen from [c]. *)
Definition seen_from (c : R * R) (ps qs : list (R * R)) : Prop :=
  Forall2 (fun p q => fst q = fst p - fst c /\ snd q = snd p - snd c) ps qs.

Definition xy (p : vec3) : R * R := (vx p, vy p).
