(** C83: movable objects. *)
From Coq Require Import Reals List Bool Lra.
From Verif Require Import Vec RayModel MixinModel MixinSpec MixinProofs.
Import ListNotations.
Open Scope R_scope.

(** A class deriving from different mixins, in any order, always has a transformation; it applies
    the motions of the mixins in the order in which they are listed as bases, the first one
    first, and can be undone. *)
Theorem C83_order : forall bases m, proper_bases bases -> exists t, object_transformation bases m = Some t /\
  (forall v, rigid_point t v = motions m bases v) /\ (forall v, rigid_point (rigid_inv t) (rigid_point t v) = v) /\
  (forall v, rigid_point t (rigid_point (rigid_inv t) v) = v).
Proof. exact object_moves. Qed.
Print Assumptions C83_order.

(** It keeps distances and orientation. *)
Theorem C83_rigid : forall bases m, proper_bases bases -> exists t, object_transformation bases m = Some t /\
  (forall a b, vlen (vsub (rigid_point t a) (rigid_point t b)) = vlen (vsub a b)) /\
  (forall a b, rigid_vector t (cross a b) = cross (rigid_vector t a) (rigid_vector t b)).
Proof. exact object_rigid. Qed.
Print Assumptions C83_rigid.

(** The vertex of the object is at [translation] if [Translatable] is the last of the bases. *)
Theorem C83_place : forall rotations m, NoDup (rotations ++ [Translatable]) -> Forall is_mixin rotations ->
  exists t, object_transformation (rotations ++ [Translatable]) m = Some t /\ rigid_point t vzero = mv_translation m.
Proof. exact object_place. Qed.
Print Assumptions C83_place.

(** Otherwise it need not be. *)
Theorem C83_place_order_matters : exists bases m t, proper_bases bases /\ In Translatable bases /\ object_transformation bases m = Some t /\
  mv_translation m = V3 0 1 0 /\ rigid_point t vzero = V3 0 0 1.
Proof. exact object_elsewhere. Qed.
Print Assumptions C83_place_order_matters.

Example C83_nonvacuous : proper_bases [Pitchable; Yawable; Rollable; Translatable] /\
  motions (mkMovable (V3 1 2 3) PI PI 0) [Pitchable; Yawable; Rollable; Translatable] (V3 1 0 0) = V3 0 2 3.
Proof.
  split.
  - split; [discriminate|]. split; [|repeat (apply Forall_cons; [unfold is_mixin; tauto|]); apply Forall_nil].
    repeat (apply NoDup_cons; [cbn; intuition discriminate|]). apply NoDup_nil.
  - unfold motions, motion, turn, vadd. cbn [fold_left fst snd vx vy vz mv_pitch mv_yaw mv_roll mv_translation].
    rewrite sin_PI, cos_PI, sin_0, cos_0. f_equal; ring.
Qed.
