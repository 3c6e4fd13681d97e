(** Vocabulary for movable objects. *)
From Coq Require Import Reals List Bool.
From Verif Require Import Vec RayModel MixinModel.
Import ListNotations.
Open Scope R_scope.

(** What each mixin does to a point: a shift, or a turn of the plane normal to an axis. *)
Definition turn (a : R) (p : R * R) : R * R := (fst p * cos a - snd p * sin a, fst p * sin a + snd p * cos a).
Definition motion (m : movable) (c : cls) (v : vec3) : vec3 :=
  match c with
  | Translatable => vadd v (mv_translation m)
  | Pitchable => let q := turn (mv_pitch m) (vy v, vz v) in V3 (vx v) (fst q) (snd q)
  | Yawable => let q := turn (mv_yaw m) (vz v, vx v) in V3 (snd q) (vy v) (fst q)
  | Rollable => let q := turn (mv_roll m) (vx v, vy v) in V3 (fst q) (snd q) (vz v)
  | Transformable | Other _ => v
  end.

(** One after the other. *)
Definition motions (m : movable) (l : list cls) (v : vec3) : vec3 := fold_left (fun v c => motion m c v) l v.

Definition is_mixin (c : cls) : Prop := c = Translatable \/ c = Pitchable \/ c = Yawable \/ c = Rollable.
(** Different mixins, at least one. *)
Definition proper_bases (l : list cls) : Prop := l <> [] /\ NoDup l /\ Forall is_mixin l.
