(** Vocabulary for drawings. *)
From Coq Require Import Reals List Bool.
From Verif Require Import Vec Num RayModel SurfaceModel SequenceSpec SystemModel DrawModel.
Import ListNotations.
Open Scope R_scope.

Definition rigid_option (t : option rigid) : Prop := match t with None => True | Some t => is_rigid t end.

(** The surfaces of a system where they are in the room, and the ray after each of them. *)
Definition in_room (sys : system) (s : surface) : surface :=
  match sys_transformation sys with None => s | Some t => move_surface t s end.
Definition room_path (sys : system) (r : ray) : list ray :=
  accumulate_rays surface_propagate (Sequence (map (fun s => in_room sys (st_surface s)) (surfaces_all sys))) r.

(** The point of the room that has the coordinates [p] of the surface [s]; [outer] is where the
    drawing is put. *)
Definition room_point (outer : option rigid) (sys : system) (s : surface) (p : vec3) : vec3 :=
  place outer (place (sys_transformation sys) (place (sf_transformation s) p)).

(** A point, in the coordinates of the surface, lies on its sag. *)
Definition on_sag (l : looks) (p : vec3) : Prop := lk_sag l p = Some (vz p).

(** Intercepts are points of the sag (C06), which does not depend on z. *)
Definition sound_sag (s : surface) (l : looks) : Prop :=
  (forall x d q, sag_intercept (sf_sag s) x d = Some q -> on_sag l q) /\
  (forall p q, vx p = vx q -> vy p = vy q -> lk_sag l p = lk_sag l q).

(** A ray reaches the end of the system. *)
Definition arrives (sys : system) (r : ray) : bool :=
  match last_of (room_path sys r) with Some r' => r_unvignetted r' | None => false end.

Definition rigid_system (sys : system) : Prop :=
  rigid_option (sys_transformation sys) /\ Forall (fun s => rigid_surface (st_surface s)) (surfaces_all sys).
