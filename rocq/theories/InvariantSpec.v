(** Specification of what a ray keeps on its way through a symmetric system. *)
From Coq Require Import Reals List Bool.
From Verif Require Import Vec Num RayModel SnellSpec SurfaceModel SagModel SagSpec SequenceSpec FocusSpec.
Import ListNotations.
Open Scope R_scope.

(** The moment of the line through [p] with direction [d] about the axis through [c] with direction [a]. *)
Definition moment (c a p d : vec3) : R := dot a (cross (vsub p c) d).

(** The surface, in its own coordinates, is unchanged by rotations about the axis
    through [c] with direction [a]: the plane about all lines perpendicular to it, the sphere
    about all lines through its centre, conics about the z axis, cylinder and toroid about
    their axis, which is parallel to the y axis. *)
Definition turns (k : sag_class) (c a : vec3) : Prop :=
  match k with
  | NoSag => vx a = 0 /\ vy a = 0
  | SphericalSag r => on_line c a (V3 0 0 r)
  | ConicSag _ _ | ParabolicSag _ => vx c = 0 /\ vy c = 0 /\ vx a = 0 /\ vy a = 0
  | CylindricalSag r => vx c = 0 /\ vz c = r /\ vx a = 0 /\ vz a = 0
  | ToroidalSag _ r => vx c = 0 /\ vz c = r /\ vx a = 0 /\ vz a = 0
  end.
(** It is unchanged by shifts along [a]. *)
Definition slides (k : sag_class) (a : vec3) : Prop :=
  match k with
  | NoSag => vz a = 0
  | CylindricalSag _ => vx a = 0 /\ vz a = 0
  | _ => False
  end.
(** The normal of a plane and of a conic is known also for points that are not on them. *)
Definition met (k : sag_class) (s : surface) (r : ray) : Prop :=
  match k with NoSag | ConicSag _ _ | ParabolicSag _ => True | _ => hits k s r end.

(** A ray goes through surfaces that are all symmetric about one axis, or along one direction. *)
Fixpoint turning solver (c a : vec3) (l : list (sag_class * surface)) (r : ray) : Prop :=
  match l with
  | [] => True
  | (k, s) :: l => shaped solver k s /\ turns k (local_point s c) (local_vector s a) /\ met k s r /\
                   turning solver c a l (surface_propagate s r)
  end.
Definition sliding solver (a : vec3) (l : list (sag_class * surface)) : Prop :=
  Forall (fun ks => shaped solver (fst ks) (snd ks) /\ slides (fst ks) (local_vector (snd ks) a)) l.

(** A plane perpendicular to [a], between media of positive index. *)
Definition plane solver (a : vec3) (s : surface) : Prop :=
  shaped solver NoSag s /\ (a = axis s \/ a = vopp (axis s)) /\
  forall r, 0 < r_index r -> 0 < mat_index (sf_material s) r.
(** The number of mirrors. *)
Definition is_mirror (s : surface) : bool := mat_is_mirror (sf_material s).
Definition mirrors (ss : list surface) : nat := length (filter is_mirror ss).
(** A flat mirror, and the direction after a sequence of them: one mirror image after the other. *)
Definition flat_mirror solver (s : surface) : Prop := shaped solver NoSag s /\ reflects s.
Definition images (ss : list surface) (d : vec3) : vec3 := fold_left (fun d s => mirror_image (axis s) d) ss d.
