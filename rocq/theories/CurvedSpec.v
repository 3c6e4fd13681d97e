(** Specification for paths through curved mirrors. *)
From Coq Require Import Reals List Bool.
From Verif Require Import Vec Num RayModel SurfaceModel SagModel SequenceSpec SystemModel SystemSpec.
Import ListNotations.
Open Scope R_scope.

(** A surface of any figure, without rulings, that transmits without refraction or reflects. *)
Definition figured (s : surface) : Prop :=
  rigid_surface s /\ sf_rulings s = None /\
  (forall o u q, sag_intercept (sf_sag s) o u = Some q -> on_line o u q) /\
  (forall x n, sag_normal (sf_sag s) x = Some n -> is_unit n) /\
  (mat_is_mirror (sf_material s) = true /\ (forall r, mat_index (sf_material s) r = r_index r) \/
   mat_is_mirror (sf_material s) = false /\ (forall r, mat_index (sf_material s) r = 1)).

(** Which point of the surface is struck depends on the line through [o] along [u] only, not on
    the starting point on it or on the sense in which it is followed. *)
Definition determined (s : surface) (o u : vec3) : Prop :=
  forall k e, e = 1 \/ e = -1 ->
    sag_intercept (sf_sag s) (vadd (local_point s o) (vscale k (local_vector s u))) (vscale e (local_vector s u))
    = sag_intercept (sf_sag s) (local_point s o) (local_vector s u).

(** The line through [o] along [u] strikes the surface in [q]. *)
Definition struck (s : surface) (o u q : vec3) : Prop :=
  sag_intercept (sf_sag s) (local_point s o) (local_vector s u) = Some (local_point s q).

(** The ray [r] is sent on by [s], and the line on which it leaves strikes [s] nowhere else. *)
Definition strikes_once (s : surface) (r : ray) : Prop :=
  exists p d q c, r_position r = Some p /\ r_direction r = Some d /\
    r_position (surface_propagate s r) = Some q /\ r_direction (surface_propagate s r) = Some c /\
    determined s p d /\ determined s q c /\ struck s q c q.

(** This holds of every surface on the way of the ray. *)
Fixpoint clean_path (ss : list surface) (r : ray) : Prop :=
  match ss with
  | [] => True
  | s :: ss => strikes_once s r /\ clean_path ss (surface_propagate s r)
  end.

(** Lines whose intercept with a sag depends on nothing but the line.  A conic takes the nearest
    of the valid points, so there must not be two; nearly degenerate directions are approximated
    unless they are exactly degenerate; the toroid is solved by iteration. *)
Definition line_regular (s : sag_class) (o u : vec3) : Prop :=
  match s with
  | NoSag | SphericalSag _ | CylindricalSag _ => True
  | ParabolicSag _ => 1 / 10 ^ 10 < vx u * vx u + vy u * vy u \/ vx u = 0 /\ vy u = 0
  | ConicSag r k =>
      1 / 10 ^ 12 <= Rabs (conic_a (1 / r) k u) /\
      (conic_root (1 / r) k o u (-1) = None \/ conic_root (1 / r) k o u 1 = None)
  | ToroidalSag _ _ => False
  end.
