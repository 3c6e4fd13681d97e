(** Specification of sharp images: the foci of a conic and what it means that a ray
    is aimed at a point.  Nothing here computes an intercept, a normal or a
    direction. *)
From Coq Require Import Reals List.
From Verif Require Import Vec Num RayModel SurfaceModel SagModel SagSpec SequenceSpec.
Import ListNotations.
Open Scope R_scope.

(** The classes whose surface is the quadric of radius [r] and conic constant [k]. *)
Definition conic_class (s : sag_class) (r k : R) : Prop :=
  s = ConicSag r k \/ s = SphericalSag r /\ k = 0 \/ s = ParabolicSag (r / 2) /\ k = -1.

(** The focus at distance r / (1 + e) from the vertex of the conic of radius [r] and
    eccentricity [e] (conic constant -e^2).  The other focus is [focus r (- e)]; for
    [e = 0] both are the centre of the sphere. *)
Definition focus (r e : R) : vec3 := V3 0 0 (r / (1 + e)).

(** A point, a direction of the surface in the coordinates of the system. *)
Definition place (s : surface) (p : vec3) : vec3 :=
  match sf_transformation s with None => p | Some t => rigid_point t p end.
Definition axis (s : surface) : vec3 :=
  match sf_transformation s with None => V3 0 0 1 | Some t => rigid_vector t (V3 0 0 1) end.

(** The line of the ray passes through [p]; the ray is parallel to [a]. *)
Definition aimed (r : ray) (p : vec3) : Prop :=
  exists x d, r_position r = Some x /\ r_direction r = Some d /\ is_unit d /\ on_line x d p.
Definition parallel (r : ray) (a : vec3) : Prop :=
  exists d, r_direction r = Some d /\ (d = a \/ d = vopp a).

(** The surface has the shape [c] and no rulings, and is moved by a rigid motion. *)
Definition shaped (solver : vec3 -> vec3 -> option R) (c : sag_class) (s : surface) : Prop :=
  sf_sag s = make_sag solver c None /\ sf_rulings s = None /\ rigid_surface s.

(** The material is a mirror, which leaves the medium as it is. *)
Definition reflects (s : surface) : Prop :=
  mat_is_mirror (sf_material s) = true /\ forall r, mat_index (sf_material s) r = r_index r.

(** The ray, seen from the surface, meets it inside of its rim: the intercept is on
    the sag.  ([C06], [C07], [C08] say when that is so.) *)
Definition hits (c : sag_class) (s : surface) (r : ray) : Prop :=
  exists o u q,
    r_position (apply_inverse (sf_transformation s) r) = Some o /\
    r_direction (apply_inverse (sf_transformation s) r) = Some u /\ is_unit u /\
    sag_intercept (sf_sag s) o u = Some q /\ on_graph (class_z c) q /\ interior c (vx q) (vy q).

(** A sequence of mirrors, each a conic one focus of which is where the light of the
    ones before it is focused. *)
Record conic_mirror := { cm_class : sag_class; cm_radius : R; cm_eccentricity : R; cm_surface : surface }.
Fixpoint relayed (solver : vec3 -> vec3 -> option R) (p : vec3) (l : list conic_mirror) (r : ray)
    (p' : vec3) : Prop :=
  match l with
  | [] => p' = p
  | m :: l =>
      let s := cm_surface m in
      let e := cm_eccentricity m in
      e <> 1 /\ e <> -1 /\ conic_class (cm_class m) (cm_radius m) (- (e * e)) /\
      shaped solver (cm_class m) s /\ reflects s /\ hits (cm_class m) s r /\
      p = place s (focus (cm_radius m) e) /\
      relayed solver (place s (focus (cm_radius m) (- e))) l (surface_propagate s r) p'
  end.
