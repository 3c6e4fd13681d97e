(** C109: conic mirrors and lenses image their foci sharply. *)
From Coq Require Import Reals List.
From Verif Require Import Vec Num RayModel SurfaceModel SagModel SagSpec FocusSpec FocusProofs FocusExamples.
Import ListNotations.
Open Scope R_scope.

(** C109.  A mirror that is a conic of eccentricity [e] (an ellipsoid, a hyperboloid, or
    with [e = 0] a sphere): a ray through one focus leaves through the other one.  The
    mirror may be anywhere.  [e] may have either sign, so this is both directions. *)
Theorem C109_conic : forall solver c r e s ray, e <> 1 -> e <> -1 -> conic_class c r (- (e * e)) ->
  shaped solver c s -> reflects s -> 0 < r_index ray -> hits c s ray ->
  aimed ray (place s (focus r e)) -> aimed (surface_propagate s ray) (place s (focus r (- e))).
Proof. exact conic_focus. Qed.
Print Assumptions C109_conic.

(** C109.  On an ellipsoid the way from one focus to the other is equally long for all
    rays. *)
Theorem C109_path : forall r e q, r <> 0 -> -1 < e < 1 -> on_graph (conic_z r (- (e * e))) q ->
  vlen (vsub q (focus r e)) + vlen (vsub (focus r (- e)) q) = 2 * Rabs r / (1 - e * e).
Proof. exact conic_path. Qed.
Print Assumptions C109_path.

(** C109.  A paraboloid focuses the rays parallel to its axis at half its radius. *)
Theorem C109_parabola : forall solver c r s ray, conic_class c r (-1) ->
  shaped solver c s -> reflects s -> 0 < r_index ray -> hits c s ray ->
  parallel ray (axis s) -> aimed (surface_propagate s ray) (place s (V3 0 0 (r / 2))).
Proof. exact parabola_focus. Qed.
Print Assumptions C109_parabola.

(** C109.  And makes the rays through its focus parallel. *)
Theorem C109_collimates : forall solver c r s ray, conic_class c r (-1) ->
  shaped solver c s -> reflects s -> 0 < r_index ray -> hits c s ray ->
  aimed ray (place s (V3 0 0 (r / 2))) -> parallel (surface_propagate s ray) (axis s).
Proof. exact parabola_collimates. Qed.
Print Assumptions C109_collimates.

(** C109.  Any number of conic mirrors, the second focus of each of which is the first
    focus of the next: all rays through the first focus of the first one leave the last
    one through its second focus. *)
Theorem C109_relay : forall solver l p ray p', 0 < r_index ray -> aimed ray p -> relayed solver p l ray p' ->
  aimed (propagate_rays surface_propagate (Sequence (map cm_surface l)) ray) p'.
Proof. exact conic_relay. Qed.
Print Assumptions C109_relay.

(** C109.  A refracting conic with eccentricity n1 / n2 focuses the rays parallel to its
    axis. *)
Theorem C109_lens : forall solver c r s ray n2,
  conic_class c r (- (r_index ray / n2 * (r_index ray / n2))) ->
  shaped solver c s -> mat_is_mirror (sf_material s) = false ->
  0 < r_index ray -> 0 < n2 -> r_index ray <> n2 -> n2 = r_index (surface_propagate s ray) -> hits c s ray ->
  parallel ray (axis s) -> aimed (surface_propagate s ray) (place s (V3 0 0 (r * n2 / (n2 - r_index ray)))).
Proof. exact lens_focus. Qed.
Print Assumptions C109_lens.

(** C109.  And with eccentricity n2 / n1 makes the rays through its focus parallel. *)
Theorem C109_lens_collimates : forall solver c r s ray n2,
  conic_class c r (- (n2 / r_index ray * (n2 / r_index ray))) ->
  shaped solver c s -> mat_is_mirror (sf_material s) = false ->
  0 < r_index ray -> 0 < n2 -> r_index ray <> n2 -> n2 = r_index (surface_propagate s ray) -> hits c s ray ->
  aimed ray (place s (V3 0 0 (r * r_index ray / (r_index ray - n2)))) ->
  parallel (surface_propagate s ray) (axis s).
Proof. exact lens_collimates. Qed.
Print Assumptions C109_lens_collimates.

(** C109.  A refracting sphere sends the rays aimed at one of its aplanatic points to the
    other one. *)
Theorem C109_aplanatic : forall solver c r s ray n2, conic_class c r 0 ->
  shaped solver c s -> mat_is_mirror (sf_material s) = false ->
  0 < r_index ray -> 0 < n2 -> n2 = r_index (surface_propagate s ray) -> hits c s ray ->
  aimed ray (place s (V3 0 0 (r + r * (n2 / r_index ray)))) ->
  aimed (surface_propagate s ray) (place s (V3 0 0 (r + r * (r_index ray / n2)))).
Proof. exact sphere_aplanatic. Qed.
Print Assumptions C109_aplanatic.

(** An ellipsoid lit from a focus; that ellipsoid followed by a sphere around the other
    focus. *)
Example C109_nonvacuous : shaped no_solver (ConicSag (16/5) (- (3/5 * (3/5)))) ellipsoid /\ reflects ellipsoid /\
  hits (ConicSag (16/5) (- (3/5 * (3/5)))) ellipsoid from_focus /\
  aimed from_focus (place ellipsoid (focus (16/5) (3/5))) /\
  on_graph (conic_z (16/5) (- (3/5 * (3/5)))) (V3 (12/5) 0 1) /\
  relayed no_solver (V3 0 0 2) pair_of_mirrors from_focus (V3 0 0 8).
Proof.
  exact (conj (proj1 ellipsoid_shaped) (conj (proj2 ellipsoid_shaped) (conj ellipsoid_hits
    (conj ellipsoid_aimed (conj ellipsoid_sag ex_relayed))))).
Qed.
(** A tilted paraboloid. *)
Example C109_nonvacuous_parabola : conic_class (ParabolicSag (4/2)) 4 (-1) /\
  shaped no_solver (ParabolicSag (4/2)) dish /\ reflects dish /\
  hits (ParabolicSag (4/2)) dish starlight /\ parallel starlight (axis dish).
Proof. exact ex_dish. Qed.
Example C109_nonvacuous_lamp :
  hits (ParabolicSag (4/2)) dish lamplight /\ aimed lamplight (place dish (V3 0 0 (4/2))).
Proof. exact ex_lamp. Qed.
(** A lens of index 3/2, both ways, and a ball of index 1.52. *)
Example C109_nonvacuous_lens :
  conic_class lens_class (7/9) (- (r_index beam / (3/2) * (r_index beam / (3/2)))) /\
  shaped no_solver lens_class lens /\ mat_is_mirror (sf_material lens) = false /\ r_index beam <> 3/2 /\
  3/2 = r_index (surface_propagate lens beam) /\ hits lens_class lens beam /\ parallel beam (axis lens).
Proof. exact ex_lens. Qed.
Example C109_nonvacuous_exit : conic_class lens_class (7/9) (- (1 / r_index inside * (1 / r_index inside))) /\
  shaped no_solver lens_class exit_face /\ mat_is_mirror (sf_material exit_face) = false /\ r_index inside <> 1 /\
  1 = r_index (surface_propagate exit_face inside) /\ hits lens_class exit_face inside /\
  aimed inside (place exit_face (V3 0 0 (7/9 * r_index inside / (r_index inside - 1)))).
Proof. exact ex_exit. Qed.
Example C109_nonvacuous_ball : conic_class (SphericalSag 25) 25 0 /\ shaped no_solver (SphericalSag 25) ball /\
  mat_is_mirror (sf_material ball) = false /\ 38/25 = r_index (surface_propagate ball converging) /\
  hits (SphericalSag 25) ball converging /\
  aimed converging (place ball (V3 0 0 (25 + 25 * (38/25 / r_index converging)))).
Proof. exact ex_ball. Qed.
