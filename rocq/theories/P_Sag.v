(** C05-C10, C65: sags, normals and intercepts. *)
From Coq Require Import Reals Lra.
From Coquelicot Require Import Coquelicot.
From Verif Require Import Vec VecLemmas Num NumLemmas RayModel SurfaceModel SagModel SagSpec
  SagNormalProofs SagInterceptProofs SagMoreProofs SagExamples.
Open Scope R_scope.

(** C05.  At every interior point of its domain every class returns the unit normal
    of the graph of its own sag, with negative z. *)
Theorem C05_normal : forall (s : sag_class) (p : vec3), interior s (vx p) (vy p) ->
  exists u, class_normal s p = Some u /\ is_graph_normal (class_z s) (vx p) (vy p) u.
Proof. exact class_normal_ok. Qed.
Print Assumptions C05_normal.

Example C05_nonvacuous :
  interior (ToroidalSag 5 (-10)) 2 3 /\ interior (SphericalSag (-5)) 2 3 /\
  interior (ConicSag 5 (-3)) 20 30 /\ interior (ParabolicSag (-1)) 2 3 /\
  interior (CylindricalSag 5) 2 30.
Proof. exact ex_interior. Qed.

(** C06.  The returned point lies on the line of the ray. *)
Theorem C06_on_line : forall solver s o u q,
  class_intercept solver s o u = Some q -> on_line o u q.
Proof. exact class_on_line. Qed.
Print Assumptions C06_on_line.

(** C06.  It lies on the quadric if the ray is regular ([SagSpec.regular]).  Missing:
    the other rays, for which it is false (below). *)
Theorem C06_on_surface_partial : forall solver s o u q, regular s o u ->
  class_intercept solver s o u = Some q -> on_line o u q /\ on_quadric s q.
Proof. exact class_on_quadric. Qed.
Print Assumptions C06_on_surface_partial.

(** C06 is false: a ray parallel to the xy plane "hits" the sphere at its centre
    plane because sign(0) = 0. *)
Theorem C06_sphere_refuted : exists r o u q, r <> 0 /\ is_unit u /\
  sphere_intercept r o u = Some q /\ ~ on_quadric (SphericalSag r) q.
Proof. exact sphere_off. Qed.
Print Assumptions C06_sphere_refuted.

(** C06 is false: below the threshold the linear branch leaves the conic. *)
Theorem C06_conic_refuted : exists r k o u q, r <> 0 /\ is_unit u /\
  conic_intercept r k o u = Some q /\ ~ on_quadric (ConicSag r k) q.
Proof. exact conic_off. Qed.
Print Assumptions C06_conic_refuted.

(** C06 is false: a ray inclined by 2 microradians is intercepted 0.9 micrometres
    from a paraboloid of focal length 1000 mm. *)
Theorem C06_parabola_refuted : exists f o u q, f <> 0 /\ is_unit u /\ vz u <> 0 /\
  parabola_intercept f o u = Some q /\ ~ on_quadric (ParabolicSag f) q /\
  exists z, parabola_z f (vx q) (vy q) = Some z /\ 9 / 10000 < z - vz q.
Proof. exact parabola_off. Qed.
Print Assumptions C06_parabola_refuted.

(** C06 is false: a ray that misses the cylinder is given a point on the plane z = 0. *)
Theorem C06_cylinder_refuted : exists r o u q, r <> 0 /\ is_unit u /\ vz u <> 0 /\
  cylinder_intercept r o u = Some q /\ ~ on_quadric (CylindricalSag r) q.
Proof. exact cylinder_off. Qed.
Print Assumptions C06_cylinder_refuted.

(** A slanted ray that meets the sphere of radius 5 at (3, 0, 1). *)
Example C06_nonvacuous : regular (SphericalSag 5) (V3 (-1) 0 (-2)) (V3 (4/5) 0 (3/5)) /\
  class_intercept (fun _ _ => None) (SphericalSag 5) (V3 (-1) 0 (-2)) (V3 (4/5) 0 (3/5))
  = Some (V3 3 0 1).
Proof. exact ex_sphere_hit. Qed.

(** C07.  The point returned by the conic is on the vertex sheet. *)
Theorem C07_vertex_sheet : forall r k o u q, regular (ConicSag r k) o u ->
  conic_intercept r k o u = Some q -> on_line o u q /\ on_graph (conic_z r k) q.
Proof. exact conic_line_graph. Qed.
Print Assumptions C07_vertex_sheet.

(** C07.  It is the nearest of the points where the line meets the vertex sheet. *)
Theorem C07_nearest : forall r k o u q q', regular (ConicSag r k) o u ->
  conic_intercept r k o u = Some q -> on_line o u q' -> on_graph (conic_z r k) q' ->
  norm2 (vsub q o) <= norm2 (vsub q' o).
Proof. exact conic_nearest. Qed.
Print Assumptions C07_nearest.

(** C07.  If the line meets the vertex sheet, a point is returned. *)
Theorem C07_complete : forall r k o u q', regular (ConicSag r k) o u ->
  on_line o u q' -> on_graph (conic_z r k) q' -> exists q, conic_intercept r k o u = Some q.
Proof. exact conic_complete. Qed.
Print Assumptions C07_complete.

(** A hyperboloid (k = -2) crossed twice by a steep ray: the vertex sheet. *)
Example C07_nonvacuous : regular (ConicSag 3 (-2)) (V3 0 0 (-1)) (V3 (4/5) 0 (3/5)) /\
  on_line (V3 0 0 (-1)) (V3 (4/5) 0 (3/5)) (V3 4 0 2) /\ on_graph (conic_z 3 (-2)) (V3 4 0 2).
Proof. exact ex_hyperboloid. Qed.

(** C08.  If the line meets the vertex hemisphere in one point, that point is
    returned. *)
Theorem C08_unique : forall r o u q, regular (SphericalSag r) o u ->
  on_line o u q -> on_graph (sphere_z r) q ->
  (forall q', on_line o u q' -> on_graph (sphere_z r) q' -> q' = q) ->
  sphere_intercept r o u = Some q.
Proof. exact sphere_unique. Qed.
Print Assumptions C08_unique.

(** C08, stronger: if the line meets the vertex hemisphere at all, the returned point
    is one of the points where it does. *)
Theorem C08_hemisphere : forall r o u q', regular (SphericalSag r) o u ->
  on_line o u q' -> on_graph (sphere_z r) q' ->
  exists q, sphere_intercept r o u = Some q /\ on_line o u q /\ on_graph (sphere_z r) q.
Proof. exact sphere_hemisphere. Qed.
Print Assumptions C08_hemisphere.

(** A concave mirror (negative radius), a slanted ray and its only intersection with
    the vertex hemisphere. *)
Example C08_nonvacuous : regular (SphericalSag (-5)) (V3 3 0 0) (V3 0 0 1) /\
  on_line (V3 3 0 0) (V3 0 0 1) (V3 3 0 (-1)) /\ on_graph (sphere_z (-5)) (V3 3 0 (-1)) /\
  (forall q', on_line (V3 3 0 0) (V3 0 0 1) q' -> on_graph (sphere_z (-5)) q' -> q' = V3 3 0 (-1)).
Proof. exact ex_concave. Qed.

(** C09.  Same sag. *)
Theorem C09_sag_agree : forall r f x y,
  sphere_z r x y = conic_z r 0 x y /\ parabola_z f x y = conic_z (2 * f) (-1) x y.
Proof. exact sags_agree. Qed.
Print Assumptions C09_sag_agree.

(** C09.  Same normal at every interior point. *)
Theorem C09_normal_agree : forall r f p,
  (interior (SphericalSag r) (vx p) (vy p) -> sphere_normal r p = conic_normal r 0 p) /\
  (f <> 0 -> parabola_normal f p = conic_normal (2 * f) (-1) p).
Proof. exact normals_agree. Qed.
Print Assumptions C09_normal_agree.

(** C09.  Same intercept when the point is the strictly nearest intersection of the
    line with the surface.  Missing: the other intersections, for which it is false. *)
Theorem C09_sphere_partial : forall r o u q, Rabs r <= 10 ^ 12 -> regular (SphericalSag r) o u ->
  sphere_intercept r o u = Some q -> strictly_nearest (sphere_z r) o u q ->
  conic_intercept r 0 o u = Some q.
Proof. exact sphere_agree. Qed.
Print Assumptions C09_sphere_partial.

Theorem C09_parabola_partial : forall f o u q,
  regular (ParabolicSag f) o u -> regular (ConicSag (2 * f) (-1)) o u ->
  parabola_intercept f o u = Some q -> strictly_nearest (parabola_z f) o u q ->
  conic_intercept (2 * f) (-1) o u = Some q.
Proof. exact parabola_agree. Qed.
Print Assumptions C09_parabola_partial.

(** C09 is false: both intersections are on the vertex sheet, and the classes choose
    different ones. *)
Theorem C09_sphere_refuted : exists r o u q q', r <> 0 /\ is_unit u /\ vz u <> 0 /\
  sphere_intercept r o u = Some q /\ on_graph (sphere_z r) q /\
  conic_intercept r 0 o u = Some q' /\ q' <> q.
Proof. exact sphere_disagree. Qed.
Print Assumptions C09_sphere_refuted.

Theorem C09_parabola_refuted : exists f o u q q', regular (ParabolicSag f) o u /\
  parabola_intercept f o u = Some q /\ on_graph (parabola_z f) q /\
  conic_intercept (2 * f) (-1) o u = Some q' /\ q' <> q.
Proof. exact parabola_disagree. Qed.
Print Assumptions C09_parabola_refuted.

Example C09_nonvacuous :
  regular (SphericalSag (-5)) (V3 3 0 0) (V3 0 0 1) /\
  sphere_intercept (-5) (V3 3 0 0) (V3 0 0 1) = Some (V3 3 0 (-1)) /\
  strictly_nearest (sphere_z (-5)) (V3 3 0 0) (V3 0 0 1) (V3 3 0 (-1)).
Proof. exact ex_strict. Qed.

(** C10.  The intercept moves with the transformation (not the toroid, whose inherited
    search ignores it). *)
Theorem C10_intercept_partial : forall solver s t o u, is_rigid t -> ~ is_toroid s ->
  sag_intercept_t solver s (Some t) (rigid_point t o) (rigid_vector t u)
  = omap (rigid_point t) (class_intercept solver s o u).
Proof. exact intercept_moved. Qed.
Print Assumptions C10_intercept_partial.

(** C10.  The normal moves with the transformation if that is a translation. *)
Theorem C10_normal_partial : forall s t p, is_translation t ->
  sag_normal_t s (Some t) (rigid_point t p) = omap (rigid_vector t) (class_normal s p).
Proof. exact translation_normal. Qed.
Print Assumptions C10_normal_partial.

(** C10.  The sag is the moved surface if the transformation keeps the height of
    every point (curved classes), or translates (plane). *)
Theorem C10_sag_partial : forall s t p z, keeps_height t -> s <> NoSag ->
  sag_z_t s (Some t) p = Some z -> moved_surface (class_z s) t (V3 (vx p) (vy p) z).
Proof. exact height_sag. Qed.
Print Assumptions C10_sag_partial.

Theorem C10_flat_partial : forall t p z, is_translation t ->
  sag_z_t NoSag (Some t) p = Some z -> moved_surface (class_z NoSag) t (V3 (vx p) (vy p) z).
Proof. exact flat_translation. Qed.
Print Assumptions C10_flat_partial.

(** C10 is false: the height of the sag ignores a shift along z. *)
Theorem C10_sag_refuted : exists s t p z, s <> NoSag /\ is_translation t /\
  sag_z_t s (Some t) p = Some z /\ ~ moved_surface (class_z s) t (V3 (vx p) (vy p) z).
Proof. exact sag_not_moved. Qed.
Print Assumptions C10_sag_refuted.

(** C10 is false: the normal is not rotated back. *)
Theorem C10_normal_refuted : exists s t p n, is_rigid t /\
  class_normal s p = Some n /\ sag_normal_t s (Some t) (rigid_point t p) <> Some (rigid_vector t n).
Proof. exact normal_not_rotated. Qed.
Print Assumptions C10_normal_refuted.

(** C10 is false: the height of a tilted plane is taken at the wrong place. *)
Theorem C10_flat_refuted : exists t p z, is_rigid t /\ sag_z_t NoSag (Some t) p = Some z /\
  ~ moved_surface (class_z NoSag) t (V3 (vx p) (vy p) z).
Proof. exact flat_tilt. Qed.
Print Assumptions C10_flat_refuted.

(** C10 is false: the intercept is not on the sag of the same object. *)
Theorem C10_intercept_refuted : exists s t o u q, is_translation t /\
  sag_intercept_t (fun _ _ => None) s (Some t) o u = Some q /\ sag_z_t s (Some t) q <> Some (vz q).
Proof. exact intercept_off_sag. Qed.
Print Assumptions C10_intercept_refuted.

Example C10_nonvacuous : is_rigid tilt345 /\ is_translation (mkRigid mid (V3 1 2 3)) /\
  keeps_height (mkRigid (M3 (V3 0 (-1) 0) (V3 1 0 0) (V3 0 0 1)) (V3 1 2 0)).
Proof. exact ex_motions. Qed.

(** C65.  No ray that meets the vertex sheet is lost, for regular rays.  Missing: rays
    below the degenerate threshold. *)
Theorem C65_not_lost_partial : forall r k o u q', regular (ConicSag r k) o u ->
  on_line o u q' -> on_graph (conic_z r k) q' -> exists q, conic_intercept r k o u = Some q.
Proof. exact conic_complete. Qed.
Print Assumptions C65_not_lost_partial.

(** C65 is false in exact arithmetic: the ray along the axis of a nearly parabolic
    mirror (k = -1 + 1e-10, radius 1000) is lost. *)
Theorem C65_degenerate_refuted : exists r k o u q', r <> 0 /\ is_unit u /\ on_line o u q' /\
  on_graph (conic_z r k) q' /\ conic_intercept r k o u = None.
Proof. exact conic_lost. Qed.
Print Assumptions C65_degenerate_refuted.
