(** C110: what a ray keeps on its way through a symmetric system. *)
From Coq Require Import Reals List.
From Verif Require Import Vec Num RayModel SnellSpec SurfaceModel SagModel SagSpec FocusSpec FocusExamples
  InvariantSpec InvariantProofs InvariantExamples.
Import ListNotations.
Open Scope R_scope.

(** C110.  In a system of planes, spheres, conics, cylinders and toroids, mirrors or
    lenses, anywhere in space but all symmetric about one line, every ray that gets
    through has the same index times moment about that line behind the system as before
    it (its skewness). *)
Theorem C110_moment : forall solver c a l r b, turning solver c a l r ->
  r_direction (propagate_rays surface_propagate (Sequence (map snd l)) r) = Some b -> l <> [] ->
  exists x d x', r_position r = Some x /\ r_direction r = Some d /\
    r_position (propagate_rays surface_propagate (Sequence (map snd l)) r) = Some x' /\
    r_index (propagate_rays surface_propagate (Sequence (map snd l)) r) * moment c a x' b = r_index r * moment c a x d.
Proof. exact turn_chain. Qed.
Print Assumptions C110_moment.

(** C110.  In a system of planes and cylinders unchanged by shifts along [a], every ray
    keeps its index times its component along [a]. *)
Theorem C110_slide : forall solver a l r b, sliding solver a l ->
  r_direction (propagate_rays surface_propagate (Sequence (map snd l)) r) = Some b ->
  exists d, r_direction r = Some d /\
    r_index (propagate_rays surface_propagate (Sequence (map snd l)) r) * dot b a = r_index r * dot d a.
Proof. exact slide_chain. Qed.
Print Assumptions C110_slide.

(** C110.  Through any number of parallel planes: the index times the tangential part
    stays, and each mirror turns the side around. *)
Theorem C110_planes : forall solver a ss r b, List.Forall (plane solver a) ss -> ss <> [] -> 0 < r_index r ->
  r_direction (propagate_rays surface_propagate (Sequence ss) r) = Some b ->
  exists d, r_direction r = Some d /\ dot d a <> 0 /\ is_unit b /\
    vscale (r_index (propagate_rays surface_propagate (Sequence ss) r)) (tangential a b) = vscale (r_index r) (tangential a d) /\
    0 <= (-1) ^ mirrors ss * (dot d a * dot b a).
Proof. exact plane_chain. Qed.
Print Assumptions C110_planes.

(** C110.  So back in the medium it came from, the ray is parallel to what it was, or to
    its mirror image, whatever the media between. *)
Theorem C110_plate : forall solver a ss r b, List.Forall (plane solver a) ss -> ss <> [] -> 0 < r_index r ->
  (forall d, r_direction r = Some d -> is_unit d) ->
  r_index (propagate_rays surface_propagate (Sequence ss) r) = r_index r ->
  r_direction (propagate_rays surface_propagate (Sequence ss) r) = Some b ->
  exists d, r_direction r = Some d /\ b = if Nat.even (mirrors ss) then d else mirror_image a d.
Proof. exact plate. Qed.
Print Assumptions C110_plate.

(** C110.  Flat mirrors make one mirror image after the other of the direction. *)
Theorem C110_mirrors : forall solver ss r b, List.Forall (flat_mirror solver) ss -> 0 < r_index r ->
  (forall d, r_direction r = Some d -> is_unit d) ->
  r_direction (propagate_rays surface_propagate (Sequence ss) r) = Some b ->
  exists d, r_direction r = Some d /\ b = images ss d.
Proof. exact mirror_chain. Qed.
Print Assumptions C110_mirrors.

(** C110.  Three of them, perpendicular to each other, send every ray back where it came
    from. *)
Theorem C110_corner : forall solver s1 s2 s3 r b, List.Forall (flat_mirror solver) [s1; s2; s3] ->
  dot (axis s1) (axis s2) = 0 -> dot (axis s2) (axis s3) = 0 -> dot (axis s3) (axis s1) = 0 ->
  0 < r_index r -> (forall d, r_direction r = Some d -> is_unit d) ->
  r_direction (propagate_rays surface_propagate (Sequence [s1; s2; s3]) r) = Some b ->
  r_direction r = Some (vopp b).
Proof. exact corner. Qed.
Print Assumptions C110_corner.

(** A skew ray that goes through a plane into a liquid and there onto a spherical mirror. *)
Example C110_nonvacuous_moment : turning no_solver (V3 0 1 0) (V3 0 0 1) skew_system skew /\
  moment (V3 0 1 0) (V3 0 0 1) (V3 0 0 (-1)) (V3 (3/5) 0 (4/5)) = 3/5 /\
  exists b, r_direction (propagate_rays surface_propagate (Sequence (map snd skew_system)) skew) = Some b.
Proof. exact ex_turning. Qed.
(** A cylindrical mirror. *)
Example C110_nonvacuous_slide : sliding no_solver (V3 0 1 0) [(CylindricalSag 5, gutter)] /\
  dot (V3 0 (3/5) (4/5)) (V3 0 1 0) <> 0 /\
  exists b, r_direction (propagate_rays surface_propagate (Sequence (map snd [(CylindricalSag 5, gutter)])) oblique) = Some b.
Proof. exact ex_sliding. Qed.
(** Into a liquid, onto a mirror at its bottom and out again. *)
Example C110_nonvacuous_plate : List.Forall (plane no_solver (V3 0 0 1)) pond /\ mirrors pond = 1%nat /\
  r_index (propagate_rays surface_propagate (Sequence pond) skew) = r_index skew /\
  r_direction (propagate_rays surface_propagate (Sequence pond) skew) = Some (V3 (3/5) 0 (-4/5)).
Proof. exact ex_pond. Qed.
(** The corner of a cube. *)
Example C110_nonvacuous_corner : List.Forall (flat_mirror no_solver) [floor; wall_x; wall_y] /\
  dot (axis floor) (axis wall_x) = 0 /\ dot (axis wall_x) (axis wall_y) = 0 /\ dot (axis wall_y) (axis floor) = 0 /\
  exists b, r_direction (propagate_rays surface_propagate (Sequence [floor; wall_x; wall_y]) incoming) = Some b.
Proof. exact ex_corner. Qed.
