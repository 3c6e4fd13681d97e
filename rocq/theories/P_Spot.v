(** C94: spot diagrams. *)
From Coq Require Import Reals List Bool Lra.
From Verif Require Import Vec Num RayModel SystemModel SpotModel SpotSpec SpotProofs.
Import ListNotations.
Open Scope R_scope.

(** The points drawn are the unvignetted rays, seen from the balance point of all the rays. *)
Theorem C94_figure_partial : forall rays ps qs,
  strike rays ps -> strike (filter r_unvignetted rays) qs -> rays <> [] ->
  exists c, centroid (map xy ps) c /\ seen_from c (map xy qs) (spot rays).
Proof. exact spot_figure. Qed.
Print Assumptions C94_figure_partial.

(** Distances in the diagram are distances on the sensor. *)
Theorem C94_distances_partial : forall rays ps qs i j p q p' q',
  strike rays ps -> strike (filter r_unvignetted rays) qs ->
  nth_error qs i = Some p -> nth_error qs j = Some q ->
  nth_error (spot rays) i = Some p' -> nth_error (spot rays) j = Some q' ->
  fst p' - fst q' = vx p - vx q /\ snd p' - snd q' = vy p - vy q.
Proof. exact spot_distances. Qed.
Print Assumptions C94_distances_partial.

(** When no ray is lost the spot is centred on the origin. *)
Theorem C94_centred_partial : forall rays ps, strike rays ps -> rays <> [] ->
  List.Forall (fun r => r_unvignetted r = true) rays ->
  centroid (spot rays) (0, 0) /\ length (spot rays) = length rays.
Proof. exact spot_centred. Qed.
Print Assumptions C94_centred_partial.

(** A vignetted ray, which is not drawn, moves the spot off the origin. *)
Theorem C94_centred_refuted : exists rays ps q, strike rays ps /\ spot rays = [q] /\ fst q = -1.
Proof. exact spot_shifted. Qed.
Print Assumptions C94_centred_refuted.

(** A ray that is both vignetted and lost blanks the spot of the others. *)
Theorem C94_shown_refuted : exists rays r, In r rays /\ r_unvignetted r = true /\ r_position r <> None /\
  List.Forall (fun r => r_unvignetted r = true -> r_position r <> None) rays /\ spot rays = [].
Proof. exact spot_blank. Qed.
Print Assumptions C94_shown_refuted.

Example C94_nonvacuous :
  let rays := [spot_ray (Some (V3 1 2 0)) true; spot_ray (Some (V3 3 0 0)) true; spot_ray (Some (V3 2 1 0)) false] in
  strike rays [V3 1 2 0; V3 3 0 0; V3 2 1 0] /\
  strike (filter r_unvignetted rays) [V3 1 2 0; V3 3 0 0] /\ rays <> [] /\
  List.Forall (fun r => r_unvignetted r = true) (firstn 2 rays).
Proof.
  cbv zeta. split; [reflexivity|]. split; [reflexivity|]. split; [discriminate|]. repeat constructor.
Qed.
