(** C112: rays and the lengths of paths. *)
From Coq Require Import Reals List.
From Coquelicot Require Import Coquelicot.
From Verif Require Import Vec Num RayModel SnellSpec SurfaceModel SagModel SagSpec FocusSpec FocusExamples
  InvariantExamples FermatSpec FermatProofs FermatExamples.
Import ListNotations.
Open Scope R_scope.

(** C112.  Planes, mirrors or lenses, anywhere in space: of all broken lines from the start
    of the ray through one point of each plane in turn to a point ahead on the last ray, the
    ray takes the shortest, where lengths are counted times the index of their medium. *)
Theorem C112_shortest : forall solver ss r x d xs ys e,
  List.Forall (shaped solver NoSag) ss -> r_position r = Some x -> r_direction r = Some d -> is_unit d ->
  0 < r_index r -> List.Forall (fun r => 0 < r_index r) (accumulate_rays surface_propagate (Sequence ss) r) ->
  forward r (accumulate_rays surface_propagate (Sequence ss) r) e ->
  map r_position (accumulate_rays surface_propagate (Sequence ss) r) = map Some xs ->
  Forall2 in_plane ss ys -> ys <> xs ->
  let ns := map r_index (accumulate_rays surface_propagate (Sequence ss) r) in
  optical_length (r_index r) x (combine ns xs) e < optical_length (r_index r) x (combine ns ys) e.
Proof. exact shortest_path. Qed.
Print Assumptions C112_shortest.

(** C112.  Surfaces of all shapes: if the points where the ray meets them are moved along any
    curves within the surfaces, the optical length between fixed ends does not change to
    first order (Fermat's principle). *)
Theorem C112_fermat : forall solver l r d cs e,
  List.Forall (fun ks => shaped solver (fst ks) (snd ks)) l ->
  r_direction r = Some d -> is_unit d ->
  forward r (accumulate_rays surface_propagate (Sequence (map snd l)) r) e ->
  varied l (accumulate_rays surface_propagate (Sequence (map snd l)) r) cs ->
  exists x, r_position r = Some x /\
    is_derive (fun t => optical_length (r_index r) x
      (combine (map r_index (accumulate_rays surface_propagate (Sequence (map snd l)) r)) (map (fun c => c t) cs)) e) 0 0.
Proof. exact fermat. Qed.
Print Assumptions C112_fermat.

(** C112.  If the ends move too, only they count, each with the index times the direction of
    the ray there (Hamilton's characteristic function). *)
Theorem C112_variation : forall solver l r x d c0 v0 cs e ce ve b,
  List.Forall (fun ks => shaped solver (fst ks) (snd ks)) l ->
  r_position r = Some x -> r_direction r = Some d -> is_unit d ->
  forward r (accumulate_rays surface_propagate (Sequence (map snd l)) r) e ->
  varied l (accumulate_rays surface_propagate (Sequence (map snd l)) r) cs ->
  moves c0 x v0 -> moves ce e ve ->
  r_direction (propagate_rays surface_propagate (Sequence (map snd l)) r) = Some b ->
  is_derive (fun t => optical_length (r_index r) (c0 t)
      (combine (map r_index (accumulate_rays surface_propagate (Sequence (map snd l)) r)) (map (fun c => c t) cs)) (ce t)) 0
    (r_index (propagate_rays surface_propagate (Sequence (map snd l)) r) * dot b ve - r_index r * dot d v0).
Proof. exact variation. Qed.
Print Assumptions C112_variation.

(** C112.  So rays that leave a wavefront at right angles are at right angles to every later
    surface of equal optical length (the theorem of Malus and Dupin). *)
Theorem C112_malus : forall solver l r x d c0 v0 cs e ce ve b L,
  List.Forall (fun ks => shaped solver (fst ks) (snd ks)) l ->
  r_position r = Some x -> r_direction r = Some d -> is_unit d ->
  forward r (accumulate_rays surface_propagate (Sequence (map snd l)) r) e ->
  varied l (accumulate_rays surface_propagate (Sequence (map snd l)) r) cs ->
  moves c0 x v0 -> moves ce e ve ->
  r_direction (propagate_rays surface_propagate (Sequence (map snd l)) r) = Some b ->
  r_index (propagate_rays surface_propagate (Sequence (map snd l)) r) <> 0 ->
  dot d v0 = 0 ->
  locally 0 (fun t => optical_length (r_index r) (c0 t)
      (combine (map r_index (accumulate_rays surface_propagate (Sequence (map snd l)) r)) (map (fun c => c t) cs)) (ce t) = L) ->
  dot b ve = 0.
Proof. exact malus. Qed.
Print Assumptions C112_malus.

(** A ray into a liquid, onto its bottom and out again, and another way through the same
    planes. *)
Example C112_shortest_nonvacuous : let rays := accumulate_rays surface_propagate (Sequence pond) skew in
  List.Forall (shaped no_solver NoSag) pond /\ is_unit (V3 (3/5) 0 (4/5)) /\ 0 < r_index skew /\
  List.Forall (fun r => 0 < r_index r) rays /\ forward skew rays (V3 (47/4) 0 (-4)) /\
  map r_position rays = map Some pond_points /\ Forall2 in_plane pond pond_detour /\ pond_detour <> pond_points.
Proof. exact ex_planes. Qed.

(** A skew ray through the surface of a liquid onto a spherical mirror; its points are moved
    in the plane and around the sphere. *)
Example C112_fermat_nonvacuous : let rays := accumulate_rays surface_propagate (Sequence (map snd skew_system)) skew in
  List.Forall (fun ks => shaped no_solver (fst ks) (snd ks)) skew_system /\ is_unit (V3 (3/5) 0 (4/5)) /\
  forward skew rays (vadd (V3 (7/4) 0 (3/4)) bounced) /\ varied skew_system rays [slide; spin] /\
  r_direction (propagate_rays surface_propagate (Sequence (map snd skew_system)) skew) = Some bounced.
Proof. exact ex_varied. Qed.
Example C112_variation_nonvacuous : moves (fun t => V3 t 0 (-1)) (V3 0 0 (-1)) (V3 1 0 0) /\
  moves (fun t => vadd (vadd (V3 (7/4) 0 (3/4)) bounced) (V3 0 t 0)) (vadd (V3 (7/4) 0 (3/4)) bounced) (V3 0 1 0).
Proof. exact ex_ends. Qed.

(** A plane wave and a flat mirror. *)
Example C112_malus_nonvacuous : let l := [(NoSag, floor)] in
  let rays := accumulate_rays surface_propagate (Sequence (map snd l)) beam in
  List.Forall (fun ks => shaped no_solver (fst ks) (snd ks)) l /\ is_unit (V3 (3/5) 0 (4/5)) /\
  forward beam rays (V3 3 0 (-4)) /\ varied l rays [footprint] /\
  moves front (V3 (-3) 0 (-4)) (V3 (4/5) 0 (-3/5)) /\ moves rear (V3 3 0 (-4)) (V3 (4/5) 0 (3/5)) /\
  r_direction (propagate_rays surface_propagate (Sequence (map snd l)) beam) = Some (V3 (3/5) 0 (-4/5)) /\
  r_index (propagate_rays surface_propagate (Sequence (map snd l)) beam) <> 0 /\
  dot (V3 (3/5) 0 (4/5)) (V3 (4/5) 0 (-3/5)) = 0 /\
  locally 0 (fun t => optical_length (r_index beam) (front t) (combine (map r_index rays) (map (fun c => c t) [footprint])) (rear t) = 10).
Proof. exact ex_front. Qed.
