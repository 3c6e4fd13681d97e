(** C117: centred systems are those of Gaussian optics near their axis. *)
From Coq Require Import Reals Lra List.
From Coquelicot Require Import Coquelicot.
From Verif Require Import Vec Num RayModel SurfaceModel SagModel FocusExamples ParaxialSpec ParaxialImageProofs ParaxialProofs ParaxialExamples.
Import ListNotations.
Open Scope R_scope.

(** C117.  A family of rays near the axis leaves any sequence of centred surfaces (glasses and mirrors, plane, spherical, conic,
    parabolic and cylindrical, in any order and orientation) as the textbook's formulas for the transfer and the refraction
    say, to first order, in both planes. *)
Theorem C117_partial : forall solver ss l l' f sx sy, are_vertices solver (px_index sx) ss l l' -> near_axis f sx sy ->
  near_axis (fun t => propagate_rays surface_propagate (Sequence ss) (f t)) (gauss l sx) (gauss l' sy).
Proof. exact system_near. Qed.
Print Assumptions C117_partial.

(** C117.  The invariant of Lagrange n (h1 w2 - h2 w1) of two families is that behind the system. *)
Theorem C117_invariant_partial : forall solver ss l l' f g sx sy tx ty, are_vertices solver (px_index sx) ss l l' -> near_axis f sx sy -> near_axis g tx ty ->
  px_index tx = px_index sx -> px_z tx = px_z sx ->
  exists sx' sy' tx' ty', near_axis (fun t => propagate_rays surface_propagate (Sequence ss) (f t)) sx' sy' /\
    near_axis (fun t => propagate_rays surface_propagate (Sequence ss) (g t)) tx' ty' /\
    invariant sx' tx' = invariant sx tx /\ invariant sy' ty' = invariant sy ty.
Proof. exact system_invariant. Qed.
Print Assumptions C117_invariant_partial.

(** C117.  A surface (or mirror: the index behind is the negative one) images a point at the distance
    a = z_o - z on a screen at b with n' / b = n / a + (n' - n) / r, with the magnification n b / (n' a), wherever the rays go through the surface. *)
Theorem C117_image_partial : forall solver s screen v v' p p' f sx sy, is_vertex solver s (px_index sx) v v' -> is_vertex solver screen (vt_index v) p p' -> near_axis f sx sy ->
  px_z sx <> vt_z v -> vt_z p <> vt_z v ->
  vt_index v / (vt_z p - vt_z v) = px_index sx / (px_z sx - vt_z v) + (vt_index v - px_index sx) * vt_curvature v ->
  exists tx ty, near_axis (fun t => propagate_rays surface_propagate (Sequence [s; screen]) (f t)) tx ty /\ px_z tx = vt_z p /\
    px_h tx = px_index sx * (vt_z p - vt_z v) / (vt_index v * (px_z sx - vt_z v)) * px_h sx /\
    (vt_curvature v' = vt_curvature v -> px_h ty = px_index sx * (vt_z p - vt_z v) / (vt_index v * (px_z sx - vt_z v)) * px_h sy).
Proof. exact surface_image. Qed.
Print Assumptions C117_image_partial.

(** C117.  The lensmaker's equation: a lens of the index n and the thickness d bends rays parallel to the axis by the power
    p1 + p2 - p1 p2 d / n. *)
Theorem C117_lens_partial : forall solver front back v1 v1' v2 v2' n f sx sy, px_index sx = 1 -> vt_index v1 = n -> 0 < n -> vt_index v2 = 1 ->
  is_vertex solver front 1 v1 v1' -> is_vertex solver back n v2 v2' -> near_axis f sx sy -> px_w sx = 0 ->
  let p1 := (n - 1) * vt_curvature v1 in let p2 := (1 - n) * vt_curvature v2 in let d := vt_z v2 - vt_z v1 in
  exists tx ty, near_axis (fun t => propagate_rays surface_propagate (Sequence [front; back]) (f t)) tx ty /\
    px_w tx = - (p1 + p2 - p1 * p2 * d / n) * px_h sx.
Proof. exact lens_power. Qed.
Print Assumptions C117_lens_partial.

(** C117.  A paraboloid made with [ConicSag] loses rays that run to its vertex, as close to its axis as one likes. *)
Theorem C117_refuted : forall solver r s, r <> 0 -> sf_sag s = make_sag solver (ConicSag r (-1)) None -> sf_transformation s = None ->
  exists f sx sy, near_axis f sx sy /\ forall tx ty, ~ near_axis (fun t => surface_propagate s (f t)) tx ty.
Proof. exact paraboloid_lost. Qed.
Print Assumptions C117_refuted.

Example C117_nonvacuous :
  are_vertices no_solver 1 [lens_front; lens_back] [front_vertex; back_vertex] [front_vertex; back_vertex] /\
  near_axis (pencil 1) (mkPx 1 (-30) 1 1) (mkPx 1 (-30) 2 0) /\ near_axis (pencil 0) (mkPx 1 (-30) 1 0) (mkPx 1 (-30) 2 0) /\
  is_vertex no_solver lens_front 1 front_vertex front_vertex /\ is_vertex no_solver lens_back (3 / 2) back_vertex back_vertex /\
  is_vertex no_solver dish 1 dish_vertex dish_vertex /\ is_vertex no_solver screen (-1) screen_vertex screen_vertex /\
  -1 / (-15 - 0) = 1 / (-30 - 0) + (-1 - 1) * - (1 / 20) /\
  invariant (mkPx 1 (-30) 1 1) (mkPx 1 (-30) 1 0) = -1.
Proof. exact paraxial_example. Qed.
