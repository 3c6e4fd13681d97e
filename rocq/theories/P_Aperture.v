(** C20-C25, C66, C67: apertures. *)
From Coq Require Import Reals Lra Lia List Bool ZArith.
From Verif Require Import Vec VecLemmas Num Trig TrigLemmas RayModel SurfaceModel ApertureModel ApertureSpec ApertureProofs
  ApertureProofs2 SectorProofs SagFloatModel WireFloatModel WireProofs ApertureFlagProofs
  PolygonTest PolygonTestProofs.
Import ListNotations.
Open Scope R_scope.

(** C20.  [p] is any position, [None] is NaN. *)
Theorem C20_inverted : forall pip s t len p,
  aperture_call pip (mkApertureObj s true true t len) p = true <->
  aperture_call pip (mkApertureObj s true false t len) p = false.
Proof. exact inverted_flag. Qed.
Print Assumptions C20_inverted.

Theorem C20_inactive : forall pip s inv t len p,
  aperture_call pip (mkApertureObj s false inv t len) p = true.
Proof. exact inactive_flag. Qed.
Print Assumptions C20_inactive.

(** Clipping changes only [unvignetted], and never sets it. *)
Theorem C20_clip : forall pip a r,
  let r' := clip_rays (as_aperture pip a) r in
  r_wavelength r' = r_wavelength r /\ r_position r' = r_position r /\ r_direction r' = r_direction r /\
  r_intensity r' = r_intensity r /\ r_attenuation r' = r_attenuation r /\ r_index r' = r_index r /\
  (r_unvignetted r' = true <-> r_unvignetted r = true /\
     aperture_call pip a (if ao_is_length a then r_position r else r_direction r) = true).
Proof. exact clip_only. Qed.
Print Assumptions C20_clip.

(** C20 has no hypotheses; here both answers of an aperture occur. *)
Example C20_nonvacuous :
  aperture_call pnpoly (mkApertureObj (Polygonal [V3 0 0 0; V3 3 0 0; V3 0 3 0]) true false None true)
    (Some (V3 1 1 0)) = true /\
  aperture_call pnpoly (mkApertureObj (Polygonal [V3 0 0 0; V3 3 0 0; V3 0 3 0]) true true None true)
    (Some (V3 1 1 0)) = false.
Proof. rewrite !call_local. cbn [ao_active ao_inverted ao_shape ao_transformation negb ap_local shape_mask ap_vertices vx vy]. rewrite pnpoly_triangle. split; reflexivity. Qed.

(** C21.  Every class but the sector (C23), any rigid transformation, any sound test of
    points in polygons. *)
Theorem C21_enclosed : forall pip a p, sound_pip pip -> rigid_or_none (ao_transformation a) ->
  planar (ao_shape a) -> ~ is_sector (ao_shape a) ->
  ao_active a = true -> ao_inverted a = false -> in_plane (ao_transformation a) p ->
  aperture_call pip a (Some p) = true ->
  exists lo hi, bound_lower a = Some lo /\ bound_upper a = Some hi /\ in_box lo hi p.
Proof. exact bounds_enclose. Qed.
Print Assumptions C21_enclosed.

Theorem C21_planar : forall s, (forall vs, s <> Polygonal vs) -> planar s.
Proof.
  exact (fun s H => match s as s return (forall vs, s <> Polygonal vs) -> planar s with
    | Polygonal vs => fun H => False_ind _ (H vs eq_refl)
    | Rectangular a b => fun _ => rectangle_planar a b
    | RegularPolygon r n => fun _ => regular_planar r n
    | Trapezoid a b c => fun _ => trapezoid_planar a b c
    | _ => fun _ v F => False_ind _ F
    end H).
Qed.
Print Assumptions C21_planar.

Theorem C21_ellipse_smallest : forall pip rx ry t len, rigid_or_none t -> rx <> 0 -> ry <> 0 ->
  let a := mkApertureObj (Elliptical rx ry) true false t len in
  exists lo hi, bound_lower a = Some lo /\ bound_upper a = Some hi /\
    smallest_box (accepted_in_plane pip a) lo hi.
Proof. exact ellipse_smallest. Qed.
Print Assumptions C21_ellipse_smallest.

Theorem C21_rectangle_smallest : forall pip hx hy len, 0 <= hx -> 0 <= hy ->
  let a := mkApertureObj (Rectangular hx hy) true false None len in
  exists lo hi, bound_lower a = Some lo /\ bound_upper a = Some hi /\
    smallest_box (accepted_in_plane pip a) lo hi.
Proof. exact rectangle_smallest. Qed.
Print Assumptions C21_rectangle_smallest.

(** The box of the circle is the smallest in x and y; missing: z. *)
Theorem C21_circle_smallest_partial : forall pip r len, 0 <= r ->
  let a := mkApertureObj (Circular r) true false None len in
  exists lo hi, bound_lower a = Some lo /\ bound_upper a = Some hi /\
    forall lo' hi', (forall p, accepted_in_plane pip a p -> in_box lo' hi' p) ->
      vx lo' <= vx lo /\ vy lo' <= vy lo /\ vx hi <= vx hi' /\ vy hi <= vy hi'.
Proof. exact circle_smallest_xy. Qed.
Print Assumptions C21_circle_smallest_partial.

(** C21 is false for the circle: its box also extends along z. *)
Theorem C21_circle_smallest_refuted : forall pip, exists r, 0 <= r /\
  let a := mkApertureObj (Circular r) true false None true in
  exists lo hi, bound_lower a = Some lo /\ bound_upper a = Some hi /\
    ~ smallest_box (accepted_in_plane pip a) lo hi.
Proof. exact circle_not_smallest. Qed.
Print Assumptions C21_circle_smallest_refuted.

(** The test by counting crossings is sound; a triangle accepts its centroid. *)
Example C21_nonvacuous : sound_pip pnpoly /\
  let a := mkApertureObj (Polygonal [V3 0 0 0; V3 3 0 0; V3 0 3 0]) true false None true in
  rigid_or_none (ao_transformation a) /\ planar (ao_shape a) /\ ~ is_sector (ao_shape a) /\
  in_plane None (V3 1 1 0) /\ aperture_call pnpoly a (Some (V3 1 1 0)) = true.
Proof.
  split; [exact pnpoly_sound|]. cbv zeta. split; [exact I|]. split; [|split; [|split]].
  - intros v. cbn. intros [<-|[<-|[<-|[]]]]; reflexivity.
  - intros (r & a & b & E). discriminate E.
  - reflexivity.
  - exact (proj1 C20_nonvacuous).
Qed.

(** C22.  With strict inequalities.  Missing: points exactly at the edge angles, and the apex. *)
Theorem C22_sector_partial : forall pip r a0 a1 rho th z, - (2 * PI) <= a0 -> a1 <= 2 * PI -> 0 < rho ->
  (shape_mask pip (Sector r a0 a1) (V3 (rho * cos th) (rho * sin th) z) = true <->
   rho <= r /\ angle_strictly_between a0 a1 th).
Proof. exact sector_polar. Qed.
Print Assumptions C22_sector_partial.

(** C22 is false on the edges: the full circle from 0 to 2 pi rejects the positive x axis. *)
Theorem C22_full_circle_refuted : forall pip, exists r a0 a1 rho th,
  - (2 * PI) <= a0 /\ a0 <= a1 /\ a1 <= 2 * PI /\ a1 - a0 = 2 * PI /\
  0 < rho <= r /\ angle_between a0 a1 th /\
  shape_mask pip (Sector r a0 a1) (V3 (rho * cos th) (rho * sin th) 0) = false.
Proof. exact sector_full_circle. Qed.
Print Assumptions C22_full_circle_refuted.

(** ... and at the apex. *)
Theorem C22_apex_refuted : forall pip, exists r a0 a1,
  - (2 * PI) <= a0 /\ a0 <= a1 /\ a1 <= 2 * PI /\ 0 < r /\
  shape_mask pip (Sector r a0 a1) vzero = false.
Proof. exact sector_apex. Qed.
Print Assumptions C22_apex_refuted.

Example C22_nonvacuous : - (2 * PI) <= - PI /\ PI / 2 <= 2 * PI /\ 0 < 1 /\
  1 <= 2 /\ angle_strictly_between (- PI) (PI / 2) (3 * PI / 2).
Proof. assert (H := PI_RGT_0). repeat split; try lra. exists (-1)%Z. lra. Qed.

(** C23.  Missing: the full circle. *)
Theorem C23_enclosed_partial : forall pip r a0 a1 t len p,
  let a := mkApertureObj (Sector r a0 a1) true false t len in
  rigid_or_none t -> - (2 * PI) <= a0 -> a0 <= a1 -> a1 <= 2 * PI -> a1 - a0 < 2 * PI ->
  in_plane t p -> aperture_call pip a (Some p) = true ->
  exists lo hi, bound_lower a = Some lo /\ bound_upper a = Some hi /\ in_box lo hi p.
Proof. exact sector_enclosed. Qed.
Print Assumptions C23_enclosed_partial.

(** C23 is false for the full circle. *)
Theorem C23_full_circle_refuted : forall pip, exists r a0 a1 p,
  let a := mkApertureObj (Sector r a0 a1) true false None true in
  - (2 * PI) <= a0 /\ a0 <= a1 /\ a1 <= 2 * PI /\ in_plane None p /\
  aperture_call pip a (Some p) = true /\
  exists lo hi, bound_lower a = Some lo /\ bound_upper a = Some hi /\ ~ in_box lo hi p.
Proof. exact sector_box_lost. Qed.
Print Assumptions C23_full_circle_refuted.

(** A three-quarter sector accepts a point. *)
Example C23_nonvacuous : forall pip,
  let a := mkApertureObj (Sector 2 (- PI) (PI / 2)) true false None true in
  - (2 * PI) <= - PI /\ - PI <= PI / 2 /\ PI / 2 <= 2 * PI /\ PI / 2 - - PI < 2 * PI /\
  in_plane None (V3 (1 * cos 0) (1 * sin 0) 0) /\
  aperture_call pip a (Some (V3 (1 * cos 0) (1 * sin 0) 0)) = true.
Proof.
  intros pip a. assert (H := PI_RGT_0). repeat split; try lra.
  apply sector_polar; try lra. split; [lra|]. exists 0%Z. lra.
Qed.

(** C24.  In exact arithmetic; [C24_float_count_refuted] is about rounding. *)
Theorem C24_count_partial : forall a num, has_vertices (ao_shape a) -> length (wire a num) = num.
Proof. exact wire_length. Qed.
Print Assumptions C24_count_partial.

(** Closed when there are more points than segments.  Missing: fewer points. *)
Theorem C24_closed_partial : forall a num, has_vertices (ao_shape a) ->
  (segments (ao_shape a) < num)%nat -> closed_curve (wire a num).
Proof. exact wire_closed. Qed.
Print Assumptions C24_closed_partial.

(** Every point is on the boundary. *)
Theorem C24_boundary : forall a num p, has_vertices (ao_shape a) -> planar (ao_shape a) ->
  In p (wire a num) -> exists q, p = transform (ao_transformation a) q /\ on_boundary (ao_shape a) q.
Proof. exact wire_boundary. Qed.
Print Assumptions C24_boundary.

(** The aperture accepts its wire: circle, ellipse, rectangle, any rigid transformation.
    Missing: the sector, and the polygons, whose test is in a dependency. *)
Theorem C24_accepted_partial : forall pip s t len num p, wire_accepting s -> rigid_or_none t ->
  let a := mkApertureObj s true false t len in
  In p (wire a num) -> aperture_call pip a (Some p) = true.
Proof. exact wire_accepted. Qed.
Print Assumptions C24_accepted_partial.

(** C24 is false: a rectangle with four points is not closed. *)
Theorem C24_closed_refuted : exists a num, has_vertices (ao_shape a) /\ (2 <= num)%nat /\
  length (wire a num) = num /\ ~ closed_curve (wire a num).
Proof. exact wire_open. Qed.
Print Assumptions C24_closed_refuted.

(** C24 is false: the sector rejects points of its wire (the default 101 points). *)
Theorem C24_accepted_refuted : forall pip, exists r a0 a1 num p,
  0 < r /\ - (2 * PI) <= a0 /\ a0 < a1 /\ a1 <= 2 * PI /\
  let a := mkApertureObj (Sector r a0 a1) true false None true in
  In p (wire a num) /\ aperture_call pip a (Some p) = false.
Proof. exact sector_wire_rejected. Qed.
Print Assumptions C24_accepted_refuted.

(** C24 is false in binary64: a heptagon with 61 points gets 60 (and is then not closed). *)
Theorem C24_float_count_refuted : exists num n ks, (0 < n)%nat /\ f_counts num n = Some ks /\
  fold_right Z.add 0%Z (counts num n) = Z.of_nat num /\
  (fold_right Z.add 0 ks = Z.of_nat num - 1)%Z.
Proof. exact counts_float_short. Qed.
Print Assumptions C24_float_count_refuted.

Example C24_nonvacuous :
  let a := mkApertureObj (RegularPolygon 2 5) true false None true in
  has_vertices (ao_shape a) /\ planar (ao_shape a) /\ (segments (ao_shape a) < 101)%nat /\
  wire_accepting (Rectangular 2 1).
Proof. cbn. split; [lia|]. split; [apply regular_planar|]. split; [lia|]. lra. Qed.

(** C25 *)
Theorem C25_rectangle : forall hx hy, ap_vertices (Rectangular hx hy) =
  [V3 hx hy 0; V3 (- hx) hy 0; V3 (- hx) (- hy) 0; V3 hx (- hy) 0].
Proof. exact rect_vertices. Qed.
Print Assumptions C25_rectangle.

Theorem C25_regular_count : forall r n, length (ap_vertices (RegularPolygon r n)) = n.
Proof. exact regular_length. Qed.
Print Assumptions C25_regular_count.

Theorem C25_regular_radius : forall r n i, (i < n)%nat ->
  norm2 (nth i (ap_vertices (RegularPolygon r n)) vzero) = r * r.
Proof. exact regular_radius. Qed.
Print Assumptions C25_regular_radius.

Theorem C25_regular_sides : forall r n i, (i < n)%nat ->
  let vs := ap_vertices (RegularPolygon r n) in
  norm2 (vsub (next_vertex vs i) (nth i vs vzero)) = 2 * (r * r) * (1 - cos (2 * PI / INR n)).
Proof. exact regular_sides. Qed.
Print Assumptions C25_regular_sides.

Theorem C25_trapezoid : forall xl xr angle, cos (angle / 2) <> 0 ->
  let up := V3 (cos (angle / 2)) (sin (angle / 2)) 0 in
  let down := V3 (cos (angle / 2)) (- sin (angle / 2)) 0 in
  exists k l, ap_vertices (Trapezoid xl xr angle) = [vscale k up; vscale l up; vscale l down; vscale k down] /\
    k * cos (angle / 2) = xl /\ l * cos (angle / 2) = xr /\
    is_unit up /\ is_unit down /\ dot up down = cos angle.
Proof. exact trapezoid_legs. Qed.
Print Assumptions C25_trapezoid.

Example C25_nonvacuous : (3 < 8)%nat /\ cos ((PI / 2) / 2) <> 0.
Proof.
  split; [lia|]. assert (H := PI_RGT_0). apply Rgt_not_eq, cos_gt_0; lra.
Qed.

(** C66 is false: with inverted = True the interior blocks light, the opposite of the
    documentation of the attribute. *)
Theorem C66_inverted_refuted : forall pip, exists s p,
  shape_mask pip s p = true /\ aperture_call pip (mkApertureObj s true true None true) (Some p) = false.
Proof. exact documented_inverted. Qed.
Print Assumptions C66_inverted_refuted.

(** At every point, of every active aperture, the code does the opposite of the documentation.
    An inactive aperture lets everything pass, C20_inactive. *)
Theorem C66_opposite_partial : forall pip s inv t len p,
  aperture_call pip (mkApertureObj s true inv t len) (Some p) = true <->
  ~ documented_pass inv (shape_mask pip s (ap_local t p) = true).
Proof. exact opposite_of_documented. Qed.
Print Assumptions C66_opposite_partial.

(** No hypotheses; one point inside a circle. *)
Example C66_nonvacuous : shape_mask pnpoly (Circular 2) (ap_local None (V3 1 0 0)) = true.
Proof. cbn. apply rle_true. unfold xy_length; cbn. replace (1 * 1 + 0 * 0) with 1 by ring. rewrite sqrt_1. lra. Qed.

(** C67.  Missing: inverted apertures. *)
Theorem C67_nan_clipped_partial : forall pip a r, ao_active a = true -> ao_inverted a = false ->
  (if ao_is_length a then r_position r else r_direction r) = None ->
  r_unvignetted (clip_rays (as_aperture pip a) r) = false.
Proof. exact nan_clipped. Qed.
Print Assumptions C67_nan_clipped_partial.

(** C67 is false: an obscuration keeps a ray that missed the surface. *)
Theorem C67_nan_kept_refuted : forall pip, exists a r,
  ao_active a = true /\ ao_is_length a = true /\ r_position r = None /\
  r_unvignetted (clip_rays (as_aperture pip a) r) = true.
Proof. exact nan_kept. Qed.
Print Assumptions C67_nan_kept_refuted.

Example C67_nonvacuous :
  let a := mkApertureObj (Circular 1) true false None true in
  let r := mkRay 1 None (Some (V3 0 0 1)) (Some 1) 0 1 true in
  ao_active a = true /\ ao_inverted a = false /\ (if ao_is_length a then r_position r else r_direction r) = None.
Proof. repeat split. Qed.
