(** Polygons, bounds of all classes. *)
From Coq Require Import Reals Lra Psatz List Bool ZArith Lia.
From Verif Require Import Vec VecLemmas Num NumLemmas Trig TrigLemmas RayModel SurfaceModel
  SequenceProofs ApertureModel ApertureSpec ApertureProofs.
Import ListNotations.
Open Scope R_scope.

Lemma cons_eq {A} (a b : A) l m : a = b -> l = m -> a :: l = b :: m.
Proof. congruence. Qed.
Lemma sqrt2_nz : sqrt 2 <> 0.
Proof. apply Rgt_not_eq, sqrt_lt_R0; lra. Qed.
Lemma rect_vertices hx hy : ap_vertices (Rectangular hx hy) =
  [V3 hx hy 0; V3 (- hx) hy 0; V3 (- hx) (- hy) 0; V3 hx (- hy) 0].
Proof.
  unfold ap_vertices, linspace_open. cbn [seq map INR]. cbv zeta.
  assert (Hs := sqrt2_nz). assert (C := cos_PI4). assert (S := sin_PI4).
  set (q := PI / 4) in *.
  replace (0 * (2 * PI / (1 + 1 + 1 + 1)) + q) with q by ring.
  replace (1 * (2 * PI / (1 + 1 + 1 + 1)) + q) with (PI / 2 + q) by (unfold q; field).
  replace ((1 + 1) * (2 * PI / (1 + 1 + 1 + 1)) + q) with (q + PI) by (unfold q; field).
  replace ((1 + 1 + 1) * (2 * PI / (1 + 1 + 1 + 1)) + q) with (PI / 2 + q + PI) by (unfold q; field).
  rewrite !neg_cos, !neg_sin.
  replace (cos (PI / 2 + q)) with (- sin q) by (rewrite (cos_sin (PI / 2 + q)); replace (PI / 2 + (PI / 2 + q)) with (q + PI) by field; rewrite neg_sin; ring).
  replace (sin (PI / 2 + q)) with (cos q) by (rewrite (cos_sin q); reflexivity).
  rewrite C, S.
  repeat (apply cons_eq; [apply vec_eq; cbn [vx vy vz]; field; auto|]). reflexivity.
Qed.

Lemma half_weight h x : - h <= x <= h -> exists a, 0 <= a <= 1 /\ x = (2 * a - 1) * h.
Proof.
  intros H. destruct (Req_dec h 0) as [->|Hn].
  - exists (1 / 2). split; lra.
  - assert (Hh : 0 < h) by lra. exists ((x + h) / (2 * h)). split.
    + split; [apply Rmult_le_reg_r with (2 * h)|apply Rmult_le_reg_r with (2 * h)]; try lra;
        replace ((x + h) / (2 * h) * (2 * h)) with (x + h) by (field; lra); lra.
    + field; lra.
Qed.
Lemma rect_hull hx hy x y : - hx <= x <= hx -> - hy <= y <= hy ->
  in_hull (ap_vertices (Rectangular hx hy)) (V3 x y 0).
Proof.
  intros Hx Hy. rewrite rect_vertices.
  destruct (half_weight _ _ Hx) as (a & Ha & Ex), (half_weight _ _ Hy) as (b & Hb & Ey).
  exists [(a * b, V3 hx hy 0); ((1 - a) * b, V3 (- hx) hy 0);
          ((1 - a) * (1 - b), V3 (- hx) (- hy) 0); (a * (1 - b), V3 hx (- hy) 0)].
  split; [|split].
  - intros w v Hin. cbn [In] in Hin.
    destruct Hin as [E|[E|[E|[E|[]]]]]; inversion E; subst; (split; [nra|cbn; tauto]).
  - cbn. ring.
  - cbn. apply vec_eq; vec_unfold; subst; ring.
Qed.

(** A polygon whose vertices lie in its plane. *)
Lemma regular_planar r n : planar (RegularPolygon r n).
Proof. intros v Hv. apply in_map_iff in Hv. destruct Hv as (a & <- & _). reflexivity. Qed.
Lemma trapezoid_planar a b c : planar (Trapezoid a b c).
Proof. intros v Hv. cbn in Hv. destruct Hv as [<-|[<-|[<-|[<-|[]]]]]; cbn; ring. Qed.
Lemma rectangle_planar a b : planar (Rectangular a b).
Proof. intros v. rewrite rect_vertices. cbn. intros [<-|[<-|[<-|[<-|[]]]]]; reflexivity. Qed.


Lemma bounds_enclose pip a p : sound_pip pip -> rigid_or_none (ao_transformation a) ->
  planar (ao_shape a) -> ~ is_sector (ao_shape a) ->
  ao_active a = true -> ao_inverted a = false -> in_plane (ao_transformation a) p ->
  aperture_call pip a (Some p) = true ->
  exists lo hi, bound_lower a = Some lo /\ bound_upper a = Some hi /\ in_box lo hi p.
Proof.
  intros Hpip Ht Hpl Hsec Hact Hinv Hin Hc.
  rewrite call_local, Hact, Hinv in Hc. cbn [negb] in Hc. rewrite xorb_false_l in Hc.
  unfold in_plane in Hin. set (t := ao_transformation a) in *.
  assert (Hp := transform_local t p Ht). set (q := ap_local t p) in *. rewrite <- Hp.
  assert (Hull : in_hull (ap_vertices (ao_shape a)) q -> exists lo hi,
    reduce vmin2 (map (transform t) (ap_vertices (ao_shape a))) = Some lo /\
    reduce vmax2 (map (transform t) (ap_vertices (ao_shape a))) = Some hi /\ in_box lo hi (transform t q)).
  { intros H. apply hull_box, in_hull_transform; auto. }
  assert (Eq : q = V3 (vx q) (vy q) 0) by (apply vec_eq; cbn; auto).
  unfold bound_lower, bound_upper. fold t.
  assert (Hpip' : pip (ap_vertices (ao_shape a)) (vx q) (vy q) = true ->
    in_hull (ap_vertices (ao_shape a)) q) by (intro H; rewrite Eq; apply Hpip; auto).
  destruct (ao_shape a) as [r|r a0 a1|rx ry|vs|hx hy|r n|xl xr ang] eqn:Es; cbn [shape_mask] in Hc.
  - apply rle_true in Hc. do 2 eexists. split; [reflexivity|split; [reflexivity|]]. apply circle_box; auto.
  - exfalso; apply Hsec; unfold is_sector; eauto.
  - do 2 eexists. split; [reflexivity|split; [reflexivity|]].
    destruct (odiv (vx q) rx) as [u|] eqn:Eu; [|discriminate].
    destruct (odiv (vy q) ry) as [w|] eqn:Ew; [|discriminate].
    apply rle_true in Hc. apply odiv_some in Eu, Ew. destruct Eu as (_ & _ & Eu), Ew as (_ & _ & Ew).
    rewrite Eq, <- Eu, <- Ew, (Rmult_comm u), (Rmult_comm w). apply ellipse_box; auto.
  - auto.
  - rewrite !andb_true_iff, !rle_true in Hc. apply Hull. rewrite Eq. apply rect_hull; tauto.
  - auto.
  - auto.
Qed.

(** ** Tightness *)
Lemma ellipse_mask pip rx ry u w : rx <> 0 -> ry <> 0 -> u * u + w * w <= 1 ->
  shape_mask pip (Elliptical rx ry) (V3 (rx * u) (ry * w) 0) = true.
Proof.
  intros Hx Hy H. cbn [shape_mask vx vy]. rewrite !odiv_nz by auto. apply rle_true.
  replace (rx * u / rx) with u by (field; auto). replace (ry * w / ry) with w by (field; auto). auto.
Qed.
Lemma unit_max a b : exists u w, u * u + w * w = 1 /\ a * u + b * w = sqrt (a * a + b * b).
Proof.
  set (h := sqrt (a * a + b * b)).
  assert (Hab : 0 <= a * a + b * b) by nra.
  assert (Hh : h * h = a * a + b * b) by (apply sqrt_sqrt; auto).
  assert (Hp := sqrt_pos (a * a + b * b)). fold h in Hp.
  destruct (Req_dec h 0) as [E|E].
  - exists 1, 0. rewrite E in *. split; [ring|]. nra.
  - exists (a / h), (b / h). split.
    + replace (a / h * (a / h) + b / h * (b / h)) with ((a * a + b * b) / (h * h)) by (field; auto).
      rewrite Hh. field. rewrite <- Hh. apply Rmult_integral_contrapositive; auto.
    + replace (a * (a / h) + b * (b / h)) with ((a * a + b * b) / h) by (field; auto).
      rewrite <- Hh. field; auto.
Qed.

Lemma ellipse_smallest pip rx ry t len : rigid_or_none t -> rx <> 0 -> ry <> 0 ->
  let a := mkApertureObj (Elliptical rx ry) true false t len in
  exists lo hi, bound_lower a = Some lo /\ bound_upper a = Some hi /\
    smallest_box (accepted_in_plane pip a) lo hi.
Proof.
  intros Ht Hrx Hry a. do 2 eexists. split; [reflexivity|split; [reflexivity|]].
  intros lo' hi' Hbox.
  assert (Hacc : forall u w, u * u + w * w = 1 -> in_box lo' hi' (transform t (V3 (rx * u) (ry * w) 0))).
  { intros u w H. apply Hbox. split.
    - unfold in_plane. cbn [ao_transformation a]. rewrite local_transform by auto. reflexivity.
    - rewrite call_local. cbn [a ao_active ao_inverted ao_shape ao_transformation negb]. rewrite xorb_false_l.
      rewrite local_transform by auto. apply ellipse_mask; auto; lra. }
  cbn [ao_transformation a]. rewrite ellipse_axes. cbv zeta.
  assert (Hacc' : forall u w, u * u + w * w = 1 -> in_box lo' hi'
    (vadd (vadd (vscale u (tlin t (V3 rx 0 0))) (vscale w (tlin t (V3 0 ry 0)))) (transform t vzero))).
  { intros u w H. specialize (Hacc u w H). rewrite transform_tlin, tlin_comb in Hacc. exact Hacc. }
  set (c := transform t vzero) in *. set (A := tlin t (V3 rx 0 0)) in *. set (B := tlin t (V3 0 ry 0)) in *.
  clearbody c A B. clear Hacc Hbox.
  assert (X : forall u w, u * u + w * w = 1 -> - u * - u + - w * - w = 1) by (intros; lra).
  destruct (unit_max (vx A) (vx B)) as (u1 & w1 & N1 & M1).
  destruct (unit_max (vy A) (vy B)) as (u2 & w2 & N2 & M2).
  destruct (unit_max (vz A) (vz B)) as (u3 & w3 & N3 & M3).
  assert (P1 := Hacc' _ _ N1). assert (P2 := Hacc' _ _ N2). assert (P3 := Hacc' _ _ N3).
  assert (Q1 := Hacc' _ _ (X _ _ N1)). assert (Q2 := Hacc' _ _ (X _ _ N2)). assert (Q3 := Hacc' _ _ (X _ _ N3)).
  unfold in_box, vadd, vsub, vscale in *; cbn [vx vy vz] in *. lra.
Qed.

Lemma rectangle_smallest pip hx hy len : 0 <= hx -> 0 <= hy ->
  let a := mkApertureObj (Rectangular hx hy) true false None len in
  exists lo hi, bound_lower a = Some lo /\ bound_upper a = Some hi /\
    smallest_box (accepted_in_plane pip a) lo hi.
Proof.
  intros Hx Hy a.
  exists (V3 (- hx) (- hy) 0), (V3 hx hy 0). unfold bound_lower, bound_upper, a. cbn [ao_shape ao_transformation].
  rewrite rect_vertices. cbn [map transform reduce fold_left].
  split; [|split].
  1, 2: f_equal; apply vec_eq; unfold vmin2, vmax2; cbn [vx vy vz]; unfold Rmin, Rmax;
    repeat (destruct (Rle_dec _ _); try lra).
  intros lo' hi' H.
  assert (A : forall x y, - hx <= x <= hx -> - hy <= y <= hy -> in_box lo' hi' (V3 x y 0)).
  { intros x y H1 H2. apply H. split; [reflexivity|].
    rewrite call_local. cbn [ao_active ao_inverted ao_shape ao_transformation negb ap_local shape_mask vx vy]. rewrite xorb_false_l.
    rewrite !andb_true_iff, !rle_true. lra. }
  assert (P := A hx hy ltac:(lra) ltac:(lra)). assert (Q := A (- hx) (- hy) ltac:(lra) ltac:(lra)).
  unfold in_box in *; cbn [vx vy vz] in *. lra.
Qed.

(** The circle: tight along x and y, not along z. *)
Lemma circle_accepts pip r len x y : 0 <= r -> x * x + y * y <= r * r ->
  accepted_in_plane pip (mkApertureObj (Circular r) true false None len) (V3 x y 0).
Proof.
  intros Hr H. split; [reflexivity|]. rewrite call_local. cbn [negb ao_active ao_inverted ao_shape ao_transformation ap_local shape_mask]. rewrite xorb_false_l. apply rle_true.
  unfold xy_length; cbn [vx vy]. rewrite <- (sqrt_square r) by auto. apply sqrt_le_1_alt; auto.
Qed.
Lemma circle_smallest_xy pip r len : 0 <= r ->
  let a := mkApertureObj (Circular r) true false None len in
  exists lo hi, bound_lower a = Some lo /\ bound_upper a = Some hi /\
    forall lo' hi', (forall p, accepted_in_plane pip a p -> in_box lo' hi' p) ->
      vx lo' <= vx lo /\ vy lo' <= vy lo /\ vx hi <= vx hi' /\ vy hi <= vy hi'.
Proof.
  intros Hr a. do 2 eexists. split; [reflexivity|split; [reflexivity|]].
  intros lo' hi' H.
  assert (P1 := H _ (circle_accepts pip r len r 0 Hr ltac:(lra))).
  assert (P2 := H _ (circle_accepts pip r len (- r) 0 Hr ltac:(lra))).
  assert (P3 := H _ (circle_accepts pip r len 0 r Hr ltac:(lra))).
  assert (P4 := H _ (circle_accepts pip r len 0 (- r) Hr ltac:(lra))).
  cbn [a ao_transformation ao_shape circle_center transform].
  unfold in_box, vsub, vadd, vconst, vzero in *; cbn [vx vy vz] in *. lra.
Qed.
Lemma circle_not_smallest pip : exists r, 0 <= r /\
  let a := mkApertureObj (Circular r) true false None true in
  exists lo hi, bound_lower a = Some lo /\ bound_upper a = Some hi /\
    ~ smallest_box (accepted_in_plane pip a) lo hi.
Proof.
  exists 1. split; [lra|]. intro a. do 2 eexists. split; [reflexivity|split; [reflexivity|]].
  intros H. specialize (H (V3 (-1) (-1) 0) (V3 1 1 0)).
  destruct H as (_ & _ & _ & _ & _ & H).
  - intros p [Hz Hp].
    destruct (bounds_enclose (fun _ _ _ => false) a p) as (lo & hi & E1 & E2 & Hb).
    + intros vs x y _ E; discriminate.
    + exact I.
    + intros v [].
    + intros (? & ? & ? & E); discriminate.
    + reflexivity.
    + reflexivity.
    + exact Hz.
    + exact Hp.
    + unfold a in E1, E2. cbn in E1, E2. injection E1 as <-. injection E2 as <-.
      unfold in_plane in Hz; cbn in Hz. unfold in_box in *. cbn in *. lra.
  - cbn in H. lra.
Qed.

(** ** C25 *)
Lemma length_linspace_open s n : length (linspace_open s n) = n.
Proof. unfold linspace_open. rewrite map_length, seq_length. auto. Qed.
Lemma linspace_open_nth s n i : (i < n)%nat -> nth i (linspace_open s n) 0 = INR i * (s / INR n).
Proof.
  intros H. unfold linspace_open.
  rewrite (nth_indep _ 0 (INR 0 * (s / INR n))) by (rewrite map_length, seq_length; auto).
  rewrite (map_nth (fun i => INR i * (s / INR n))). rewrite seq_nth by auto. reflexivity.
Qed.
Lemma regular_nth r n i : (i < n)%nat ->
  nth i (ap_vertices (RegularPolygon r n)) vzero =
  V3 (r * cos (2 * PI * INR i / INR n)) (r * sin (2 * PI * INR i / INR n)) 0.
Proof.
  intros H. cbn [ap_vertices].
  rewrite (nth_indep _ vzero (V3 (r * cos 0) (r * sin 0) 0)) by (rewrite map_length, length_linspace_open; auto).
  rewrite (map_nth (fun a => V3 (r * cos a) (r * sin a) 0)). rewrite linspace_open_nth by auto.
  replace (INR i * (2 * PI / INR n)) with (2 * PI * INR i / INR n); auto.
  field. apply not_0_INR; lia.
Qed.
Lemma regular_length r n : length (ap_vertices (RegularPolygon r n)) = n.
Proof. cbn [ap_vertices]. rewrite map_length. apply length_linspace_open. Qed.

Lemma regular_radius r n i : (i < n)%nat ->
  norm2 (nth i (ap_vertices (RegularPolygon r n)) vzero) = r * r.
Proof.
  intros H. rewrite regular_nth by auto. unfold norm2, dot; cbn [vx vy vz].
  set (a := 2 * PI * INR i / INR n). assert (Hs := sin2_cos2 a). unfold Rsqr in Hs.
  replace (r * cos a * (r * cos a) + r * sin a * (r * sin a) + 0 * 0)
    with (r * r * (sin a * sin a + cos a * cos a)) by ring. rewrite Hs. ring.
Qed.
Lemma chord r a b : norm2 (vsub (V3 (r * cos a) (r * sin a) 0) (V3 (r * cos b) (r * sin b) 0)) =
  2 * (r * r) * (1 - cos (a - b)).
Proof.
  rewrite cos_minus. unfold norm2, dot, vsub; cbn [vx vy vz].
  assert (Ha := sin2_cos2 a). assert (Hb := sin2_cos2 b). unfold Rsqr in *.
  replace (2 * (r * r) * (1 - (cos a * cos b + sin a * sin b))) with
    (r * r * ((sin a * sin a + cos a * cos a) + (sin b * sin b + cos b * cos b) - 2 * (cos a * cos b + sin a * sin b))) by (rewrite Ha, Hb; ring).
  ring.
Qed.
Lemma regular_sides r n i : (i < n)%nat ->
  let vs := ap_vertices (RegularPolygon r n) in
  norm2 (vsub (next_vertex vs i) (nth i vs vzero)) = 2 * (r * r) * (1 - cos (2 * PI / INR n)).
Proof.
  intros H vs. unfold next_vertex, vs. rewrite regular_length.
  assert (Hn : INR n <> 0) by (apply not_0_INR; lia).
  assert (Hm : (S i mod n < n)%nat) by (apply Nat.mod_upper_bound; lia).
  rewrite !regular_nth by auto. rewrite chord. f_equal. f_equal.
  destruct (Nat.eq_dec (S i) n) as [E|E].
  - rewrite E, Nat.mod_same by lia.
    rewrite <- (cos_shift_Z _ 1). f_equal. rewrite <- E at 1 3. rewrite S_INR. cbn [INR].
    rewrite <- S_INR, E. replace (INR i) with (INR n - 1) by (rewrite <- E, S_INR; ring). field; auto.
  - rewrite Nat.mod_small by lia. f_equal. rewrite S_INR. field; auto.
Qed.

(** The legs of the trapezoid: multiples of the unit vectors at +angle/2 and -angle/2. *)
Lemma trapezoid_legs xl xr angle : cos (angle / 2) <> 0 ->
  let up := V3 (cos (angle / 2)) (sin (angle / 2)) 0 in
  let down := V3 (cos (angle / 2)) (- sin (angle / 2)) 0 in
  exists k l, ap_vertices (Trapezoid xl xr angle) = [vscale k up; vscale l up; vscale l down; vscale k down] /\
    k * cos (angle / 2) = xl /\ l * cos (angle / 2) = xr /\
    is_unit up /\ is_unit down /\ dot up down = cos angle.
Proof.
  intros Hc up down. exists (xl / cos (angle / 2)), (xr / cos (angle / 2)).
  assert (Hs := sin2_cos2 (angle / 2)). unfold Rsqr in Hs.
  split; [|split; [field; auto|split; [field; auto|split; [|split]]]].
  - cbn [ap_vertices rev app map vx vy vz]. unfold tan, up, down, vscale; cbn [vx vy vz].
    repeat (apply cons_eq; [apply vec_eq; cbn [vx vy vz]; field; auto|]). reflexivity.
  - unfold is_unit, norm2, dot, up; cbn [vx vy vz]. lra.
  - unfold is_unit, norm2, dot, down; cbn [vx vy vz]. lra.
  - unfold dot, up, down; cbn [vx vy vz]. replace angle with (2 * (angle / 2)) at 5 by field.
    rewrite cos_2a. ring.
Qed.
