From Coq Require Import Reals Lra Psatz List Bool ZArith Lia.
From Verif Require Import Vec VecLemmas Num NumLemmas Trig TrigLemmas RayModel SurfaceModel
  SequenceProofs ApertureModel ApertureSpec.
Import ListNotations.
Open Scope R_scope.

Lemma rle_true a b : rle a b = true <-> a <= b.
Proof. unfold rle. destruct (Rle_dec a b); split; intros; auto; discriminate || contradiction. Qed.
Lemma rlt_true a b : rlt a b = true <-> a < b.
Proof. unfold rlt. destruct (Rlt_dec a b); split; intros; auto; discriminate || contradiction. Qed.

Lemma transform_local t p : rigid_or_none t -> transform t (ap_local t p) = p.
Proof.
  destruct t as [t|]; cbn; auto. intros H. apply rigid_inv_point_r; auto.
Qed.
Lemma local_transform t p : rigid_or_none t -> ap_local t (transform t p) = p.
Proof.
  destruct t as [t|]; cbn; auto. intros H. apply rigid_inv_point; auto.
Qed.
Lemma call_local pip a p : aperture_call pip a (Some p) =
  if negb (ao_active a) then true else
  xorb (ao_inverted a) (shape_mask pip (ao_shape a) (ap_local (ao_transformation a) p)).
Proof.
  unfold aperture_call. destruct (ao_transformation a); cbn [omap ap_local];
    destruct (ao_inverted a), (ao_active a); cbn; auto; destruct (shape_mask _ _ _); auto.
Qed.

(** ** Boxes *)
Lemma abs_le_box c h x : Rabs (x - c) <= h -> c - h <= x <= c + h.
Proof. unfold Rabs. destruct (Rcase_abs (x - c)); lra. Qed.

Lemma abs_bounds x h : Rabs x <= h -> - h <= x <= h.
Proof. unfold Rabs. destruct (Rcase_abs x); lra. Qed.
Lemma sq_le_abs x h : 0 <= h -> x * x <= h * h -> Rabs x <= h.
Proof. intros Hh H. apply Rabs_le. split; nra. Qed.

Definition tlin (t : option rigid) (q : vec3) : vec3 :=
  match t with None => q | Some t => mapply (rg_mat t) q end.
Lemma transform_tlin t q : transform t q = vadd (tlin t q) (transform t vzero).
Proof.
  destruct t as [t|]; cbn [transform tlin].
  - unfold rigid_point. apply vec_eq; vec_unfold; ring.
  - apply vec_eq; vec_unfold; ring.
Qed.
Lemma tlin_norm2 t q : rigid_or_none t -> norm2 (tlin t q) = norm2 q.
Proof. destruct t as [t|]; cbn; auto. intros; apply orthogonal_norm2; auto. Qed.

Lemma comp_sq_le v : vx v * vx v <= norm2 v /\ vy v * vy v <= norm2 v /\ vz v * vz v <= norm2 v.
Proof.
  unfold norm2, dot. assert (H1 := Rle_0_sqr (vx v)). assert (H2 := Rle_0_sqr (vy v)).
  assert (H3 := Rle_0_sqr (vz v)). unfold Rsqr in *. lra.
Qed.

Lemma xy_length_le p r : xy_length p <= r -> 0 <= r /\ vx p * vx p + vy p * vy p <= r * r.
Proof.
  unfold xy_length. intros H. assert (H0 := sqrt_pos (vx p * vx p + vy p * vy p)).
  split; [lra|]. set (s := sqrt _) in *.
  assert (E : s * s = vx p * vx p + vy p * vy p).
  { apply sqrt_sqrt. assert (H1 := Rle_0_sqr (vx p)). assert (H2 := Rle_0_sqr (vy p)). unfold Rsqr in *; lra. }
  rewrite <- E. apply Rmult_le_compat; auto.
Qed.

Lemma circle_box r t q : rigid_or_none t -> vz q = 0 -> xy_length q <= r ->
  in_box (vsub (circle_center t) (vconst r)) (vadd (circle_center t) (vconst r)) (transform t q).
Proof.
  intros Ht Hz Hl. apply xy_length_le in Hl. destruct Hl as [Hr Hl].
  rewrite transform_tlin. unfold circle_center. set (c := transform t vzero).
  assert (Hn := tlin_norm2 t q Ht). set (v := tlin t q) in *. clearbody c v.
  assert (Hq : norm2 q <= r * r) by (unfold norm2, dot; rewrite Hz; lra).
  destruct (comp_sq_le v) as (H1 & H2 & H3).
  assert (Hx : Rabs (vx v) <= r) by (apply sq_le_abs; lra).
  assert (Hy : Rabs (vy v) <= r) by (apply sq_le_abs; lra).
  assert (Hzv : Rabs (vz v) <= r) by (apply sq_le_abs; lra).
  apply abs_bounds in Hx, Hy, Hzv.
  unfold in_box, vsub, vadd, vconst; cbn [vx vy vz]. lra.
Qed.

Lemma cauchy2 a b u w : u * u + w * w <= 1 -> Rabs (a * u + b * w) <= sqrt (a * a + b * b).
Proof.
  intros H. assert (Ha := Rle_0_sqr a). assert (Hb := Rle_0_sqr b). unfold Rsqr in *.
  apply sq_le_abs; [apply sqrt_pos|]. rewrite sqrt_sqrt by lra.
  assert (H1 := Rle_0_sqr (a * w - b * u)). unfold Rsqr in H1. nra.
Qed.

Lemma ellipse_axes t rx ry :
  let a := tlin t (V3 rx 0 0) in let b := tlin t (V3 0 ry 0) in
  ellipse_half rx ry t = V3 (sqrt (vx a * vx a + vx b * vx b)) (sqrt (vy a * vy a + vy b * vy b))
     (sqrt (vz a * vz a + vz b * vz b)).
Proof.
  intros a b. unfold ellipse_half. destruct t as [t|].
  - replace (vsub (transform (Some t) (V3 rx 0 0)) (transform (Some t) vzero)) with a
      by (rewrite (transform_tlin (Some t) (V3 rx 0 0)); fold a; apply vec_eq; vec_unfold; ring).
    replace (vsub (transform (Some t) (V3 0 ry 0)) (transform (Some t) vzero)) with b
      by (rewrite (transform_tlin (Some t) (V3 0 ry 0)); fold b; apply vec_eq; vec_unfold; ring).
    reflexivity.
  - reflexivity.
Qed.
Lemma tlin_comb t rx ry u w :
  tlin t (V3 (rx * u) (ry * w) 0) =
  vadd (vscale u (tlin t (V3 rx 0 0))) (vscale w (tlin t (V3 0 ry 0))).
Proof. destruct t as [t|]; cbn [tlin]; apply vec_eq; vec_unfold; ring. Qed.

Lemma ellipse_box rx ry t u w : u * u + w * w <= 1 ->
  in_box (vsub (transform t vzero) (ellipse_half rx ry t)) (vadd (transform t vzero) (ellipse_half rx ry t))
    (transform t (V3 (rx * u) (ry * w) 0)).
Proof.
  intros H. rewrite (transform_tlin t (V3 (rx * u) _ _)), tlin_comb, ellipse_axes. cbv zeta.
  set (c := transform t vzero). set (a := tlin t (V3 rx 0 0)). set (b := tlin t (V3 0 ry 0)).
  clearbody c a b.
  assert (Hx := cauchy2 (vx a) (vx b) u w H). assert (Hy := cauchy2 (vy a) (vy b) u w H).
  assert (Hz := cauchy2 (vz a) (vz b) u w H).
  apply abs_bounds in Hx, Hy, Hz.
  unfold in_box, vsub, vadd, vscale; cbn [vx vy vz]. lra.
Qed.

(** ** Hulls *)
Lemma combination_transform t ws : rsum (map fst ws) = 1 ->
  transform t (combination ws) = combination (map (fun wv => (fst wv, transform t (snd wv))) ws).
Proof.
  intros H.
  assert (G : forall ws, combination (map (fun wv => (fst wv, transform t (snd wv))) ws) =
    vadd (tlin t (combination ws)) (vscale (rsum (map fst ws)) (transform t vzero))).
  { clear. induction ws as [|[w v] l IH]; cbn [map combination fold_right fst snd rsum].
    - destruct t as [t|]; cbn [tlin]; apply vec_eq; vec_unfold; ring.
    - fold (combination (map (fun wv => (fst wv, transform t (snd wv))) l)).
      fold (combination l). fold (rsum (map fst l)). rewrite IH. rewrite (transform_tlin t v).
      set (c := transform t vzero).
      assert (E : tlin t (vadd (vscale w v) (combination l)) = vadd (vscale w (tlin t v)) (tlin t (combination l)))
        by (destruct t as [t|]; cbn [tlin]; apply vec_eq; vec_unfold; ring).
      rewrite E. clearbody c. apply vec_eq; vec_unfold; ring. }
  rewrite G, H, transform_tlin. apply vec_eq; vec_unfold; ring.
Qed.
Lemma in_hull_transform t vs p : in_hull vs p -> in_hull (map (transform t) vs) (transform t p).
Proof.
  intros (ws & H1 & H2 & H3). exists (map (fun wv => (fst wv, transform t (snd wv))) ws).
  split; [|split].
  - intros w v Hin. apply in_map_iff in Hin. destruct Hin as ([w' v'] & E & Hin).
    cbn in E. inversion E; subst. destruct (H1 _ _ Hin). split; auto. apply in_map; auto.
  - rewrite map_map. cbn. rewrite <- H2. f_equal.
  - rewrite <- combination_transform by auto. congruence.
Qed.

(** A linear function bounded on the vertices is bounded on the hull. *)
Lemma hull_bound (g : vec3 -> R) vs p :
  (forall a b, g (vadd a b) = g a + g b) -> (forall k a, g (vscale k a) = k * g a) -> g vzero = 0 ->
  in_hull vs p -> forall m, (forall v, In v vs -> g v <= m) -> g p <= m.
Proof.
  intros Ha Hs H0 (ws & H1 & H2 & <-) m Hm.
  assert (G : forall ws, (forall w v, In (w, v) ws -> 0 <= w /\ In v vs) ->
    g (combination ws) <= rsum (map fst ws) * m).
  { clear - Ha Hs H0 Hm. induction ws as [|[w v] l IH]; intros Hw; cbn [combination fold_right map fst snd rsum].
    - rewrite H0. lra.
    - fold (combination l). fold (rsum (map fst l)). rewrite Ha, Hs.
      destruct (Hw w v (or_introl eq_refl)) as [Hw1 Hw2]. specialize (Hm v Hw2).
      assert (IH' := IH (fun w' v' H => Hw w' v' (or_intror H))). nra. }
  specialize (G ws H1). rewrite H2 in G. lra.
Qed.

Lemma fold_vmin l a v : In v (a :: l) ->
  vx (fold_left vmin2 l a) <= vx v /\ vy (fold_left vmin2 l a) <= vy v /\ vz (fold_left vmin2 l a) <= vz v.
Proof.
  revert a v. induction l as [|b l IH]; intros a v Hin; cbn [fold_left].
  - destruct Hin as [->|[]]. lra.
  - destruct Hin as [->|[->|Hin]].
    + destruct (IH (vmin2 v b) _ (or_introl eq_refl)) as (H1 & H2 & H3). cbn [vmin2 vx vy vz] in *.
      assert (E1 := Rmin_l (vx v) (vx b)). assert (E2 := Rmin_l (vy v) (vy b)). assert (E3 := Rmin_l (vz v) (vz b)). lra.
    + destruct (IH (vmin2 a v) _ (or_introl eq_refl)) as (H1 & H2 & H3). cbn [vmin2 vx vy vz] in *.
      assert (E1 := Rmin_r (vx a) (vx v)). assert (E2 := Rmin_r (vy a) (vy v)). assert (E3 := Rmin_r (vz a) (vz v)). lra.
    + apply IH. right; auto.
Qed.
Lemma fold_vmax l a v : In v (a :: l) ->
  vx v <= vx (fold_left vmax2 l a) /\ vy v <= vy (fold_left vmax2 l a) /\ vz v <= vz (fold_left vmax2 l a).
Proof.
  revert a v. induction l as [|b l IH]; intros a v Hin; cbn [fold_left].
  - destruct Hin as [->|[]]. lra.
  - destruct Hin as [->|[->|Hin]].
    + destruct (IH (vmax2 v b) _ (or_introl eq_refl)) as (H1 & H2 & H3). cbn [vmax2 vx vy vz] in *.
      assert (E1 := Rmax_l (vx v) (vx b)). assert (E2 := Rmax_l (vy v) (vy b)). assert (E3 := Rmax_l (vz v) (vz b)). lra.
    + destruct (IH (vmax2 a v) _ (or_introl eq_refl)) as (H1 & H2 & H3). cbn [vmax2 vx vy vz] in *.
      assert (E1 := Rmax_r (vx a) (vx v)). assert (E2 := Rmax_r (vy a) (vy v)). assert (E3 := Rmax_r (vz a) (vz v)). lra.
    + apply IH. right; auto.
Qed.
Lemma hull_box vs p : in_hull vs p ->
  exists lo hi, reduce vmin2 vs = Some lo /\ reduce vmax2 vs = Some hi /\ in_box lo hi p.
Proof.
  intros H. destruct vs as [|a l].
  - exfalso. destruct H as (ws & H1 & H2 & _). destruct ws as [|[w v] ws].
    + cbn in H2. lra.
    + destruct (H1 w v (or_introl eq_refl)) as [_ []].
  - exists (fold_left vmin2 l a), (fold_left vmax2 l a). split; [reflexivity|split; [reflexivity|]].
    set (lo := fold_left vmin2 l a). set (hi := fold_left vmax2 l a).
    assert (Hlo := fold_vmin l a). assert (Hhi := fold_vmax l a). fold lo in Hlo. fold hi in Hhi.
    assert (X1 := hull_bound vx _ _ (fun _ _ => eq_refl) (fun _ _ => eq_refl) eq_refl H (vx hi)).
    assert (X2 := hull_bound vy _ _ (fun _ _ => eq_refl) (fun _ _ => eq_refl) eq_refl H (vy hi)).
    assert (X3 := hull_bound vz _ _ (fun _ _ => eq_refl) (fun _ _ => eq_refl) eq_refl H (vz hi)).
    assert (O : forall g : vec3 -> R, (forall a b, g (vadd a b) = g a + g b) ->
      (forall k a, g (vscale k a) = k * g a) -> g vzero = 0 ->
      (forall v, In v (a :: l) -> g lo <= g v) -> g lo <= g p).
    { intros g G1 G2 G3 G4.
      assert (- g p <= - g lo); [|lra].
      apply (hull_bound (fun v => - g v) (a :: l) p); auto.
      - intros; rewrite G1; ring.
      - intros; rewrite G2; ring.
      - rewrite G3; ring.
      - intros v Hv. specialize (G4 v Hv). lra. }
    unfold in_box. repeat split.
    + apply O; auto; intros v Hv; apply Hlo; auto.
    + apply X1; intros v Hv; apply Hhi; auto.
    + apply O; auto; intros v Hv; apply Hlo; auto.
    + apply X2; intros v Hv; apply Hhi; auto.
    + apply O; auto; intros v Hv; apply Hlo; auto.
    + apply X3; intros v Hv; apply Hhi; auto.
Qed.
