(** Counterexamples of C06, C07 and C09; C09 and C10. *)
From Coq Require Import Reals Lra Psatz.
From Coquelicot Require Import Coquelicot.
From Verif Require Import Vec VecLemmas Num NumLemmas RayModel SnellProofs SurfaceModel SagModel SagSpec
  SagNormalProofs SagInterceptProofs SequenceProofs.
Open Scope R_scope.

(** * C06 counterexamples *)
Lemma sphere_off : exists r o u q, r <> 0 /\ is_unit u /\ sphere_intercept r o u = Some q /\
  ~ on_quadric (SphericalSag r) q.
Proof.
  exists 1, (V3 0 0 1), (V3 1 0 0), (V3 0 0 1).
  split; [lra|]. split; [unfold is_unit, norm2, dot; simpl; ring|]. split.
  - rewrite sphere_intercept_eq.
    replace (sph_rad 1 (V3 0 0 1) (V3 1 0 0)) with (1 * 1) by (unfold sph_rad, sph_up; simpl; ring).
    rewrite osqrt_sq by lra. cbn [obind]. f_equal.
    replace (rsign (1 * vz (V3 1 0 0))) with 0 by (simpl; rewrite Rmult_0_r, rsign_0; auto).
    unfold ray_at, sph_up; apply vec_eq; simpl; ring.
  - simpl. lra.
Qed.

Lemma conic_small c k u : Rabs (conic_a c k u) < 1 / 10 ^ 12 -> conic_degenerate c k u = true.
Proof. apply degenerate_true. Qed.

(** Linear branch used although a <> 0: the point misses the quadric by half the
    distance from the axis. *)
Lemma conic_off : exists r k o u q, r <> 0 /\ is_unit u /\ conic_intercept r k o u = Some q /\
  ~ on_quadric (ConicSag r k) q.
Proof.
  exists (10 ^ 13), 0, (V3 (10 ^ 13) 0 0), (V3 0 0 1), (V3 (10 ^ 13) 0 (10 ^ 13 / 2)).
  assert (H13 : 0 < 10 ^ 13) by (apply pow_lt; lra).
  split; [lra|]. split; [unfold is_unit, norm2, dot; simpl; ring|]. split.
  - unfold conic_intercept. rewrite odiv_nz by lra. cbn [obind].
    set (M := 10 ^ 13) in *. set (o := V3 M 0 0). set (u := V3 0 0 1).
    assert (Ha : conic_a (1 / M) 0 u = 1 / M) by (unfold conic_a, u; vcb; field; lra).
    assert (Hb : conic_b (1 / M) 0 o u = -2) by (unfold conic_b, o, u; vcb; field; lra).
    assert (Hc : conic_cc (1 / M) 0 o = M) by (unfold conic_cc, o; vcb; field; lra).
    assert (Hdeg : conic_degenerate (1 / M) 0 u = true).
    { apply degenerate_true. rewrite Ha, Rabs_right.
      - unfold M. unfold Rdiv; rewrite !Rmult_1_l. apply Rinv_lt_contravar; [apply Rmult_lt_0_compat; apply pow_lt; lra|].
        apply Rlt_pow; [lra|auto].
      - apply Rle_ge, Rlt_le, Rdiv_lt_0_compat; lra. }
    assert (Hd : conic_disc (1 / M) 0 o u = 0).
    { unfold conic_disc. rewrite Ha, Hb, Hc. field; lra. }
    assert (Hr : forall sg, conic_root (1 / M) 0 o u sg = Some (M / 2)).
    { intros sg. apply root_intro.
      - rewrite Hd; lra.
      - rewrite Hdeg, Hb, Hc. rewrite odiv_nz by lra. f_equal. field.
      - unfold o, u. vcb.
        replace ((0 + M / 2 * 1) * (1 / M * ((M + M / 2 * 0) * (M + M / 2 * 0) + (0 + M / 2 * 0) * (0 + M / 2 * 0)) - (0 + M / 2 * 1)))
          with (M * M / 4) by (field; lra). nra. }
    unfold conic_t. rewrite !Hr. destruct (Rle_dec _ _); cbn [obind]; f_equal; unfold o, u;
      apply vec_eq; vcb; field.
  - simpl on_quadric. vcb. set (M := 10 ^ 13) in *. nra.
Qed.

(** A ray 5e-6 rad off axis, 100 mm from the axis, starting 10 m before a parabola of
    focal length 1 m: the returned point is almost a micrometre (9e-4 mm) off the surface. *)
Lemma parabola_off : exists f o u q, f <> 0 /\ is_unit u /\ vz u <> 0 /\
  parabola_intercept f o u = Some q /\ ~ on_quadric (ParabolicSag f) q /\
  exists z, parabola_z f (vx q) (vy q) = Some z /\ 9 / 10000 < z - vz q.
Proof.
  set (m := 1000000). set (ux := 2 * m / (m * m + 1)). set (uz := (m * m - 1) / (m * m + 1)).
  assert (Hux : 199 / 10 ^ 8 < ux < 201 / 10 ^ 8) by (unfold ux, m; lra).
  assert (Huz : 99 / 100 < uz < 1) by (unfold uz, m; lra).
  set (o := V3 100 0 (-10000)). set (u := V3 ux 0 uz).
  set (d := (100 * 100 + 4 * 1000 * 10000) / (4 * 1000 * uz)).
  assert (Hd : 10000 < d).
  { unfold d. apply Rmult_lt_reg_r with (4 * 1000 * uz); [lra|].
    replace ((100 * 100 + 4 * 1000 * 10000) / (4 * 1000 * uz) * (4 * 1000 * uz))
      with (100 * 100 + 4 * 1000 * 10000) by (field; lra). lra. }
  exists 1000, o, u, (ray_at o u d).
  assert (E : parabola_intercept 1000 o u = Some (ray_at o u d)).
  { rewrite parabola_eq. destruct (Rlt_dec _ _) as [H|H].
    - exfalso. revert H. unfold par_a, u; vcb. intros H.
      assert (ux * ux < (201 / 10 ^ 8) * (201 / 10 ^ 8)) by (apply Rmult_le_0_lt_compat; lra).
      lra.
    - rewrite odiv_nz by (unfold u; vcb; nz). cbn [obind]. do 2 f_equal.
      unfold par_c, d, o, u; vcb. f_equal. ring. }
  assert (Hz : vz (ray_at o u d) = 100 * 100 / 4000).
  { unfold o, u, d; vcb. field. lra. }
  assert (Hg : forall z, parabola_z 1000 (vx (ray_at o u d)) (vy (ray_at o u d)) = Some z ->
     9 / 10000 < z - vz (ray_at o u d)).
  { intros z Ez.
    assert (G : on_graph (parabola_z 1000) (V3 (vx (ray_at o u d)) (vy (ray_at o u d)) z)) by exact Ez.
    apply parabola_graph in G; [|lra]. simpl on_quadric in G. rewrite Hz.
    revert G. unfold o, u; vcb. intros G.
    assert (Hw : 199 / 10 ^ 4 < d * ux).
    { apply Rlt_trans with (10000 * ux); [lra|apply Rmult_lt_compat_r; lra]. }
    set (w := d * ux) in *. assert (0 <= w * w) by (apply Rle_0_sqr). lra. }
  split; [lra|]. split.
  { unfold is_unit, norm2, dot, u; vcb. unfold ux, uz, m. field. }
  split; [unfold u; vcb; lra|]. split; [exact E|]. split.
  - intros Hq. apply parabola_graph in Hq; [|lra]. apply Hg in Hq. lra.
  - destruct (parabola_z 1000 (vx (ray_at o u d)) (vy (ray_at o u d))) as [z|] eqn:Ez.
    + exists z. split; auto.
    + exfalso. unfold parabola_z in Ez. rewrite conic_z_profile in Ez; [discriminate|lra|].
      set (w := vx _ * vx _ + _). lra.
Qed.

Lemma cylinder_off : exists r o u q, r <> 0 /\ is_unit u /\ vz u <> 0 /\
  cylinder_intercept r o u = Some q /\ ~ on_quadric (CylindricalSag r) q.
Proof.
  exists 1, (V3 5 0 (-1)), (V3 0 0 1), (V3 5 0 0).
  split; [lra|]. split; [unfold is_unit, norm2, dot; simpl; ring|]. split; [simpl; lra|]. split.
  - rewrite cylinder_eq. destruct (Rlt_dec _ _) as [H|H].
    + exfalso; revert H; unfold cyl_disc; vcb; lra.
    + rewrite odiv_nz by (vcb; lra). cbn [obind]. f_equal. apply vec_eq; vcb; field.
  - simpl. lra.
Qed.

(** * C07: a chief ray is lost below the threshold. *)
Lemma conic_lost : exists r k o u q', r <> 0 /\ is_unit u /\ on_line o u q' /\
  on_graph (conic_z r k) q' /\ conic_intercept r k o u = None.
Proof.
  set (e := / 10 ^ 10).
  assert (He : 0 < e) by (apply Rinv_0_lt_compat, pow_lt; lra).
  assert (He2 : e * 10 ^ 10 = 1) by (unfold e; apply Rinv_l, pow_nonzero; lra).
  exists 1000, (-1 + e), (V3 0 0 (-10)), (V3 0 0 1), (V3 0 0 0).
  split; [lra|]. split; [unfold is_unit, norm2, dot; simpl; ring|].
  split; [exists 10; apply vec_eq; vcb; ring|]. split.
  - apply sheet_graph; [lra|]. unfold quad; vcb. split; lra.
  - set (o := V3 0 0 (-10)). set (u := V3 0 0 1). set (c := 1 / 1000).
    unfold conic_intercept. rewrite odiv_nz by lra. cbn [obind]. fold c.
    assert (Hdeg : conic_degenerate c (-1 + e) u = true).
    { apply degenerate_true. unfold conic_a, u; vcb.
      replace (c * (0 * 0 + 0 * 0 + (1 + (-1 + e)) * (1 * 1))) with (c * e) by ring.
      assert (c * e * 10 ^ 12 = 1 / 10) by (unfold c; lra).
      rewrite Rabs_right by (unfold c; lra). lra. }
    assert (Hr : forall sg, conic_root c (-1 + e) o u sg = None).
    { intros sg. destruct (conic_root c (-1 + e) o u sg) as [t|] eqn:E; auto. exfalso.
      apply root_some in E as (_ & E & Hs). rewrite Hdeg in E.
      apply odiv_some in E as (_ & _ & E).
      revert E Hs. unfold conic_b, conic_cc, o, u, c; vcb. intros E Hs.
      assert (E1 : t * (1 + e / 100) = 10 + e / 20) by lra.
      assert (Hz : (-10 + t) * (1 + e / 100) = - (e / 20)) by lra.
      assert (Hne : -10 + t <> 0) by (intros H0; rewrite H0 in Hz; lra).
      assert (Hp := sq_pos _ Hne). nra. }
    unfold conic_t. rewrite !Hr. reflexivity.
Qed.

(** * C09 *)
Lemma sphere_conic_regular r o u : Rabs r <= 10 ^ 12 -> regular (SphericalSag r) o u ->
  regular (ConicSag r 0) o u.
Proof.
  intros Hb (Hr & Hu & Hz). split; [auto|split; [auto|right]].
  destruct u as [ux uy uz]. unfold is_unit, norm2, dot in Hu. vcb.
  replace (1 / r * (ux * ux + uy * uy + (1 + 0) * (uz * uz))) with (/ r).
  - rewrite Rabs_inv. assert (0 < Rabs r) by (apply Rabs_pos_lt; auto).
    unfold Rdiv. rewrite Rmult_1_l. apply Rinv_le_contravar; auto.
  - replace (ux * ux + uy * uy + (1 + 0) * (uz * uz)) with 1 by lra. field; auto.
Qed.

Lemma agree_nearest r k o u q : regular (ConicSag r k) o u ->
  on_line o u q -> on_graph (conic_z r k) q ->
  (forall q', on_line o u q' -> on_graph (conic_z r k) q' -> q' <> q ->
     norm2 (vsub q o) < norm2 (vsub q' o)) ->
  conic_intercept r k o u = Some q.
Proof.
  intros Hreg Hl Hg Hn. destruct (conic_complete r k o u q Hreg Hl Hg) as [q1 H1].
  rewrite H1. f_equal.
  assert (Hle := conic_nearest r k o u q1 q Hreg H1 Hl Hg).
  assert (Hl1 := class_on_line (fun _ _ => None) (ConicSag r k) _ _ _ H1).
  assert (Hg1 := conic_on_graph _ _ _ _ _ Hreg H1).
  destruct Hl as [t Ht], Hl1 as [t1 Ht1].
  destruct (Req_dec t1 t) as [->|Hne]; [congruence|].
  exfalso. assert (norm2 (vsub q o) < norm2 (vsub q1 o)); [|lra].
  apply Hn; [exists t1| |]; auto. intros E. apply Hne.
  rewrite Ht, Ht1 in E. destruct Hreg as (_ & Hu & _).
  destruct o as [ox oy oz], u as [ux uy uz]. unfold is_unit, norm2, dot in Hu. vcb.
  inversion E as [[E1 E2 E3]].
  assert ((t1 - t) * (ux * ux + uy * uy + uz * uz) = 0).
  { replace ((t1 - t) * (ux * ux + uy * uy + uz * uz))
      with ((ox + t1 * ux - (ox + t * ux)) * ux + (oy + t1 * uy - (oy + t * uy)) * uy
            + (oz + t1 * uz - (oz + t * uz)) * uz) by ring. rewrite E1, E2, E3. ring. }
  rewrite Hu in H. lra.
Qed.

Lemma sphere_agree r o u q : Rabs r <= 10 ^ 12 -> regular (SphericalSag r) o u ->
  sphere_intercept r o u = Some q -> strictly_nearest (sphere_z r) o u q ->
  conic_intercept r 0 o u = Some q.
Proof.
  intros Hb Hreg Hi (Hl & Hg & Hn). apply agree_nearest; auto.
  - apply sphere_conic_regular; auto.
  - unfold on_graph in *; rewrite <- sphere_z_conic; auto.
  - intros q' Hl' Hg' Hne. apply Hn; auto. unfold on_graph in *; rewrite sphere_z_conic; auto.
Qed.
Lemma parabola_agree f o u q : regular (ParabolicSag f) o u -> regular (ConicSag (2 * f) (-1)) o u ->
  parabola_intercept f o u = Some q -> strictly_nearest (parabola_z f) o u q ->
  conic_intercept (2 * f) (-1) o u = Some q.
Proof. intros Hreg Hreg' Hi (Hl & Hg & Hn). apply agree_nearest; auto. Qed.

Lemma sphere_disagree : exists r o u q q', r <> 0 /\ is_unit u /\ vz u <> 0 /\
  sphere_intercept r o u = Some q /\ on_graph (sphere_z r) q /\
  conic_intercept r 0 o u = Some q' /\ q' <> q.
Proof.
  set (u := V3 (4/5) 0 (3/5)). set (o := V3 (8/5) 0 (6/5)).
  assert (Hu : is_unit u) by (unfold is_unit, norm2, dot, u; vcb; field).
  assert (Hs : sphere_intercept 1 o u = Some (V3 0 0 0)).
  { rewrite sphere_intercept_eq.
    replace (sph_rad 1 o u) with ((3/5) * (3/5)) by (unfold sph_rad, sph_up, o, u; vcb; field).
    rewrite osqrt_sq by lra. cbn [obind]. f_equal.
    rewrite rsign_pos by (unfold u; vcb; lra). unfold sph_up, o, u. apply vec_eq; vcb; field. }
  assert (Hreg : regular (SphericalSag 1) o u) by (split; [lra|split; [auto|unfold u; vcb; lra]]).
  assert (Hregc : regular (ConicSag 1 0) o u).
  { apply sphere_conic_regular; auto. rewrite Rabs_R1. lra. }
  set (q1 := V3 (24/25) 0 (18/25)).
  assert (Hl1 : on_line o u q1) by (exists (-4/5); unfold o, u, q1; apply vec_eq; vcb; field).
  assert (Hg1 : on_graph (conic_z 1 0) q1).
  { unfold on_graph; rewrite <- sphere_z_conic. apply (sphere_graph 1 q1); [lra|].
    unfold q1; simpl. lra. }
  destruct (conic_complete 1 0 o u q1 Hregc Hl1 Hg1) as [q' Hq'].
  exists 1, o, u, (V3 0 0 0), q'.
  split; [lra|]. split; [auto|]. split; [unfold u; vcb; lra|]. split; [auto|]. split.
  { apply sphere_graph; [lra|]. simpl; lra. }
  split; [auto|]. intros E. rewrite E in Hq'.
  assert (Hn := conic_nearest 1 0 o u _ q1 Hregc Hq' Hl1 Hg1).
  revert Hn. unfold norm2, dot, o, q1; vcb. lra.
Qed.

Lemma parabola_disagree : exists f o u q q', regular (ParabolicSag f) o u /\
  parabola_intercept f o u = Some q /\ on_graph (parabola_z f) q /\
  conic_intercept (2 * f) (-1) o u = Some q' /\ q' <> q.
Proof.
  set (f := 9/80). set (u := V3 (3/5) 0 (4/5)). set (o := V3 (6/5) 0 (8/5)).
  assert (Hu : is_unit u) by (unfold is_unit, norm2, dot, u; vcb; field).
  assert (Hreg : regular (ParabolicSag f) o u).
  { split; [unfold f; lra|split; [unfold u; vcb; lra|right; unfold u; vcb; lra]]. }
  assert (Hregc : regular (ConicSag (2 * f) (-1)) o u).
  { split; [unfold f; lra|split; [auto|right]]. unfold f, u; vcb.
    replace (1 / (2 * (9/80)) * (3/5 * (3/5) + 0 * 0 + (1 + -1) * (4/5 * (4/5)))) with (8/5) by field.
    rewrite Rabs_right; lra. }
  set (q1 := V3 (3/5) 0 (4/5)).
  assert (Hl1 : on_line o u q1) by (exists (-1); unfold o, u, q1; apply vec_eq; vcb; field).
  assert (Hg1 : on_graph (conic_z (2 * f) (-1)) q1).
  { apply (parabola_graph f q1); [unfold f; lra|]. unfold q1, f; simpl. lra. }
  assert (Hp : parabola_intercept f o u = Some (V3 0 0 0)).
  { rewrite parabola_eq. destruct (Rlt_dec _ _) as [H|H].
    - replace (par_b f o u * par_b f o u - par_a u * par_c f o) with ((9/50) * (9/50))
        by (unfold par_a, par_b, par_c, f, o, u; vcb; field).
      rewrite osqrt_sq by lra. cbn [obind]. rewrite rsign_pos by (unfold f, u; vcb; lra).
      rewrite odiv_nz by (unfold par_a, u; vcb; lra). cbn [obind]. f_equal.
      unfold par_a, par_b, f, o, u; apply vec_eq; vcb; field.
    - exfalso; apply H; unfold par_a, u; vcb; lra. }
  destruct (conic_complete _ _ o u q1 Hregc Hl1 Hg1) as [q' Hq'].
  exists f, o, u, (V3 0 0 0), q'. split; [auto|]. split; [auto|]. split.
  { apply parabola_graph; [unfold f; lra|]. simpl; lra. }
  split; [auto|]. intros E. rewrite E in Hq'.
  assert (Hn := conic_nearest _ _ o u _ q1 Hregc Hq' Hl1 Hg1).
  revert Hn. unfold norm2, dot, o, q1; vcb. lra.
Qed.

Lemma parabola_z_eq f x y : parabola_z f x y = conic_z (2 * f) (-1) x y.
Proof. reflexivity. Qed.

(** * C10 *)

Lemma intercept_moved solver s t o u : is_rigid t -> ~ is_toroid s ->
  sag_intercept_t solver s (Some t) (rigid_point t o) (rigid_vector t u)
  = omap (rigid_point t) (class_intercept solver s o u).
Proof.
  intros Ht Hs. unfold sag_intercept_t.
  rewrite rigid_inv_point, rigid_inv_vector by auto.
  destruct s; try reflexivity. exfalso; apply Hs; unfold is_toroid; eauto.
Qed.

Lemma translation_rigid t : is_translation t -> is_rigid t.
Proof.
  unfold is_translation, is_rigid. intros ->. unfold orthogonal, mmul, mtrans, mid; simpl.
  unfold dot; simpl. f_equal; f_equal; ring.
Qed.

Lemma translation_normal s t p : is_translation t ->
  sag_normal_t s (Some t) (rigid_point t p) = omap (rigid_vector t) (class_normal s p).
Proof.
  intros Ht. unfold sag_normal_t. rewrite rigid_inv_point by (apply translation_rigid; auto).
  destruct (class_normal s p) as [n|]; cbn [omap]; auto. f_equal.
  unfold rigid_vector. unfold is_translation in Ht. rewrite Ht. symmetry. apply mapply_mid.
Qed.

Lemma height_sag s t p z : keeps_height t -> s <> NoSag ->
  sag_z_t s (Some t) p = Some z -> moved_surface (class_z s) t (V3 (vx p) (vy p) z).
Proof.
  intros [Ht Hh] Hs H.
  assert (H' : class_z s (vx (rigid_point (rigid_inv t) p)) (vy (rigid_point (rigid_inv t) p)) = Some z)
    by (destruct s; auto; congruence). clear H.
  set (q := rigid_point (rigid_inv t) p) in *.
  exists (V3 (vx q) (vy q) z). split; [exact H'|].
  assert (Eq : rigid_point t q = p) by (apply rigid_inv_point_r; auto).
  (* the map acts on x, y independently of z *)
  assert (Hz := Hh (V3 (vx q) (vy q) z)).
  assert (Hlin : forall a b, rigid_point t a = vadd (rigid_point t b) (mapply (rg_mat t) (vsub a b))).
  { intros a b. unfold rigid_point. rewrite mapply_sub. vec_ring. }
  assert (Hd := Hlin (V3 (vx q) (vy q) z) q).
  (* the image of e_z is e_z: its z component is 1 and its length is 1 *)
  assert (He : mapply (rg_mat t) (V3 0 0 1) = V3 0 0 1).
  { assert (N := orthogonal_norm2 (rg_mat t) (V3 0 0 1) Ht).
    assert (Z1 := Hh (V3 0 0 1)). assert (Z0 := Hh vzero).
    assert (L := Hlin (V3 0 0 1) vzero).
    replace (vsub (V3 0 0 1) vzero) with (V3 0 0 1) in L by vec_ring.
    rewrite L in Z1. set (w := mapply (rg_mat t) (V3 0 0 1)) in *.
    destruct w as [wx wy wz]. cbn [vz vadd vzero] in Z1, Z0.
    unfold norm2, dot in N; cbn [vx vy vz] in N.
    assert (wz = 1) by lra. subst wz. apply vec_eq; cbn [vx vy vz]; nra. }
  replace (vsub (V3 (vx q) (vy q) z) q) with (vscale (z - vz q) (V3 0 0 1)) in Hd
    by (apply vec_eq; cbn [vx vy vz vsub vscale]; ring).
  rewrite mapply_scale, He, Eq in Hd. rewrite Hd.
  assert (Hpq : vz p = vz q) by (rewrite <- Eq; apply Hh).
  apply vec_eq; cbn [vx vy vz vadd vscale]; lra.
Qed.

Lemma flat_translation t p z : is_translation t ->
  sag_z_t NoSag (Some t) p = Some z -> moved_surface (class_z NoSag) t (V3 (vx p) (vy p) z).
Proof.
  intros Ht. destruct t as [m sh]. unfold is_translation in Ht; cbn [rg_mat] in Ht. subst m.
  cbn [sag_z_t flat_z_t]. intro E; injection E as <-.
  destruct p as [x y w], sh as [a b c].
  exists (V3 (x - a) (y - b) 0). split; [reflexivity|].
  apply vec_eq; cbv [vx vy vz rigid_point rigid_inv mapply mtrans mid rg_mat rg_shift vadd vopp dot mr1 mr2 mr3]; ring.
Qed.

Lemma sag_not_moved : exists s t p z, s <> NoSag /\ is_translation t /\
  sag_z_t s (Some t) p = Some z /\ ~ moved_surface (class_z s) t (V3 (vx p) (vy p) z).
Proof.
  exists (SphericalSag 1), (mkRigid mid (V3 0 0 1)), (V3 0 0 0), 0.
  split; [discriminate|]. split; [reflexivity|]. 
  assert (E : sphere_z 1 0 0 = Some 0).
  { unfold sphere_z. rewrite odiv_nz by lra. cbn [obind].
    replace (1 - 1 / 1 * (1 / 1) * (0 * 0 + 0 * 0)) with (1 * 1) by field.
    rewrite osqrt_sq by lra. cbn [obind]. rewrite odiv_nz by lra. f_equal. field. }
  split.
  - cbn [sag_z_t class_z]. etransitivity; [|exact E].
    f_equal; cbv [vx vy vz rigid_point rigid_inv mapply mtrans mid rg_mat rg_shift vadd vopp dot mr1 mr2 mr3]; ring.
  - intros (p & Hp & Eq). destruct p as [x y z]. unfold on_graph in Hp; cbn [class_z vx vy vz] in *.
    apply (f_equal vx) in Eq as Ex. apply (f_equal vy) in Eq as Ey. apply (f_equal vz) in Eq as Ezz.
    revert Ex Ey Ezz. cbv [vx vy vz rigid_point mapply mid rg_mat rg_shift vadd dot mr1 mr2 mr3]. intros.
    assert (x = 0) by lra. assert (y = 0) by lra. subst x y. rewrite E in Hp. inversion Hp. lra.
Qed.

(** A plane tilted by a 3-4-5 rotation through its transformation. *)
Definition tilt345 : rigid := mkRigid (M3 (V3 1 0 0) (V3 0 (4/5) (-3/5)) (V3 0 (3/5) (4/5))) (V3 0 0 0).
Lemma tilt345_rigid : is_rigid tilt345.
Proof. unfold is_rigid, orthogonal, tilt345, mmul, mtrans, mid; simpl. unfold dot; simpl. f_equal; f_equal; field. Qed.

Lemma normal_not_rotated : exists s t p n, is_rigid t /\
  class_normal s p = Some n /\ sag_normal_t s (Some t) (rigid_point t p) <> Some (rigid_vector t n).
Proof.
  exists NoSag, tilt345, (V3 0 0 0), (V3 0 0 (-1)). split; [apply tilt345_rigid|]. split; [reflexivity|].
  cbn [sag_normal_t class_normal]. unfold flat_normal. intros E. inversion E as [[E1 E2 E3]].
  revert E3. cbv [vx vy vz mapply rg_mat dot mr1 mr2 mr3]. lra.
Qed.

Lemma flat_tilt : exists t p z, is_rigid t /\ sag_z_t NoSag (Some t) p = Some z /\
  ~ moved_surface (class_z NoSag) t (V3 (vx p) (vy p) z).
Proof.
  exists tilt345, (V3 0 1 0), (12/25). split; [apply tilt345_rigid|]. split.
  - cbn [sag_z_t flat_z_t]. f_equal.
    cbv [vx vy vz rigid_point rigid_inv mapply mtrans tilt345 rg_mat rg_shift vadd vopp dot mr1 mr2 mr3]. field.
  - intros (p & Hp & Eq). destruct p as [x y z]. unfold on_graph in Hp; cbn in Hp. inversion Hp; subst z.
    apply (f_equal vy) in Eq as Ey. apply (f_equal vz) in Eq as Ez. revert Ey Ez.
    cbv [vx vy vz rigid_point mapply tilt345 rg_mat rg_shift vadd dot mr1 mr2 mr3]. lra.
Qed.

(** The intercept of a shifted sphere is not on the sag of that same object. *)
Lemma intercept_off_sag : exists s t o u q, is_translation t /\
  sag_intercept_t (fun _ _ => None) s (Some t) o u = Some q /\ sag_z_t s (Some t) q <> Some (vz q).
Proof.
  exists (SphericalSag 1), (mkRigid mid (V3 0 0 1)), (V3 0 0 0), (V3 0 0 1), (V3 0 0 1).
  split; [reflexivity|]. split.
  - cbn [sag_intercept_t class_intercept]. rewrite sphere_intercept_eq.
    replace (rigid_point (rigid_inv (mkRigid mid (V3 0 0 1))) (V3 0 0 0)) with (V3 0 0 (-1))
      by (apply vec_eq; cbv [vx vy vz rigid_point rigid_inv mapply mtrans mid rg_mat rg_shift vadd vopp dot mr1 mr2 mr3]; ring).
    replace (rigid_vector (rigid_inv (mkRigid mid (V3 0 0 1))) (V3 0 0 1)) with (V3 0 0 1)
      by (apply vec_eq; cbv [vx vy vz rigid_vector rigid_inv mapply mtrans mid rg_mat rg_shift dot mr1 mr2 mr3]; ring).
    replace (sph_rad 1 (V3 0 0 (-1)) (V3 0 0 1)) with (1 * 1) by (unfold sph_rad, sph_up; vcb; ring).
    rewrite osqrt_sq by lra. cbn [obind omap]. f_equal.
    rewrite rsign_pos by (vcb; lra). unfold sph_up.
    apply vec_eq; cbv [vx vy vz rigid_point mapply mid rg_mat rg_shift vadd vscale ray_at dot mr1 mr2 mr3]; ring.
  - destruct (sag_z_t (SphericalSag 1) (Some (mkRigid mid (V3 0 0 1))) (V3 0 0 1)) as [z|] eqn:E; [|discriminate].
    cbn [vz]. revert E. cbn [sag_z_t class_z]. set (q := rigid_point _ _).
    assert (Hx : vx q = 0) by (unfold q; cbv [vx vy vz rigid_point rigid_inv mapply mtrans mid rg_mat rg_shift vadd vopp dot mr1 mr2 mr3]; ring).
    assert (Hy : vy q = 0) by (unfold q; cbv [vx vy vz rigid_point rigid_inv mapply mtrans mid rg_mat rg_shift vadd vopp dot mr1 mr2 mr3]; ring).
    rewrite Hx, Hy. unfold sphere_z. rewrite odiv_nz by lra. cbn [obind].
    replace (1 - 1 / 1 * (1 / 1) * (0 * 0 + 0 * 0)) with (1 * 1) by field.
    rewrite osqrt_sq by lra. cbn [obind]. rewrite odiv_nz by lra. intros E E2. inversion E. inversion E2. lra.
Qed.
