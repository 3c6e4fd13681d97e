From Coq Require Import Reals Lra Lia ZArith Psatz.
From Verif Require Import Trig.
Open Scope R_scope.

Lemma rfloor_spec x : rfloor x <= x < rfloor x + 1.
Proof. unfold rfloor. destruct (base_Int_part x) as [H1 H2]. lra. Qed.
Lemma rfloor_unique x z : IZR z <= x < IZR z + 1 -> rfloor x = IZR z.
Proof.
  intros H. assert (H2 := rfloor_spec x). unfold rfloor in *.
  assert ((Int_part x < z + 1)%Z) by (apply lt_IZR; rewrite plus_IZR; simpl; lra).
  assert ((z < Int_part x + 1)%Z) by (apply lt_IZR; rewrite plus_IZR; simpl; lra).
  f_equal. lia.
Qed.
Lemma rmod_shift a m : exists k : Z, rmod a m = a - m * IZR k.
Proof. exists (Int_part (a / m)). reflexivity. Qed.
Lemma rmod_pos a m : 0 < m -> 0 <= rmod a m < m.
Proof.
  intros H. unfold rmod. assert (Hf := rfloor_spec (a / m)).
  assert (E : a = m * (a / m)) by (field; lra).
  set (q := a / m) in *. rewrite E at 1 2. split; nra.
Qed.
Lemma rmod_neg a m : m < 0 -> m < rmod a m <= 0.
Proof.
  intros H. unfold rmod. assert (Hf := rfloor_spec (a / m)).
  assert (E : a = m * (a / m)) by (field; lra).
  set (q := a / m) in *. rewrite E at 1 2. split; nra.
Qed.
(** [rmod] is the only shift of [a] by multiples of [m] in [0, m). *)
Lemma rmod_pos_unique a m (k : Z) : 0 < m -> 0 <= a + m * IZR k < m -> rmod a m = a + m * IZR k.
Proof.
  intros H [H1 H2]. unfold rmod. rewrite (rfloor_unique _ (- k)).
  - rewrite opp_IZR. ring.
  - rewrite opp_IZR. assert (E : a = m * (a / m)) by (field; lra).
    set (q := a / m) in *. rewrite E in H1, H2. split; nra.
Qed.
Lemma rmod_neg_unique a m (k : Z) : m < 0 -> m < a + m * IZR k <= 0 -> rmod a m = a + m * IZR k.
Proof.
  intros H [H1 H2]. unfold rmod. rewrite (rfloor_unique _ (- k)).
  - rewrite opp_IZR. ring.
  - rewrite opp_IZR. assert (E : a = m * (a / m)) by (field; lra).
    set (q := a / m) in *. rewrite E in H1, H2. split; nra.
Qed.

Lemma cos_shift_Z a (k : Z) : cos (a + 2 * PI * IZR k) = cos a.
Proof.
  destruct (Z_le_gt_dec 0 k) as [H|H].
  - rewrite <- (Z2Nat.id k H), <- INR_IZR_INZ. replace (a + 2 * PI * INR (Z.to_nat k)) with (a + 2 * INR (Z.to_nat k) * PI) by ring.
    apply cos_period.
  - rewrite <- (cos_period (a + 2 * PI * IZR k) (Z.to_nat (- k))). f_equal.
    rewrite INR_IZR_INZ, Z2Nat.id by lia. rewrite opp_IZR. ring.
Qed.
Lemma sin_shift_Z a (k : Z) : sin (a + 2 * PI * IZR k) = sin a.
Proof.
  destruct (Z_le_gt_dec 0 k) as [H|H].
  - rewrite <- (Z2Nat.id k H), <- INR_IZR_INZ. replace (a + 2 * PI * INR (Z.to_nat k)) with (a + 2 * INR (Z.to_nat k) * PI) by ring.
    apply sin_period.
  - rewrite <- (sin_period (a + 2 * PI * IZR k) (Z.to_nat (- k))). f_equal.
    rewrite INR_IZR_INZ, Z2Nat.id by lia. rewrite opp_IZR. ring.
Qed.
Lemma cos_rmod a : cos (rmod a (2 * PI)) = cos a.
Proof.
  destruct (rmod_shift a (2 * PI)) as [k ->].
  replace (a - 2 * PI * IZR k) with (a + 2 * PI * IZR (- k)) by (rewrite opp_IZR; ring). apply cos_shift_Z.
Qed.
Lemma sin_rmod a : sin (rmod a (2 * PI)) = sin a.
Proof.
  destruct (rmod_shift a (2 * PI)) as [k ->].
  replace (a - 2 * PI * IZR k) with (a + 2 * PI * IZR (- k)) by (rewrite opp_IZR; ring). apply sin_shift_Z.
Qed.

Lemma cos_1_zero x : - (2 * PI) < x < 2 * PI -> cos x = 1 -> x = 0.
Proof.
  intros [H1 H2] Hc.
  assert (H : forall y, 0 <= y < 2 * PI -> cos y = 1 -> y = 0).
  { intros y [Hy1 Hy2] Hy. destruct (Rle_lt_dec y PI) as [Hp|Hp].
    - destruct (Req_dec y 0); auto. exfalso.
      assert (cos y < cos 0) by (apply cos_decreasing_1; lra). rewrite cos_0 in *; lra.
    - exfalso. assert (cos y < cos (2 * PI)) by (apply cos_increasing_1; lra). rewrite cos_2PI in *; lra. }
  destruct (Rle_lt_dec 0 x).
  - apply H; lra.
  - assert (- x = 0) by (apply H; [lra|rewrite cos_neg; auto]). lra.
Qed.
Lemma angle_unique a b : - (2 * PI) < a - b < 2 * PI -> cos a = cos b -> sin a = sin b -> a = b.
Proof.
  intros H Hc Hs. assert (a - b = 0); [|lra]. apply cos_1_zero; auto.
  rewrite cos_minus, Hc, Hs. assert (Hq := sin2_cos2 b). unfold Rsqr in Hq. lra.
Qed.

Lemma cos_atan_sqrt y x : 0 < x -> cos (atan (y / x)) = x / sqrt (x * x + y * y).
Proof.
  intros Hx. rewrite cos_atan.
  assert (Hp : 0 < x * x + y * y) by nra.
  replace (1 + Rsqr (y / x)) with ((x * x + y * y) / (x * x)) by (unfold Rsqr; field; lra).
  rewrite sqrt_div_alt by nra. rewrite sqrt_square by lra.
  assert (Hs : 0 < sqrt (x * x + y * y)) by (apply sqrt_lt_R0; auto).
  set (s := sqrt (x * x + y * y)) in *. clearbody s. field. split; apply Rgt_not_eq; auto.
Qed.
Lemma sin_atan_sqrt y x : 0 < x -> sin (atan (y / x)) = y / sqrt (x * x + y * y).
Proof.
  intros Hx. assert (Hc := cos_atan_sqrt y x Hx). assert (Ht := atan_right_inv (y / x)).
  unfold tan in Ht.
  assert (Hp : 0 < sqrt (x * x + y * y)) by (apply sqrt_lt_R0; nra).
  assert (Hcp : 0 < cos (atan (y / x))) by (rewrite Hc; apply Rdiv_lt_0_compat; auto).
  replace (sin (atan (y / x))) with (sin (atan (y / x)) / cos (atan (y / x)) * cos (atan (y / x)))
    by (field; apply Rgt_not_eq; auto).
  rewrite Ht, Hc. set (s := sqrt (x * x + y * y)) in *. clearbody s. field. split; apply Rgt_not_eq; auto.
Qed.

Lemma atan2_range y x : - PI < atan2 y x <= PI.
Proof.
  unfold atan2. assert (Hpi := PI_RGT_0). assert (Ha := atan_bound (y / x)).
  destruct (Rlt_dec 0 x); [lra|]. destruct (Rlt_dec x 0).
  - destruct (Rle_dec 0 y).
    + assert (Hy : atan (y / x) <= 0).
      { rewrite <- atan_0. destruct (Req_dec (y / x) 0) as [->|Hn]; [lra|]. left; apply atan_increasing.
        assert (y / x <= 0); [|lra]. unfold Rdiv.
        assert (/ x < 0) by (apply Rinv_lt_0_compat; auto). nra. }
      lra.
    + assert (Hy : 0 < atan (y / x)).
      { rewrite <- atan_0. apply atan_increasing. unfold Rdiv.
        assert (/ x < 0) by (apply Rinv_lt_0_compat; auto). nra. }
      lra.
  - destruct (Rlt_dec 0 y); [lra|]. destruct (Rlt_dec y 0); lra.
Qed.
Lemma atan2_polar y x : let r := sqrt (x * x + y * y) in
  r * cos (atan2 y x) = x /\ r * sin (atan2 y x) = y.
Proof.
  intro r. unfold atan2.
  destruct (Rlt_dec 0 x) as [Hx|Hx].
  { assert (0 < r) by (apply sqrt_lt_R0; nra).
    rewrite cos_atan_sqrt, sin_atan_sqrt by auto. fold r. split; field; lra. }
  destruct (Rlt_dec x 0) as [Hx'|Hx'].
  - assert (Hr : 0 < r) by (apply sqrt_lt_R0; nra).
    assert (E : y / x = (- y) / (- x)) by (field; lra).
    assert (Er : sqrt (- x * - x + - y * - y) = r) by (unfold r; f_equal; ring).
    assert (Hc : cos (atan (y / x)) = - x / r) by (rewrite E, cos_atan_sqrt by lra; rewrite Er; auto).
    assert (Hs : sin (atan (y / x)) = - y / r) by (rewrite E, sin_atan_sqrt by lra; rewrite Er; auto).
    destruct (Rle_dec 0 y).
    + rewrite neg_cos, neg_sin, Hc, Hs. split; field; lra.
    + replace (atan (y / x) - PI) with (- (PI - atan (y / x))) by ring.
      rewrite cos_neg, sin_neg.
      replace (PI - atan (y / x)) with (- atan (y / x) + PI) by ring.
      rewrite neg_cos, neg_sin, cos_neg, sin_neg, Hc, Hs. split; field; lra.
  - assert (x = 0) by lra. subst x. unfold r.
    replace (0 * 0 + y * y) with (y * y) by ring.
    destruct (Rlt_dec 0 y).
    + rewrite sqrt_square, cos_PI2, sin_PI2 by lra. split; ring.
    + destruct (Rlt_dec y 0).
      * replace (y * y) with (- y * - y) by ring. rewrite sqrt_square by lra.
        rewrite cos_neg, sin_neg, cos_PI2, sin_PI2. split; ring.
      * assert (y = 0) by lra. subst. replace (0 * 0) with 0 by ring. rewrite sqrt_0. split; ring.
Qed.
Lemma atan2_of_polar r a : 0 < r -> - PI < a <= PI -> atan2 (r * sin a) (r * cos a) = a.
Proof.
  intros Hr Ha. assert (Hb := atan2_range (r * sin a) (r * cos a)).
  destruct (atan2_polar (r * sin a) (r * cos a)) as [Hc Hs].
  assert (E : sqrt (r * cos a * (r * cos a) + r * sin a * (r * sin a)) = r).
  { replace (r * cos a * (r * cos a) + r * sin a * (r * sin a))
      with (r * r * (sin a * sin a + cos a * cos a)) by ring.
    assert (Hq := sin2_cos2 a). unfold Rsqr in Hq. rewrite Hq, Rmult_1_r. apply sqrt_square; lra. }
  rewrite E in *. apply angle_unique; [lra| |]; apply Rmult_eq_reg_l with r; lra.
Qed.
