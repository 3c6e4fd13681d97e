From Coq Require Import Reals Lra Lia List ZArith.
From Coquelicot Require Import Coquelicot.
From Verif Require Import Vec VecLemmas Num NumLemmas RayModel SnellSpec RulingModel RulingSpec RulingProofs GrooveProofs ProfileProofs AllOrderSpec.
Import ListNotations.
Open Scope R_scope.

(** ** Sums over consecutive integers *)
Fixpoint zsum (f : Z -> R) (a : Z) (n : nat) : R :=
  match n with O => 0 | S m => zsum f a m + f (a + Z.of_nat m)%Z end.
Lemma zsum_app f a n m : zsum f a (n + m) = zsum f a n + zsum f (a + Z.of_nat n)%Z m.
Proof.
  induction m as [|m IH]; [rewrite Nat.add_0_r; cbn; ring|]. rewrite Nat.add_succ_r. cbn [zsum]. rewrite IH.
  replace (a + Z.of_nat (n + m))%Z with (a + Z.of_nat n + Z.of_nat m)%Z by lia. ring.
Qed.
Lemma zsum_le f g a n : (forall i, (a <= i < a + Z.of_nat n)%Z -> f i <= g i) -> zsum f a n <= zsum g a n.
Proof.
  induction n as [|n IH]; intros H; [cbn; lra|]. cbn [zsum]. apply Rplus_le_compat; [apply IH; intros; apply H; lia | apply H; lia].
Qed.
Lemma zsum_ext f g a n : (forall i, (a <= i < a + Z.of_nat n)%Z -> f i = g i) -> zsum f a n = zsum g a n.
Proof. intros H. apply Rle_antisym; apply zsum_le; intros i I; rewrite (H i I); lra. Qed.
Lemma zsum_plus f g a n : zsum (fun i => f i + g i) a n = zsum f a n + zsum g a n.
Proof. induction n as [|n IH]; cbn [zsum]; [ring | rewrite IH; ring]. Qed.
Lemma zsum_scal c f a n : zsum (fun i => c * f i) a n = c * zsum f a n.
Proof. induction n as [|n IH]; cbn [zsum]; [ring | rewrite IH; ring]. Qed.
Lemma zsum_const c a n : zsum (fun _ => c) a n = INR n * c.
Proof. induction n as [|n IH]; [cbn; ring|]. cbn [zsum]. rewrite IH, S_INR. ring. Qed.
Lemma zsum_nonneg f a n : (forall i, 0 <= f i) -> 0 <= zsum f a n.
Proof. intros H. induction n as [|n IH]; cbn [zsum]; [lra | specialize (H (a + Z.of_nat n)%Z); lra]. Qed.
Lemma zsum_shift f a b n : zsum (fun i => f (i + b)%Z) a n = zsum f (a + b)%Z n.
Proof. induction n as [|n IH]; cbn [zsum]; [reflexivity|]. rewrite IH. f_equal. f_equal. lia. Qed.
Lemma zsum_window f a n b m : (forall i, 0 <= f i) -> (b <= a)%Z -> (a + Z.of_nat n <= b + Z.of_nat m)%Z -> zsum f a n <= zsum f b m.
Proof.
  intros H B M. set (k := Z.to_nat (a - b)). set (l := Z.to_nat (b + Z.of_nat m - a - Z.of_nat n)).
  replace m with (k + (n + l))%nat by lia. rewrite !zsum_app. replace (b + Z.of_nat k)%Z with a by lia.
  assert (A := zsum_nonneg f b k H). assert (C := zsum_nonneg f (a + Z.of_nat n)%Z l H). lra.
Qed.
Lemma zsum_list f a n : rsum (map f (map (fun j => (Z.of_nat j + a)%Z) (seq 0 n))) = zsum f a n.
Proof.
  induction n as [|n IH]; [reflexivity|]. rewrite seq_S, !map_app, rsum_app, IH. cbn [zsum]. rewrite (Z.add_comm a).
  unfold rsum. cbn [map fold_right Nat.add]. ring.
Qed.
Lemma orders_sum f N : rsum (map f (orders_up_to N)) = zsum f (- Z.of_nat N) (2 * N + 1).
Proof.
  rewrite <- zsum_list. reflexivity.
Qed.

(** ** Reciprocal squares of sines *)
Lemma sin2_period x k : sin (PI * (x + IZR k)) ^ 2 = sin (PI * x) ^ 2.
Proof.
  assert (N : forall n x, sin (PI * (x + INR n)) ^ 2 = sin (PI * x) ^ 2).
  { clear. induction n as [|n IH]; intros x; [cbn [INR]; rewrite Rplus_0_r; reflexivity|].
    rewrite S_INR. replace (PI * (x + (INR n + 1))) with (PI * (x + INR n) + PI) by ring. rewrite neg_sin.
    rewrite <- (IH x). ring. }
  destruct k as [|p|p].
  - rewrite Rplus_0_r. reflexivity.
  - replace (IZR (Z.pos p)) with (INR (Pos.to_nat p)); [apply N|]. rewrite INR_IZR_INZ, positive_nat_Z. reflexivity.
  - rewrite <- (N (Pos.to_nat p) (x + IZR (Z.neg p))). f_equal. f_equal. f_equal.
    rewrite INR_IZR_INZ, positive_nat_Z. replace (Z.neg p) with (- Z.pos p)%Z by reflexivity. rewrite opp_IZR. ring.
Qed.

Lemma sin_half_square y : sin y <> 0 -> / sin y ^ 2 = (/ sin (y / 2) ^ 2 + / sin (y / 2 + PI / 2) ^ 2) / 4.
Proof.
  intros H. assert (E : sin (y / 2 + PI / 2) = cos (y / 2)).
  { rewrite sin_plus, sin_PI2, cos_PI2. ring. }
  rewrite E. set (u := y / 2) in *. replace y with (2 * u) in * by (unfold u; field).
  rewrite sin_2a in *.
  assert (A : sin u <> 0) by (intros Z; apply H; rewrite Z; ring).
  assert (B : cos u <> 0) by (intros Z; apply H; rewrite Z; ring).
  assert (P := sin2_cos2 u). unfold Rsqr in P.
  replace (/ sin u ^ 2 + / cos u ^ 2) with ((sin u * sin u + cos u * cos u) / (sin u ^ 2 * cos u ^ 2)) by (field; auto).
  rewrite P. field. auto.
Qed.

Lemma csc_sum n : forall x a, sin (PI * x) <> 0 ->
  zsum (fun r => / (4 ^ n * sin (PI * (x + IZR r) / 2 ^ n) ^ 2)) a (2 ^ n) = / sin (PI * x) ^ 2.
Proof.
  induction n as [|n IH]; intros x a H.
  - cbn [zsum Nat.pow pow]. rewrite Rplus_0_l. f_equal. rewrite Rmult_1_l. rewrite Z.add_0_r.
    replace (PI * (x + IZR a) / 1) with (PI * (x + IZR a)) by field. apply (sin2_period x a).
  - rewrite <- (IH x a H). change (2 ^ S n)%nat with (2 * 2 ^ n)%nat. replace (2 * 2 ^ n)%nat with (2 ^ n + 2 ^ n)%nat by lia.
    rewrite zsum_app, <- (zsum_shift _ a (Z.of_nat (2 ^ n))), <- zsum_plus. apply zsum_ext. intros r _. cbv beta.
    assert (T : 2 ^ n <> 0) by (apply pow_nonzero; lra). assert (F : 4 ^ n <> 0) by (apply pow_nonzero; lra).
    assert (S0 : forall k (y : R), sin (PI * y) <> 0 -> sin (PI * y / 2 ^ k) <> 0).
    { clear. induction k as [|k IH]; intros y H; [cbn [pow]; replace (PI * y / 1) with (PI * y) by field; exact H|].
      intros Z. apply (IH y H). assert (K : 2 ^ k <> 0) by (apply pow_nonzero; lra).
      replace (PI * y / 2 ^ k) with (2 * (PI * y / 2 ^ S k)) by (cbn [pow]; field; exact K). rewrite sin_2a, Z. ring. }
    assert (S1 : sin (PI * (x + IZR r)) <> 0).
    { intros Z. assert (P := sin2_period x r). rewrite Z in P. apply H. apply (Rmult_eq_reg_l (sin (PI * x))); [|exact H]. lra. }
    assert (S2 := S0 n _ S1). assert (E := sin_half_square _ S2).
    replace (PI * (x + IZR r) / 2 ^ n / 2) with (PI * (x + IZR r) / 2 ^ S n) in E by (cbn [pow]; field; exact T).
    replace (PI * (x + IZR r) / 2 ^ S n + PI / 2) with (PI * (x + IZR (r + Z.of_nat (2 ^ n))) / 2 ^ S n) in E.
    + replace (/ (4 ^ n * sin (PI * (x + IZR r) / 2 ^ n) ^ 2)) with (/ 4 ^ n * / sin (PI * (x + IZR r) / 2 ^ n) ^ 2) by (field; auto). rewrite E.
      assert (S3 := S0 (S n) _ S1).
      assert (S4 : sin (PI * (x + IZR (r + Z.of_nat (2 ^ n))) / 2 ^ S n) <> 0).
      { apply S0. intros Z. assert (P := sin2_period x (r + Z.of_nat (2 ^ n))). rewrite Z in P. apply H. apply (Rmult_eq_reg_l (sin (PI * x))); [|exact H]. lra. }
      set (u := sin (PI * (x + IZR r) / 2 ^ S n)) in *. set (v := sin (PI * (x + IZR (r + Z.of_nat (2 ^ n))) / 2 ^ S n)) in *.
      change (4 ^ S n) with (4 * 4 ^ n). field. auto.
    + rewrite plus_IZR, <- INR_IZR_INZ, pow_INR. change (INR 2) with 2. cbn [pow]. field. exact T.
Qed.

Lemma tan_ge y : 0 <= y < PI / 2 -> y <= tan y.
Proof.
  intros [Y0 Y1]. destruct (Req_dec y 0) as [->|N]; [rewrite tan_0; lra|].
  assert (P := PI_RGT_0).
  destruct (MVT_gen (fun t => tan t - t) 0 y (fun t => (tan t ^ 2 + 1) - 1)) as (c & Hc & E).
  - intros t Ht. rewrite Rmin_left, Rmax_right in Ht by lra.
    apply (is_derive_minus tan (fun t => t) t (tan t ^ 2 + 1) 1); [|apply (is_derive_id t)].
    apply is_derive_tan. apply Rgt_not_eq, cos_gt_0; lra.
  - intros t Ht. rewrite Rmin_left, Rmax_right in Ht by lra.
    apply continuity_pt_minus; [|apply derivable_continuous, derivable_id].
    apply derivable_continuous_pt, derivable_pt_tan; lra.
  - rewrite tan_0 in E. assert (0 <= tan c ^ 2) by nra. nra.
Qed.

Lemma csc_bounds y : - (PI / 2) < y < PI / 2 -> y <> 0 -> / y ^ 2 <= / sin y ^ 2 <= / y ^ 2 + 1.
Proof.
  assert (P := PI_RGT_0).
  assert (G : forall y, 0 < y < PI / 2 -> / y ^ 2 <= / sin y ^ 2 <= / y ^ 2 + 1).
  { clear y. intros y Y. assert (S : 0 < sin y) by (apply sin_gt_0; lra). assert (L := sin_lt_x y (proj1 Y)).
    assert (C : 0 < cos y) by (apply cos_gt_0; lra). split.
    - apply Rinv_le_contravar; [nra|]. nra.
    - assert (T := tan_ge y ltac:(lra)). unfold tan in T.
      assert (Q : y * cos y <= sin y). { apply (Rmult_le_compat_r (cos y)) in T; [|lra]. unfold Rdiv in T. rewrite Rmult_assoc, Rinv_l in T by lra. lra. }
      assert (Q2 : y ^ 2 * cos y ^ 2 <= sin y ^ 2).
      { rewrite <- Rpow_mult_distr. apply pow_incr. split; [apply Rmult_le_pos; lra | exact Q]. }
      assert (E := sin2_cos2 y). unfold Rsqr in E. replace (cos y ^ 2) with (1 - sin y ^ 2) in Q2 by nra.
      replace (/ y ^ 2 + 1) with ((1 + y ^ 2) / y ^ 2) by (field; lra).
      apply (Rmult_le_reg_r (sin y ^ 2 * y ^ 2)); [apply Rmult_lt_0_compat; nra|].
      replace (/ sin y ^ 2 * (sin y ^ 2 * y ^ 2)) with (y ^ 2) by (field; lra).
      replace ((1 + y ^ 2) / y ^ 2 * (sin y ^ 2 * y ^ 2)) with ((1 + y ^ 2) * sin y ^ 2) by (field; lra). nra. }
  intros Y N. destruct (Rlt_or_le 0 y) as [L|L]; [apply G; lra|].
  assert (X := G (- y) ltac:(lra)). rewrite sin_neg in X. replace ((- y) ^ 2) with (y ^ 2) in X by ring. replace ((- sin y) ^ 2) with (sin y ^ 2) in X by ring. exact X.
Qed.

(** The partial fractions of the reciprocal square of the sine, with the rest. *)
Lemma partial_fractions x n : 0 < x < 1 ->
  zsum (fun r => / (PI * (x + IZR r)) ^ 2) (- 2 ^ Z.of_nat n) (2 * 2 ^ n) <= / sin (PI * x) ^ 2
  <= zsum (fun r => / (PI * (x + IZR r)) ^ 2) (- 2 ^ Z.of_nat n) (2 * 2 ^ n) + / 2 ^ S n.
Proof.
  intros X. assert (P := PI_RGT_0). assert (SX : sin (PI * x) <> 0) by (apply Rgt_not_eq, sin_gt_0; nra).
  rewrite <- (csc_sum (S n) x (- 2 ^ Z.of_nat n)%Z SX). change (2 ^ S n)%nat with (2 * 2 ^ n)%nat.
  assert (T : 0 < 2 ^ S n) by (apply pow_lt; lra).
  assert (F : 4 ^ S n = 2 ^ S n * 2 ^ S n) by (rewrite <- Rpow_mult_distr; f_equal; lra).
  assert (B : forall i, (- 2 ^ Z.of_nat n <= i < - 2 ^ Z.of_nat n + Z.of_nat (2 * 2 ^ n))%Z ->
    / (PI * (x + IZR i)) ^ 2 <= / (4 ^ S n * sin (PI * (x + IZR i) / 2 ^ S n) ^ 2) <= / (PI * (x + IZR i)) ^ 2 + / (2 ^ S n * 2 ^ S n)).
  { intros i [I1 I2]. set (u := x + IZR i).
    assert (PZ : Z.of_nat (2 ^ n) = (2 ^ Z.of_nat n)%Z) by (rewrite Nat2Z.inj_pow; reflexivity).
    assert (PR : IZR (2 ^ Z.of_nat n) = 2 ^ n) by (rewrite <- PZ, <- INR_IZR_INZ, pow_INR; reflexivity).
    assert (J1 : - 2 ^ n <= IZR i) by (rewrite <- PR, <- opp_IZR; apply IZR_le; exact I1).
    assert (J2 : IZR i <= 2 ^ n - 1) by (rewrite <- PR; rewrite <- minus_IZR; apply IZR_le; lia).
    assert (U : - 2 ^ n < u < 2 ^ n) by (unfold u; lra).
    assert (U0 : u <> 0).
    { unfold u. intros Z. destruct (Z_lt_le_dec i 0) as [L|L]; [|apply IZR_le in L; lra].
      assert (i <= -1)%Z as K by lia. apply IZR_le in K. lra. }
    set (y := PI * u / 2 ^ S n).
    assert (Y : - (PI / 2) < y < PI / 2).
    { unfold y. change (2 ^ S n) with (2 * 2 ^ n) in *. assert (T' : 0 < 2 ^ n) by lra.
      split; apply (Rmult_lt_reg_r (2 * 2 ^ n)); auto; unfold Rdiv; rewrite ?Rmult_assoc, ?Rinv_l by lra; nra. }
    assert (Y0 : y <> 0).
    { unfold y, Rdiv. apply Rmult_integral_contrapositive_currified; [apply Rmult_integral_contrapositive_currified; lra|]. apply Rinv_neq_0_compat. lra. }
    assert (C := csc_bounds y Y Y0).
    assert (SY : sin y <> 0). { intros Z. destruct (Rlt_or_le 0 y) as [L|L]. { assert (0 < sin y) by (apply sin_gt_0; lra). lra. }
      assert (0 < sin (- y)) by (apply sin_gt_0; lra). rewrite sin_neg in *. lra. }
    assert (E1 : / (PI * u) ^ 2 = / (2 ^ S n * 2 ^ S n) * / y ^ 2) by (unfold y; field; repeat split; lra).
    assert (E2 : / (4 ^ S n * sin y ^ 2) = / (2 ^ S n * 2 ^ S n) * / sin y ^ 2) by (rewrite F; field; split; [exact SY | lra]).
    assert (K : 0 < / (2 ^ S n * 2 ^ S n)) by (apply Rinv_0_lt_compat; nra).
    change (PI * u / 2 ^ S n) with y. rewrite E1, E2. nra. }
  split; [apply zsum_le; intros i I; apply B, I|].
  eapply Rle_trans; [apply zsum_le; intros i I; apply (B i I)|].
  rewrite zsum_plus, zsum_const. apply Rplus_le_compat_l. apply Req_le.
  rewrite mult_INR, pow_INR. change (INR 2) with 2. change (2 ^ S n) with (2 * 2 ^ n) in *. field. lra.
Qed.

(** ** Sawtooth *)
Lemma half_powers eps : 0 < eps -> exists n, / 2 ^ S n < eps.
Proof.
  intros E. destruct (pow_lt_1_zero (1 / 2) ltac:(rewrite Rabs_pos_eq; lra) eps E) as [n H]. exists n.
  specialize (H (S n) ltac:(lia)). rewrite Rabs_pos_eq in H by (apply pow_le; lra).
  replace (1 / 2) with (/ 2) in H by lra. rewrite <- Rinv_pow in H by lra. exact H.
Qed.
Lemma two_power_above (m : Z) : exists n, (m <= 2 ^ Z.of_nat n)%Z.
Proof.
  exists (Z.to_nat m). destruct (Z_lt_le_dec m 0) as [L|L].
  - assert (0 <= 2 ^ Z.of_nat (Z.to_nat m))%Z by (apply Z.pow_nonneg; lia). lia.
  - rewrite Z2Nat.id by lia. apply Z.lt_le_incl, Z.pow_gt_lin_r; lia.
Qed.
Lemma pow_double n : Z.of_nat (2 * 2 ^ n) = (2 * 2 ^ Z.of_nat n)%Z.
Proof. rewrite Nat2Z.inj_mul, Nat2Z.inj_pow. reflexivity. Qed.

Lemma sinc_all g : (forall k, g + IZR k <> 0) ->
  is_lim_seq (fun N => zsum (fun m => (sin (PI * g) / (PI * (g + IZR m))) ^ 2) (- Z.of_nat N) (2 * N + 1)) 1.
Proof.
  intros G. assert (P := PI_RGT_0). set (k := (up g - 1)%Z). set (x := g - IZR k).
  assert (X : 0 < x < 1).
  { unfold x, k. destruct (archimed g) as [U1 U2]. assert (Z := G (- (up g - 1))%Z). rewrite opp_IZR in Z. rewrite minus_IZR in *. lra. }
  assert (SX : 0 < sin (PI * x)) by (apply sin_gt_0; nra).
  assert (SB := SIN_bound (PI * x)).
  set (f := fun r => / (PI * (x + IZR r)) ^ 2).
  assert (FP : forall i, 0 <= f i).
  { intros i. unfold f. destruct (Req_dec ((PI * (x + IZR i)) ^ 2) 0) as [E|E]; [rewrite E, Rinv_0; lra|].
    apply Rlt_le, Rinv_0_lt_compat. assert (0 <= (PI * (x + IZR i)) ^ 2) by (apply pow2_ge_0). lra. }
  assert (EQ : forall N, zsum (fun m => (sin (PI * g) / (PI * (g + IZR m))) ^ 2) (- Z.of_nat N) (2 * N + 1)
    = sin (PI * x) ^ 2 * zsum f (- Z.of_nat N + k) (2 * N + 1)).
  { intros N. rewrite <- zsum_shift, <- zsum_scal. apply zsum_ext. intros i _. unfold f.
    replace (sin (PI * x) ^ 2) with (sin (PI * g) ^ 2) by (rewrite <- (sin2_period x k); do 3 f_equal; unfold x; ring).
    replace (x + IZR (i + k)) with (g + IZR i) by (rewrite plus_IZR; unfold x; ring).
    field. split; [apply G | lra]. }
  assert (EI : sin (PI * x) ^ 2 * / sin (PI * x) ^ 2 = 1) by (apply Rinv_r, pow_nonzero; lra).
  assert (SQ : 0 < sin (PI * x) ^ 2 <= 1) by nra.
  apply is_lim_seq_Reals. intros eps E. destruct (half_powers eps E) as [n Hn].
  exists (Z.to_nat (2 ^ Z.of_nat n + Z.abs k)). intros N HN. unfold R_dist. rewrite EQ.
  assert (U : zsum f (- Z.of_nat N + k) (2 * N + 1) <= / sin (PI * x) ^ 2).
  { destruct (two_power_above (Z.of_nat N + 1 + Z.abs k)) as [m Hm]. destruct (partial_fractions x m X) as [A _].
    eapply Rle_trans; [|exact A]. apply zsum_window; [exact FP | lia | rewrite pow_double; lia]. }
  assert (L : / sin (PI * x) ^ 2 - / 2 ^ S n <= zsum f (- Z.of_nat N + k) (2 * N + 1)).
  { destruct (partial_fractions x n X) as [_ B]. fold f in B.
    assert (W : zsum f (- 2 ^ Z.of_nat n) (2 * 2 ^ n) <= zsum f (- Z.of_nat N + k) (2 * N + 1)).
    { assert (0 <= 2 ^ Z.of_nat n)%Z by (apply Z.pow_nonneg; lia). apply zsum_window; [exact FP | lia | rewrite pow_double; lia]. }
    lra. }
  assert (0 < / 2 ^ S n) by (apply Rinv_0_lt_compat, pow_lt; lra).
  apply Rabs_def1; nra.
Qed.

(** ** Rectangular grooves: the Fourier coefficients of a pulse *)
Definition pulse (D : R) (m : Z) : R := sin (PI * IZR m * D) ^ 2 / (PI * IZR m) ^ 2.

Lemma cos_sum_tele h t : 2 * sin (t / 2) * zsum (fun r => cos (IZR r * t)) 1 h = sin ((INR h + 1 / 2) * t) - sin (t / 2).
Proof.
  induction h as [|h IH]; [cbn [zsum INR]; replace ((0 + 1 / 2) * t) with (t / 2) by field; ring|].
  cbn [zsum]. rewrite Rmult_plus_distr_l, IH, plus_IZR, <- INR_IZR_INZ, S_INR.
  replace ((INR h + 1 + 1 / 2) * t) with ((1 + INR h) * t + t / 2) by field.
  replace ((INR h + 1 / 2) * t) with ((1 + INR h) * t - t / 2) by field. rewrite sin_plus, sin_minus. ring.
Qed.

Lemma roots_of_unity (h a : nat) : (0 < a < 2 * h + 1)%nat ->
  zsum (fun r => cos (2 * (PI * IZR r * INR a / INR (2 * h + 1)))) 1 h = - (1 / 2).
Proof.
  intros A. assert (P := PI_RGT_0). set (q := INR (2 * h + 1)).
  assert (Q : 0 < q) by (apply lt_0_INR; lia). assert (A0 : 0 < INR a) by (apply lt_0_INR; lia). assert (A1 : INR a < q) by (apply lt_INR; lia).
  set (t := 2 * (PI * INR a / q)).
  assert (E : zsum (fun r => cos (2 * (PI * IZR r * INR a / q))) 1 h = zsum (fun r => cos (IZR r * t)) 1 h).
  { apply zsum_ext. intros i _. f_equal. unfold t. field. lra. }
  rewrite E. assert (T := cos_sum_tele h t).
  assert (Z : sin ((INR h + 1 / 2) * t) = 0).
  { replace ((INR h + 1 / 2) * t) with (IZR (Z.of_nat a) * PI).
    - apply sin_eq_0_1. exists (Z.of_nat a). reflexivity.
    - rewrite <- INR_IZR_INZ. unfold t. replace (INR h + 1 / 2) with (q / 2). { field. lra. }
      unfold q. rewrite plus_INR, mult_INR. change (INR 2) with 2. change (INR 1) with 1. field. }
  rewrite Z in T.
  assert (S : 0 < sin (t / 2)).
  { replace (t / 2) with (PI * (INR a / q)) by (unfold t; field; lra).
    assert (0 < INR a / q) by (apply Rdiv_lt_0_compat; lra).
    assert (INR a / q < 1) by (apply (Rmult_lt_reg_r q); [lra|]; unfold Rdiv; rewrite Rmult_assoc, Rinv_l by lra; lra).
    apply sin_gt_0; nra. }
  apply (Rmult_eq_reg_l (2 * sin (t / 2))); lra.
Qed.

Definition pulse_q (h a : nat) (r : Z) : R :=
  let q := INR (2 * h + 1) in sin (PI * IZR r * INR a / q) ^ 2 / (q ^ 2 * sin (PI * IZR r / q) ^ 2).

Lemma sine_fraction (h : nat) (r : Z) : (1 <= r < 1 + Z.of_nat h)%Z -> 0 < PI * IZR r / INR (2 * h + 1) < PI / 2.
Proof.
  intros H. assert (P := PI_RGT_0). assert (Q : 0 < INR (2 * h + 1)) by (apply lt_0_INR; lia).
  assert (R1 : 0 < IZR r) by (apply (IZR_lt 0); lia).
  assert (R2 : 2 * IZR r < INR (2 * h + 1)). { rewrite <- mult_IZR, INR_IZR_INZ. apply IZR_lt. lia. }
  split; [apply Rdiv_lt_0_compat; nra|]. apply (Rmult_lt_reg_r (INR (2 * h + 1))); [exact Q|].
  unfold Rdiv. rewrite (Rmult_assoc (PI * IZR r)), Rinv_l by lra. nra.
Qed.

Lemma pulse_q_sum h : forall a, (a <= 2 * h + 1)%nat ->
  zsum (pulse_q h a) 1 h = INR a * (INR (2 * h + 1) - INR a) / (2 * INR (2 * h + 1) ^ 2).
Proof.
  assert (Q : 0 < INR (2 * h + 1)) by (apply lt_0_INR; lia).
  assert (QE : INR (2 * h + 1) = 2 * INR h + 1).
  { rewrite plus_INR, mult_INR. reflexivity. }
  assert (Z : zsum (pulse_q h 0) 1 h = 0).
  { transitivity (zsum (fun _ => 0) 1 h); [|rewrite zsum_const; ring]. apply zsum_ext. intros r _. unfold pulse_q. cbn [INR].
    replace (PI * IZR r * 0 / INR (2 * h + 1)) with 0 by (unfold Rdiv; ring). rewrite sin_0. unfold Rdiv. ring. }
  assert (O : zsum (pulse_q h 1) 1 h = INR h / INR (2 * h + 1) ^ 2).
  { transitivity (zsum (fun _ => / INR (2 * h + 1) ^ 2) 1 h); [|rewrite zsum_const; reflexivity]. apply zsum_ext. intros r R0. unfold pulse_q. cbn [INR].
    assert (B := sine_fraction h r R0). assert (0 < sin (PI * IZR r / INR (2 * h + 1))) by (apply sin_gt_0; lra).
    rewrite Rmult_1_r. field. lra. }
  assert (B : forall a, (a <= 2 * h)%nat ->
    zsum (pulse_q h a) 1 h = INR a * (INR (2 * h + 1) - INR a) / (2 * INR (2 * h + 1) ^ 2) /\
    zsum (pulse_q h (S a)) 1 h = INR (S a) * (INR (2 * h + 1) - INR (S a)) / (2 * INR (2 * h + 1) ^ 2)).
  { induction a as [|a IH]; intros A.
    - rewrite Z, O. cbn [INR]. rewrite QE. assert (0 <= INR h) by apply pos_INR. split; field; lra.
    - destruct (IH ltac:(lia)) as [I1 I2]. split; [exact I2|].
      assert (E : zsum (pulse_q h (S (S a))) 1 h =
        2 * zsum (pulse_q h (S a)) 1 h + (- 1) * zsum (pulse_q h a) 1 h +
        (2 / INR (2 * h + 1) ^ 2) * zsum (fun r => cos (2 * (PI * IZR r * INR (S a) / INR (2 * h + 1)))) 1 h).
      { rewrite <- !zsum_scal, <- !zsum_plus. apply zsum_ext. intros r R0. unfold pulse_q.
        assert (F := sine_fraction h r R0). assert (SP : 0 < sin (PI * IZR r / INR (2 * h + 1))) by (apply sin_gt_0; lra).
        set (q := INR (2 * h + 1)) in *. set (u := PI * IZR r / q) in *.
        replace (PI * IZR r * INR (S (S a)) / q) with (PI * IZR r * INR (S a) / q + u) by (unfold u; rewrite !S_INR; field; lra).
        replace (PI * IZR r * INR a / q) with (PI * IZR r * INR (S a) / q - u) by (unfold u; rewrite !S_INR; field; lra).
        set (v := PI * IZR r * INR (S a) / q). rewrite cos_2a, sin_plus, sin_minus.
        assert (C1 := sin2_cos2 u). assert (C2 := sin2_cos2 v). unfold Rsqr in C1, C2.
        set (su := sin u) in *. set (cu := cos u) in *. set (sv := sin v) in *. set (cv := cos v) in *.
        apply (Rmult_eq_reg_r (q ^ 2 * su ^ 2)); [|apply Rmult_integral_contrapositive_currified; apply pow_nonzero; lra].
        match goal with |- ?l * _ = ?r * _ => replace (l * (q ^ 2 * su ^ 2)) with ((sv * cu + cv * su) ^ 2) by (field; lra);
          replace (r * (q ^ 2 * su ^ 2)) with (2 * sv ^ 2 - (sv * cu - cv * su) ^ 2 + 2 * su ^ 2 * (cv * cv - sv * sv)) by (field; lra) end.
        replace ((sv * cu + cv * su) ^ 2) with (2 * (sv * sv * (cu * cu)) + 2 * (cv * cv * (su * su)) - (sv * cu - cv * su) ^ 2) by ring.
        replace (cu * cu) with (1 - su * su) by lra. ring. }
      rewrite E, I1, I2, roots_of_unity by lia. rewrite !S_INR, QE. assert (0 <= INR h) by apply pos_INR. field. lra. }
  intros a A. destruct (Nat.eq_dec a (2 * h + 1)) as [->|N].
  - destruct (B (2 * h)%nat ltac:(lia)) as [_ K]. replace (S (2 * h)) with (2 * h + 1)%nat in K by lia. exact K.
  - apply (B a). lia.
Qed.

Lemma square_tail N n : (1 <= N)%nat ->
  zsum (fun r => / (PI * IZR r) ^ 2) (1 + Z.of_nat N) n <= (/ INR N - / INR (N + n)) / PI ^ 2.
Proof.
  intros H. assert (P := PI_RGT_0). induction n as [|n IH].
  - rewrite Nat.add_0_r. cbn [zsum]. unfold Rdiv. rewrite Rminus_eq_0. lra.
  - cbn [zsum]. replace (1 + Z.of_nat N + Z.of_nat n)%Z with (Z.of_nat (S (N + n))) by lia. rewrite <- INR_IZR_INZ.
    rewrite Nat.add_succ_r, S_INR. assert (M : 1 <= INR (N + n)) by (apply (le_INR 1); lia). set (m := INR (N + n)) in *.
    eapply Rle_trans; [apply Rplus_le_compat_r, IH|].
    assert (N1 : INR N <> 0) by (apply not_0_INR; lia).
    assert (E : / (PI * (m + 1)) ^ 2 <= (/ m - / (m + 1)) / PI ^ 2).
    { replace ((/ m - / (m + 1)) / PI ^ 2) with (/ (PI ^ 2 * (m * (m + 1)))) by (field; lra).
      replace ((PI * (m + 1)) ^ 2) with (PI ^ 2 * ((m + 1) * (m + 1))) by ring.
      assert (0 < PI ^ 2) by (apply pow_lt; lra).
      apply Rinv_le_contravar; [apply Rmult_lt_0_compat; nra | apply Rmult_le_compat_l; nra]. }
    apply (Rplus_le_compat_l ((/ INR N - / m) / PI ^ 2)) in E. eapply Rle_trans; [exact E|]. apply Req_le. field. lra.
Qed.

Lemma sine_square_le1 x : 0 <= sin x ^ 2 <= 1.
Proof. assert (B := SIN_bound x). split; nra. Qed.

Lemma pulse_q_bounds h a r : (1 <= r < 1 + Z.of_nat h)%Z ->
  pulse (INR a / INR (2 * h + 1)) r <= pulse_q h a r <= pulse (INR a / INR (2 * h + 1)) r + / INR (2 * h + 1) ^ 2 /\
  0 <= pulse (INR a / INR (2 * h + 1)) r <= / (PI * IZR r) ^ 2.
Proof.
  intros R0. assert (P := PI_RGT_0). assert (F := sine_fraction h r R0). assert (Q : 0 < INR (2 * h + 1)) by (apply lt_0_INR; lia).
  assert (C := csc_bounds (PI * IZR r / INR (2 * h + 1)) ltac:(lra) ltac:(lra)).
  assert (SP : 0 < sin (PI * IZR r / INR (2 * h + 1))) by (apply sin_gt_0; lra).
  assert (R1 : 0 < IZR r) by (apply (IZR_lt 0); lia).
  unfold pulse, pulse_q. cbv zeta. set (q := INR (2 * h + 1)) in *.
  replace (PI * IZR r * (INR a / q)) with (PI * IZR r * INR a / q) by (field; lra).
  assert (S := sine_square_le1 (PI * IZR r * INR a / q)). set (s := sin (PI * IZR r * INR a / q) ^ 2) in *.
  assert (K : 0 < / q ^ 2) by (apply Rinv_0_lt_compat, pow_lt; lra).
  assert (K2 : 0 < / (PI * IZR r) ^ 2) by (apply Rinv_0_lt_compat, pow_lt; nra).
  assert (E1 : s / (PI * IZR r) ^ 2 = s * (/ q ^ 2 * / (PI * IZR r / q) ^ 2)) by (field; lra).
  assert (E2 : s / (q ^ 2 * sin (PI * IZR r / q) ^ 2) = s * (/ q ^ 2 * / sin (PI * IZR r / q) ^ 2)) by (field; lra).
  split; [|unfold Rdiv; nra]. rewrite E1, E2. set (A := / (PI * IZR r / q) ^ 2) in *. set (B := / sin (PI * IZR r / q) ^ 2) in *. split.
  - apply Rmult_le_compat_l; [lra|]. apply Rmult_le_compat_l; lra.
  - assert (H : / q ^ 2 * B <= / q ^ 2 * (A + 1)) by (apply Rmult_le_compat_l; lra).
    apply (Rmult_le_compat_l s) in H; [|lra]. assert (s * / q ^ 2 <= 1 * / q ^ 2) by (apply Rmult_le_compat_r; lra).
    replace (s * (/ q ^ 2 * (A + 1))) with (s * (/ q ^ 2 * A) + s * / q ^ 2) in H by ring. lra.
Qed.

Lemma pulse_fraction h a N : (a <= 2 * h + 1)%nat -> (1 <= N <= h)%nat ->
  let D := INR a / INR (2 * h + 1) in
  0 <= D * (1 - D) / 2 - zsum (pulse D) 1 N <= / (PI ^ 2 * INR N) + / INR (2 * h + 1).
Proof.
  intros A H D. assert (P := PI_RGT_0). set (q := INR (2 * h + 1)) in *. assert (Q : 1 <= q) by (apply (le_INR 1); lia).
  assert (E : D * (1 - D) / 2 = zsum (pulse_q h a) 1 h).
  { rewrite (pulse_q_sum h a A). fold q. unfold D. field. lra. }
  assert (SPL : zsum (pulse_q h a) 1 h = zsum (pulse_q h a) 1 N + zsum (pulse_q h a) (1 + Z.of_nat N) (h - N)).
  { rewrite <- zsum_app. f_equal. lia. }
  rewrite E, SPL. split.
  - assert (L : zsum (pulse D) 1 N <= zsum (pulse_q h a) 1 N) by (apply zsum_le; intros i I; apply pulse_q_bounds; lia).
    assert (T : zsum (fun _ => 0) (1 + Z.of_nat N) (h - N) <= zsum (pulse_q h a) (1 + Z.of_nat N) (h - N)).
    { apply zsum_le. intros i I. destruct (pulse_q_bounds h a i ltac:(lia)) as [[B1 _] [B2 _]]. lra. }
    rewrite zsum_const in T. lra.
  - assert (L : zsum (pulse_q h a) 1 N <= zsum (fun i => pulse D i + / q ^ 2) 1 N) by (apply zsum_le; intros i I; apply pulse_q_bounds; lia).
    assert (T : zsum (pulse_q h a) (1 + Z.of_nat N) (h - N) <= zsum (fun i => / (PI * IZR i) ^ 2 + / q ^ 2) (1 + Z.of_nat N) (h - N)).
    { apply zsum_le. intros i I. destruct (pulse_q_bounds h a i ltac:(lia)) as [[_ B1] [_ B2]]. fold q in B1, B2. lra. }
    rewrite zsum_plus, zsum_const in L, T. assert (W := square_tail N (h - N) ltac:(lia)).
    replace (N + (h - N))%nat with h in W by lia.
    assert (HH : 0 < INR h) by (apply lt_0_INR; lia). assert (HN : 0 < INR N) by (apply lt_0_INR; lia).
    assert (W2 : (/ INR N - / INR h) / PI ^ 2 <= / (PI ^ 2 * INR N)).
    { assert (0 < / (PI ^ 2 * INR h)) by (apply Rinv_0_lt_compat, Rmult_lt_0_compat; [apply pow_lt; lra | lra]).
      replace ((/ INR N - / INR h) / PI ^ 2) with (/ (PI ^ 2 * INR N) - / (PI ^ 2 * INR h)) by (field; lra). lra. }
    assert (V : INR N * / q ^ 2 + INR (h - N) * / q ^ 2 <= / q).
    { rewrite minus_INR by lia. replace (INR N * / q ^ 2 + (INR h - INR N) * / q ^ 2) with (INR h * / q ^ 2) by (field; lra).
      apply (Rmult_le_reg_r (q ^ 2)); [apply pow_lt; lra|]. rewrite Rmult_assoc, Rinv_l by (apply pow_nonzero; lra).
      replace (/ q * q ^ 2) with q by (field; lra). unfold q. rewrite plus_INR, mult_INR. change (INR 2) with 2. change (INR 1) with 1. lra. }
    lra.
Qed.

Lemma sin_abs_le x : Rabs (sin x) <= Rabs x.
Proof.
  destruct (Req_dec x 0) as [->|N]; [rewrite sin_0; lra|].
  assert (G : forall y, 0 < y -> Rabs (sin y) <= y).
  { intros y Y. assert (L := sin_lt_x y Y). assert (B := SIN_bound y). apply Rabs_le. split; [|lra].
    destruct (Rle_or_lt 1 y); [lra|]. assert (P := PI2_1). assert (0 < sin y) by (apply sin_gt_0; lra). lra. }
  destruct (Rlt_or_le 0 x) as [L|L]; [rewrite (Rabs_pos_eq x) by lra; auto|].
  rewrite <- Rabs_Ropp, <- sin_neg, <- (Rabs_Ropp x), (Rabs_pos_eq (- x)) by lra. apply G. lra.
Qed.

Lemma pulse_lipschitz D D' m : (1 <= m)%Z -> Rabs (pulse D m - pulse D' m) <= Rabs (D - D').
Proof.
  intros M. assert (P := PI2_1). assert (M1 : 1 <= IZR m) by (apply (IZR_le 1); lia).
  unfold pulse. set (c := PI * IZR m). assert (C : 1 <= c) by (unfold c; nra).
  replace (sin (c * D) ^ 2 / c ^ 2 - sin (c * D') ^ 2 / c ^ 2) with (sin (c * D + c * D') * sin (c * D - c * D') / c ^ 2).
  - unfold Rdiv. rewrite !Rabs_mult, Rabs_inv. rewrite (Rabs_pos_eq (c ^ 2)) by (apply pow_le; lra).
    assert (A1 : Rabs (sin (c * D + c * D')) <= 1) by (apply Rabs_le, SIN_bound).
    assert (A2 := sin_abs_le (c * D - c * D')). replace (c * D - c * D') with (c * (D - D')) in A2 at 2 by ring.
    rewrite Rabs_mult, (Rabs_pos_eq c) in A2 by lra. assert (A3 := Rabs_pos (D - D')). assert (A4 := Rabs_pos (sin (c * D + c * D'))).
    assert (A5 := Rabs_pos (sin (c * D - c * D'))).
    apply (Rmult_le_reg_r (c ^ 2)); [apply pow_lt; lra|]. rewrite Rmult_assoc, Rinv_l, Rmult_1_r by (apply pow_nonzero; lra).
    apply Rle_trans with (1 * (c * Rabs (D - D'))); [apply Rmult_le_compat; lra|]. nra.
  - rewrite sin_plus, sin_minus. assert (C1 := sin2_cos2 (c * D)). assert (C2 := sin2_cos2 (c * D')). unfold Rsqr in C1, C2.
    set (s1 := sin (c * D)) in *. set (s2 := sin (c * D')) in *. set (c1 := cos (c * D)) in *. set (c2 := cos (c * D')) in *.
    replace ((s1 * c2 + c1 * s2) * (s1 * c2 - c1 * s2)) with (s1 * s1 * (c2 * c2) - c1 * c1 * (s2 * s2)) by ring.
    replace (c2 * c2) with (1 - s2 * s2) by lra. replace (c1 * c1) with (1 - s1 * s1) by lra. field. lra.
Qed.

Lemma pulse_sum_lipschitz D D' N : Rabs (zsum (pulse D) 1 N - zsum (pulse D') 1 N) <= INR N * Rabs (D - D').
Proof.
  induction N as [|N IH]; [cbn [zsum INR]; rewrite Rminus_0_r, Rabs_R0; lra|]. cbn [zsum]. rewrite S_INR.
  assert (L := pulse_lipschitz D D' (1 + Z.of_nat N) ltac:(lia)).
  replace (zsum (pulse D) 1 N + pulse D (1 + Z.of_nat N) - (zsum (pulse D') 1 N + pulse D' (1 + Z.of_nat N))) with
    ((zsum (pulse D) 1 N - zsum (pulse D') 1 N) + (pulse D (1 + Z.of_nat N) - pulse D' (1 + Z.of_nat N))) by ring.
  eapply Rle_trans; [apply Rabs_triang|]. lra.
Qed.

Lemma pulse_sum D N : 0 <= D <= 1 -> (1 <= N)%nat ->
  0 <= D * (1 - D) / 2 - zsum (pulse D) 1 N <= / (PI ^ 2 * INR N).
Proof.
  intros HD HN. assert (P := PI_RGT_0).
  assert (K : forall eps, 0 < eps -> - eps <= D * (1 - D) / 2 - zsum (pulse D) 1 N <= / (PI ^ 2 * INR N) + eps).
  { intros eps E. assert (N0 : 1 <= INR N) by (apply (le_INR 1); lia).
    assert (X0 : 0 < (INR N + 3) / eps) by (apply Rdiv_lt_0_compat; lra). destruct (archimed ((INR N + 3) / eps)) as [H0 _].
    set (h0 := Z.to_nat (up ((INR N + 3) / eps))).
    assert (H1 : INR h0 = IZR (up ((INR N + 3) / eps))).
    { unfold h0. rewrite INR_IZR_INZ, Z2Nat.id; [reflexivity|]. apply le_IZR. lra. }
    set (h := (h0 + N)%nat).
    set (q := INR (2 * h + 1)). assert (Q : 1 <= q) by (apply (le_INR 1); lia).
    assert (QB : (INR N + 3) / eps < q).
    { eapply Rlt_le_trans; [exact H0|]. rewrite <- H1. apply le_INR. lia. }
    assert (QE : (INR N + 3) / q < eps).
    { apply (Rmult_lt_reg_r q); [lra|]. unfold Rdiv. rewrite Rmult_assoc, Rinv_l, Rmult_1_r by lra.
      apply (Rmult_lt_compat_r eps) in QB; [|lra]. unfold Rdiv in QB. rewrite Rmult_assoc, Rinv_l in QB by lra. lra. }
    set (z := (up (D * q) - 1)%Z). destruct (archimed (D * q)) as [U1 U2].
    assert (Z0 : (0 <= z)%Z). { unfold z. assert (0 < up (D * q))%Z; [|lia]. apply lt_IZR. nra. }
    assert (Z1 : IZR z <= D * q < IZR z + 1) by (unfold z; rewrite minus_IZR; lra).
    set (a := Z.to_nat z). assert (AE : INR a = IZR z) by (unfold a; rewrite INR_IZR_INZ, Z2Nat.id by lia; reflexivity).
    assert (AQ : (a <= 2 * h + 1)%nat). { apply INR_le. rewrite AE. fold q. nra. }
    assert (F := pulse_fraction h a N AQ ltac:(lia)). cbv zeta in F. fold q in F. set (D' := INR a / q) in *.
    assert (L := pulse_sum_lipschitz D D' N).
    assert (DD : 0 <= D - D' <= / q).
    { unfold D'. rewrite AE. replace (D - IZR z / q) with ((D * q - IZR z) * / q) by (field; lra).
      assert (0 < / q) by (apply Rinv_0_lt_compat; lra). nra. }
    rewrite (Rabs_pos_eq (D - D')) in L by lra.
    assert (D0 : 0 <= D'). { unfold D'. apply Rmult_le_pos; [apply pos_INR|]. apply Rlt_le, Rinv_0_lt_compat; lra. }
    assert (V : Rabs (D * (1 - D) / 2 - D' * (1 - D') / 2) <= / q).
    { replace (D * (1 - D) / 2 - D' * (1 - D') / 2) with ((D - D') * ((1 - D - D') / 2)) by field. rewrite Rabs_mult, (Rabs_pos_eq (D - D')) by lra.
      assert (Rabs ((1 - D - D') / 2) <= 1) by (apply Rabs_le; lra). assert (X := Rabs_pos ((1 - D - D') / 2)). nra. }
    apply Rabs_le_between in L. apply Rabs_le_between in V.
    assert (M : INR N * (D - D') <= INR N * / q) by (apply Rmult_le_compat_l; lra).
    replace ((INR N + 3) / q) with (INR N * / q + 3 * / q) in QE by (field; lra). lra. }
  split.
  - apply Rnot_lt_le. intros L. specialize (K (- (D * (1 - D) / 2 - zsum (pulse D) 1 N) / 2) ltac:(lra)). lra.
  - apply Rnot_lt_le. intros L. specialize (K ((D * (1 - D) / 2 - zsum (pulse D) 1 N - / (PI ^ 2 * INR N)) / 2) ltac:(lra)). lra.
Qed.

(** ** The efficiencies *)
Lemma zsum_symmetric f N : zsum f (- Z.of_nat N) (2 * N + 1) = f 0%Z + zsum (fun i => f i + f (- i)%Z) 1 N.
Proof.
  induction N as [|N IH]; [cbn; ring|]. replace (2 * S N + 1)%nat with (1 + ((2 * N + 1) + 1))%nat by lia.
  rewrite (zsum_app f _ 1), (zsum_app f _ (2 * N + 1) 1). replace (- Z.of_nat (S N) + Z.of_nat 1)%Z with (- Z.of_nat N)%Z by lia. rewrite IH. cbn [zsum].
  replace (- Z.of_nat N + Z.of_nat (2 * N + 1) + Z.of_nat 0)%Z with (1 + Z.of_nat N)%Z by lia.
  replace (- Z.of_nat (S N) + Z.of_nat 0)%Z with (- (1 + Z.of_nat N))%Z by lia. ring.
Qed.

Lemma pulse_even D m : pulse D (- m) = pulse D m.
Proof.
  unfold pulse. rewrite opp_IZR. replace (PI * - IZR m * D) with (- (PI * IZR m * D)) by ring. rewrite sin_neg.
  replace ((PI * - IZR m) ^ 2) with ((PI * IZR m) ^ 2) by ring. unfold Rdiv. ring.
Qed.

Lemma rectangular_terms h D w c e : (forall i, profile_efficiency (RectangularGroove h D) i w c = Some (e i)) ->
  exists b, 0 <= b <= 1 /\ e 0%Z = 1 - 4 * D * (1 - D) * b /\ forall i, i <> 0%Z -> e i = 4 * b * pulse D i.
Proof.
  intros H. assert (P := PI_RGT_0). cbn [profile_efficiency] in H. unfold obind in H.
  destruct (odiv PI _) as [am|] eqn:E1; [|discriminate (H 0%Z)].
  destruct (odiv h am) as [d|] eqn:E2; [|discriminate (H 0%Z)].
  destruct (odiv (PI * d) _) as [g|] eqn:E3; [|discriminate (H 0%Z)].
  destruct (odiv (PI * g) _) as [y|] eqn:E4; [|discriminate (H 0%Z)].
  exists (square (sin y)). repeat split.
  - apply square_nonneg.
  - assert (B := SIN_bound y). unfold square. nra.
  - assert (Z := H 0%Z). cbn [Z.eqb] in Z. injection Z as <-. unfold square. field. lra.
  - intros i I. assert (Z := H i). apply Z.eqb_neq in I as I'. rewrite I' in Z.
    assert (IR : IZR i <> 0) by (apply IZR_neq; exact I).
    assert (IP : IZR i * PI <> 0) by (apply Rmult_integral_contrapositive_currified; [exact IR | lra]).
    rewrite odiv_nz in Z by (unfold square; apply Rmult_integral_contrapositive_currified; exact IP).
    injection Z as <-. unfold pulse. replace (IZR i * (2 * PI * D)) with (2 * (PI * IZR i * D)) by ring.
    rewrite cos_2a_sin. unfold square. field. split; auto; lra.
Qed.

Lemma rectangular_total h D w c e N : 0 < D < 1 -> (1 <= N)%nat ->
  (forall i, profile_efficiency (RectangularGroove h D) i w c = Some (e i)) ->
  1 - / INR N <= rsum (map e (orders_up_to N)) <= 1.
Proof.
  intros HD HN H. destruct (rectangular_terms _ _ _ _ _ H) as (b & B & E0 & EI). assert (P := PI_RGT_0).
  rewrite orders_sum, zsum_symmetric, E0.
  assert (E : zsum (fun i => e i + e (- i)%Z) 1 N = (8 * b) * zsum (pulse D) 1 N).
  { rewrite <- zsum_scal. apply zsum_ext. intros i I. rewrite !EI by lia. rewrite pulse_even. ring. }
  rewrite E. assert (S := pulse_sum D N ltac:(lra) HN). set (s := zsum (pulse D) 1 N) in *.
  assert (N0 : 0 < INR N) by (apply lt_0_INR; lia).
  assert (K : 8 * / (PI ^ 2 * INR N) <= / INR N).
  { assert (Q : 8 <= PI ^ 2) by (assert (T := pi_3); nra).
    apply (Rmult_le_reg_r (PI ^ 2 * INR N)); [apply Rmult_lt_0_compat; [apply pow_lt; lra | lra]|].
    rewrite Rmult_assoc, Rinv_l by (apply Rmult_integral_contrapositive_currified; [apply pow_nonzero; lra | lra]).
    replace (/ INR N * (PI ^ 2 * INR N)) with (PI ^ 2) by (field; lra). lra. }
  split; nra.
Qed.

Lemma sawtooth_total h w c e : (forall i, profile_efficiency (Sawtooth h) i w c = Some (e i)) ->
  is_lim_seq (fun N => rsum (map e (orders_up_to N))) 1.
Proof.
  intros H. assert (P := PI_RGT_0). cbn [profile_efficiency] in H. unfold obind in H.
  destruct (odiv h _) as [d|] eqn:E2; [|discriminate (H 0%Z)].
  destruct (odiv (PI * d) _) as [g|] eqn:E3; [|discriminate (H 0%Z)].
  assert (G : forall k, g + IZR k <> 0).
  { intros k Z. specialize (H k). rewrite Z, Rmult_0_r, odiv_0 in H. discriminate. }
  apply (is_lim_seq_ext _ _ _) with (2 := sinc_all g G). intros N. rewrite orders_sum. apply zsum_ext. intros i _.
  specialize (H i). rewrite odiv_nz in H by (apply Rmult_integral_contrapositive_currified; [lra | apply G]).
  injection H as <-. unfold square. ring.
Qed.

Lemma inverse_limit (u : nat -> R) : (forall N, (1 <= N)%nat -> 1 - / INR N <= u N <= 1) -> is_lim_seq u 1.
Proof.
  intros H. apply is_lim_seq_Reals. intros eps E. destruct (archimed_cor1 eps E) as (N & HN & N0). exists N. intros n Hn.
  specialize (H n ltac:(lia)). unfold R_dist. assert (/ INR n <= / INR N) by (apply Rinv_le_contravar; [apply lt_0_INR; lia | apply le_INR; lia]).
  assert (0 < / INR n) by (apply Rinv_0_lt_compat, lt_0_INR; lia). apply Rabs_def1; lra.
Qed.

Lemma ray_profile p sp r n (e : Z -> R) : uses_angle p = true -> (forall i, rulings_efficiency p i sp r n = Some (e i)) ->
  exists w c, forall i, profile_efficiency p i w c = Some (e i).
Proof.
  intros U H. unfold rulings_efficiency in H. rewrite U in H. unfold obind in H.
  destruct (r_position r) as [x|]; [|discriminate (H 0%Z)]. destruct (r_direction r) as [d|]; [|discriminate (H 0%Z)].
  destruct n as [u|]; [|discriminate (H 0%Z)]. destruct (sp x u) as [kappa|]; [|discriminate (H 0%Z)].
  destruct (groove_cosine kappa u d) as [c|]; [|discriminate (H 0%Z)]. exists (r_wavelength r), c. exact H.
Qed.

Lemma rectangular_ray h D sp r n e N : 0 < D < 1 -> (1 <= N)%nat ->
  (forall i, rulings_efficiency (RectangularGroove h D) i sp r n = Some (e i)) -> 1 - / INR N <= rsum (map e (orders_up_to N)) <= 1.
Proof. intros HD HN H. destruct (ray_profile (RectangularGroove h D) _ _ _ _ eq_refl H) as (w & c & K). eapply rectangular_total; eauto. Qed.

Lemma square_ray h sp r n e N : (1 <= N)%nat -> (forall i, rulings_efficiency (Square h) i sp r n = Some (e i)) ->
  1 - / INR N <= rsum (map e (orders_up_to N)) <= 1.
Proof. intros HN H. apply (rectangular_ray h (1 / 2) sp r n); [lra | exact HN|]. intros i. rewrite duty_half_ray. apply H. Qed.

Lemma all_orders p sp r n e : lossless_profile p -> (forall i, rulings_efficiency p i sp r n = Some (e i)) ->
  is_lim_seq (fun N => rsum (map e (orders_up_to N))) 1.
Proof.
  intros L H. destruct p as [| |h|h|h|h|h D]; try destruct L.
  - apply inverse_limit. intros N HN. apply (square_ray h sp r n); auto.
  - destruct (ray_profile (Sawtooth h) _ _ _ _ eq_refl H) as (w & c & K). exact (sawtooth_total h w c e K).
  - apply inverse_limit. intros N HN. apply (rectangular_ray h D sp r n); auto.
Qed.

Lemma few_orders_rate p sp r n e N : (exists h, p = Square h \/ exists D, 0 < D < 1 /\ p = RectangularGroove h D) -> (1 <= N)%nat ->
  (forall i, rulings_efficiency p i sp r n = Some (e i)) -> 1 - / INR N <= rsum (map e (orders_up_to N)) <= 1.
Proof.
  intros (h & [-> | (D & HD & ->)]) HN H; [apply (square_ray h sp r n) | apply (rectangular_ray h D sp r n)]; auto.
Qed.

(** ** Triangular grooves *)
Lemma triangular_quarter e N : (forall i, profile_efficiency (Triangular (1 / 2)) i 1 1 = Some (e i)) -> rsum (map e (orders_up_to N)) <= 1 / 4.
Proof.
  intros H. assert (P := PI_RGT_0).
  assert (E : forall i, e i = (4 / (PI * (4 + IZR i * IZR i))) ^ 2 * sin (PI * IZR i * (1 / 2)) ^ 2).
  { intros i. specialize (H i). cbn [profile_efficiency] in H. unfold obind in H.
    rewrite odiv_nz in H by (unfold square; nra). rewrite odiv_nz in H by lra.
    set (g := PI * (1 / 2 / (square PI / 8)) / (1 * 1)) in *. assert (G : g = 4 / PI) by (unfold g, square; field; lra).
    assert (Q : square (PI * g / 2) + square (IZR i) = 4 + IZR i * IZR i) by (rewrite G; unfold square; field; lra).
    rewrite Q in H. rewrite odiv_nz in H by nra.
    assert (A : square PI * g / 4 = PI) by (rewrite G; unfold square; field; lra). rewrite A, sin_PI, cos_PI, G in H.
    assert (D := Z.div_mod i 2 ltac:(lia)). assert (M := Z.mod_pos_bound i 2 ltac:(lia)).
    assert (NZ : 4 + IZR i * IZR i <> 0) by nra.
    destruct (Z.eqb_spec (i mod 2) 0) as [Z0|Z0]; injection H as <-.
    - replace (PI * IZR i * (1 / 2)) with (IZR (i / 2) * PI).
      + rewrite (sin_eq_0_1 (IZR (i / 2) * PI)) by (exists (i / 2)%Z; reflexivity). unfold square. ring.
      + rewrite Z0, Z.add_0_r in D. rewrite D at 2. rewrite mult_IZR. field.
    - assert (i mod 2 = 1)%Z as Z1 by lia. rewrite Z1 in D.
      replace (PI * IZR i * (1 / 2)) with (PI * (1 / 2 + IZR (i / 2))).
      + rewrite sin2_period. replace (PI * (1 / 2)) with (PI / 2) by field. rewrite sin_PI2. unfold square. field. split; [exact NZ | lra].
      + rewrite D at 2. rewrite plus_IZR, mult_IZR. field. }
  rewrite orders_sum, zsum_symmetric. rewrite (E 0%Z). replace (PI * 0 * (1 / 2)) with 0 by ring. rewrite sin_0.
  assert (L : zsum (fun i => e i + e (- i)%Z) 1 N <= zsum (fun i => 2 * pulse (1 / 2) i) 1 N).
  { apply zsum_le. intros i I. assert (I1 : 1 <= IZR i) by (apply (IZR_le 1); lia). rewrite !E, opp_IZR.
    replace (PI * - IZR i * (1 / 2)) with (- (PI * IZR i * (1 / 2))) by ring. rewrite sin_neg. unfold pulse.
    set (s := sin (PI * IZR i * (1 / 2))). assert (S : 0 <= s ^ 2) by (apply pow2_ge_0). set (m := IZR i) in *.
    assert (B : (4 / (PI * (4 + m * m))) ^ 2 <= / (PI * m) ^ 2).
    { replace (/ (PI * m) ^ 2) with ((4 / (PI * (4 * m))) ^ 2) by (field; lra). apply pow_incr. split.
      - apply Rlt_le, Rdiv_lt_0_compat; [lra | apply Rmult_lt_0_compat; nra].
      - apply Rmult_le_compat_l; [lra|]. apply Rinv_le_contravar; [nra|]. apply Rmult_le_compat_l; [lra|]. assert (0 <= (m - 2) * (m - 2)) by apply Rle_0_sqr. lra. }
    replace (- m * - m) with (m * m) by ring. replace ((- s) ^ 2) with (s ^ 2) by ring.
    apply (Rmult_le_compat_r (s ^ 2)) in B; [|exact S]. unfold Rdiv in *. lra. }
  rewrite zsum_scal in L. destruct N as [|N]; [cbn [zsum] in *; unfold Rdiv; nra|].
  assert (U := pulse_sum (1 / 2) (S N) ltac:(lra) ltac:(lia)). nra.
Qed.

Lemma triangular_loss : exists h w c (e : Z -> R), 0 < h /\ 0 < w /\ 0 < c <= 1 /\
  (forall i, profile_efficiency (Triangular h) i w c = Some (e i)) /\
  (forall N, rsum (map e (orders_up_to N)) <= 1 / 4) /\
  ~ is_lim_seq (fun N => rsum (map e (orders_up_to N))) 1.
Proof.
  assert (P := PI_RGT_0).
  set (e := fun i => match profile_efficiency (Triangular (1 / 2)) i 1 1 with Some x => x | None => 0 end).
  assert (H : forall i, profile_efficiency (Triangular (1 / 2)) i 1 1 = Some (e i)).
  { intros i. unfold e. cbn [profile_efficiency]. rewrite odiv_nz by (unfold square; nra). cbn [obind]. rewrite odiv_nz by lra. cbn [obind].
    set (g := PI * (1 / 2 / (square PI / 8)) / (1 * 1)) in *. assert (G : g = 4 / PI) by (unfold g, square; field; lra).
    assert (Q : square (PI * g / 2) + square (IZR i) = 4 + IZR i * IZR i) by (rewrite G; unfold square; field; lra).
    rewrite Q. rewrite odiv_nz by nra. cbn [obind]. destruct (Z.eqb (i mod 2) 0); reflexivity. }
  exists (1 / 2), 1, 1, e. assert (B : forall N, rsum (map e (orders_up_to N)) <= 1 / 4) by (intros N; apply triangular_quarter, H).
  split; [lra|]. split; [lra|]. split; [lra|]. split; [exact H|]. split; [exact B|].
  intros L. assert (K := is_lim_seq_le _ _ 1 (1 / 4) B L (is_lim_seq_const (1 / 4))). cbn in K. lra.
Qed.

Lemma test_cosine p i : uses_angle p = true -> rulings_efficiency p i (default_spacing 1)
     (test_ray (V3 (3 / 5) 0 (4 / 5))) (Some (V3 0 0 (-1))) = profile_efficiency p i 1 (4 / 5).
Proof.
  intros U.
  rewrite (in_plane_efficiency _ i (default_spacing 1) _ vzero (V3 (3/5) 0 (4/5)) (V3 0 0 (-1)) (V3 1 0 0)); try reflexivity; auto.
  - cbn [r_wavelength test_ray]. f_equal. tv. lra.
  - unfold is_unit; tv; ring.
  - unfold default_spacing, constant_spacing. f_equal. apply vec_eq; cbn; ring.
  - unfold vzero. intro H. injection H. lra.
  - tv; ring.
  - tv; ring.
Qed.

Lemma sawtooth_example : exists e : Z -> R, (forall i, rulings_efficiency (Sawtooth (1 / 8)) i (default_spacing 1)
     (test_ray (V3 (3 / 5) 0 (4 / 5))) (Some (V3 0 0 (-1))) = Some (e i)) /\ forall i, 0 < e i.
Proof.
  assert (P := PI_RGT_0). exists (fun i => square (sin (PI * (5 / 16)) / (PI * (5 / 16 + IZR i)))).
  assert (N : forall i, 5 / 16 + IZR i <> 0).
  { intros i Z. destruct (Z_lt_le_dec i 0) as [L|L]; [|apply IZR_le in L; lra]. assert (i <= -1)%Z as K by lia. apply IZR_le in K. lra. }
  assert (S : 0 < sin (PI * (5 / 16))) by (apply sin_gt_0; lra). split.
  - intros i. rewrite test_cosine by reflexivity. cbn [profile_efficiency]. rewrite odiv_nz by lra. cbn [obind]. rewrite odiv_nz by lra. cbn [obind].
    replace (PI * (1 / 8 / (PI / 2)) / (1 * (4 / 5))) with (5 / 16) by (field; lra).
    rewrite odiv_nz by (apply Rmult_integral_contrapositive_currified; [lra | apply N]). reflexivity.
  - intros i. unfold square. set (q := sin (PI * (5 / 16)) / (PI * (5 / 16 + IZR i))).
    assert (Q : q <> 0).
    { unfold q, Rdiv at 1. apply Rmult_integral_contrapositive_currified; [lra|]. apply Rinv_neq_0_compat.
      apply Rmult_integral_contrapositive_currified; [lra | apply N]. }
    assert (0 <= q * q) by apply Rle_0_sqr. assert (q * q <> 0) by (apply Rmult_integral_contrapositive_currified; exact Q). lra.
Qed.

Lemma rectangular_example : exists e : Z -> R, forall i, rulings_efficiency (RectangularGroove (1 / 8) (1 / 3)) i (default_spacing 1)
     (test_ray (V3 (3 / 5) 0 (4 / 5))) (Some (V3 0 0 (-1))) = Some (e i).
Proof.
  assert (P := PI_RGT_0).
  exists (fun i => match profile_efficiency (RectangularGroove (1 / 8) (1 / 3)) i 1 (4 / 5) with Some x => x | None => 0 end).
  intros i. rewrite test_cosine by reflexivity. cbn [profile_efficiency].
  assert (C : cos (2 * PI * (1 / 3)) < 1).
  { replace (2 * PI * (1 / 3)) with (2 * (PI / 3)) by field. rewrite cos_2a_sin, sin_PI3. assert (Q : 0 < sqrt 3) by (apply sqrt_lt_R0; lra). nra. }
  assert (S : 0 < sqrt (2 * (1 - cos (2 * PI * (1 / 3))))) by (apply sqrt_lt_R0; lra).
  set (s := sqrt _) in *. rewrite odiv_nz by lra. cbn [obind].
  assert (A : 0 < PI / (2 * s)) by (apply Rdiv_lt_0_compat; lra).
  rewrite odiv_nz by lra. cbn [obind]. rewrite odiv_nz by lra. cbn [obind]. rewrite odiv_nz by lra. cbn [obind].
  destruct (Z.eqb_spec i 0) as [Z|Z]; [reflexivity|]. rewrite odiv_nz; [reflexivity|].
  assert (IR : IZR i <> 0) by (apply IZR_neq; exact Z). unfold square.
  assert (IP : IZR i * PI <> 0) by (apply Rmult_integral_contrapositive_currified; [exact IR | lra]).
  apply Rmult_integral_contrapositive_currified; exact IP.
Qed.
