(** Charge diffusion. *)
From Coq Require Import Reals List ZArith Lra Lia.
From Coquelicot Require Import Coquelicot.
From Verif Require Import Num NumLemmas ExtNum ProfileModel GaussLemmas RamanathanModel SensorSpec SensorProofs DepthProofs DiffusionModel DiffusionSpec.
Import ListNotations.
Open Scope R_scope.

Ltac real := match goal with |- @eq _ ?a ?b => change (@eq R a b) end.

(** ** The width *)
Definition spread_of (a s f : R) : R := f * (a * f + exp (- a * f) - 1) / (a * (1 - exp (- a * s))).

Lemma exp_gt : forall x, x <> 0 -> 1 + x < exp x.
Proof.
  intros x X. destruct (Rlt_dec 0 x) as [P|P]; [apply exp_ineq1; lra|]. apply exp_ineq1. exact X.
Qed.
Lemma spread_numerator : forall a f, 0 < a -> 0 < f -> 0 < a * f + exp (- a * f) - 1.
Proof. intros a f A F. assert (H := exp_gt (- a * f) ltac:(nra)). lra. Qed.

Lemma spread_bounds : forall a s f, 0 < a -> 0 < s -> 0 <= f <= s -> 0 <= spread_of a s f <= f ^ 2 /\ (spread_of a s f = 0 <-> f = 0).
Proof.
  intros a s f A S F. assert (D := absorbed_pos a s A S). unfold spread_of.
  assert (DP : 0 < a * (1 - exp (- a * s))) by nra.
  destruct (Req_dec f 0) as [->|N].
  - replace (0 * (a * 0 + exp (- a * 0) - 1) / (a * (1 - exp (- a * s)))) with 0 by (field; lra). split; [lra | tauto].
  - assert (FP : 0 < f) by lra. assert (P := spread_numerator a f A FP).
    assert (Q : 0 < f * (a * f + exp (- a * f) - 1) / (a * (1 - exp (- a * s)))) by (apply Rdiv_lt_0_compat; nra).
    split; [split; [lra|]|split; intros; lra].
    apply (proj2 (Rcomplements.Rle_div_l _ _ _ DP)).
    assert (M : exp (- a * s) <= exp (- a * f)) by (destruct (Req_dec f s) as [->|]; [lra | left; apply exp_increasing; nra]).
    (* e (1 + a f) <= 1 *)
    assert (E : exp (- a * f) * (1 + a * f) <= 1).
    { assert (H := exp_ineq1 (a * f) ltac:(nra)). assert (X : exp (- a * f) * exp (a * f) = 1) by (rewrite <- exp_plus; replace (- a * f + a * f) with 0 by ring; apply exp_0).
      assert (Y := exp_pos (- a * f)). nra. }
    set (e := exp (- a * f)) in *. set (es := exp (- a * s)) in *.
    assert (f * (a * f + e - 1) <= f * (f * (a * (1 - e)))) by (apply Rmult_le_compat_l; nra).
    assert (f * (f * (a * (1 - e))) <= f ^ 2 * (a * (1 - es))); [|lra].
    replace (f * (f * (a * (1 - e)))) with (f ^ 2 * (a * (1 - e))) by ring. apply Rmult_le_compat_l; [nra|]. apply Rmult_le_compat_l; lra.
Qed.

Lemma charge_diffusion_value : forall a s d, 0 < a -> 0 < s -> 0 <= d <= s -> charge_diffusion a s d = Some (sqrt (spread_of a s (s - d))).
Proof.
  intros a s d A S D. assert (X := absorbed_pos a s A S). destruct (spread_bounds a s (s - d) A S ltac:(lra)) as [B _].
  unfold charge_diffusion. rewrite odiv_nz by nra. cbn [obind]. apply osqrt_nonneg. apply B.
Qed.

Lemma width_sq : forall f z, 0 <= z -> diffusion_width f z ^ 2 = Rmax 0 (f * (f - z)) \/ f < 0 /\ diffusion_width f z = 0.
Proof.
  intros f z Z. unfold diffusion_width. destruct (Rlt_dec z f) as [L|L].
  - left. rewrite Rpow_mult_distr, pow2_sqrt.
    + rewrite Rmax_right by nra. field. lra.
    + assert (z / f < 1); [|lra]. apply (proj2 (Rcomplements.Rlt_div_l z 1 f ltac:(lra))). lra.
  - destruct (Rlt_dec f 0) as [N|N]; [right; tauto|]. left. rewrite Rmax_left by nra. ring.
Qed.

Lemma spread_mean : forall a s f, 0 < a -> 0 < s -> 0 <= f <= s -> is_truncated_mean a s (fun z => diffusion_width f z ^ 2) (spread_of a s f).
Proof.
  intros a s f A S F. unfold is_truncated_mean. assert (X := absorbed_pos a s A S).
  replace (spread_of a s f * (1 - exp (- a * s))) with (f * (f - (1 - exp (- a * f)) / a) + 0) by (unfold spread_of; field; lra).
  apply (is_RInt_Chasles (V := R_NormedModule)) with f.
  - apply is_RInt_ext with (fun z => f * (f - z) * (a * exp (- a * z))).
    { intros z Z. rewrite Rmin_left, Rmax_right in Z by lra. destruct (width_sq f z ltac:(lra)) as [->|[N _]]; [|lra]. rewrite Rmax_right by nra. reflexivity. }
    (* primitive: - f (f - z) e + f e / a *)
    replace (f * (f - (1 - exp (- a * f)) / a)) with ((fun z => f * exp (- a * z) * (1 / a - (f - z))) f - (fun z => f * exp (- a * z) * (1 / a - (f - z))) 0)
      by (cbv beta; rewrite Rmult_0_r, exp_0; field; lra).
    apply (is_RInt_derive (V := R_CompleteNormedModule) (fun z => f * exp (- a * z) * (1 / a - (f - z)))).
    + intros z _. auto_derive; [trivial|]. field. lra.
    + intros z _. apply (ex_derive_continuous (V := R_NormedModule)). auto_derive. trivial.
  - apply is_RInt_ext with (fun z => 0).
    { intros z Z. rewrite Rmin_left, Rmax_right in Z by lra. destruct (width_sq f z ltac:(lra)) as [->|[N _]]; [|lra]. rewrite Rmax_left by nra. real. ring. }
    assert (H := is_RInt_const (V := R_NormedModule) f s 0). unfold scal in H; cbn in H; unfold mult in H; cbn in H. rewrite Rmult_0_r in H. exact H.
Qed.

Lemma width_sq_continuous : forall f z, 0 <= f -> continuous (fun z => Rmax 0 (f * (f - z))) z.
Proof.
  intros f z F. apply continuous_ext with (fun z => (f * (f - z) + Rabs (f * (f - z))) / 2).
  - intros y. unfold Rmax. destruct (Rle_dec 0 (f * (f - y))); [rewrite Rabs_right by lra | rewrite Rabs_left by lra]; real; field.
  - assert (C : continuous (fun z => f * (f - z)) z) by (apply (ex_derive_continuous (V := R_NormedModule)); auto_derive; trivial).
    apply (continuous_mult (K := R_AbsRing) (fun z => f * (f - z) + Rabs (f * (f - z))) (fun _ => / 2)); [|apply continuous_const].
    apply (continuous_plus (V := R_NormedModule)); [exact C|]. apply continuous_comp; [exact C | apply continuous_Rabs].
Qed.

(** The mean over the depths drawn by the Monte Carlo method. *)
Lemma spread_drawn : forall a s f, 0 < a -> 0 < s -> 0 <= f <= s ->
  is_RInt (fun y => diffusion_width f (photon_depth a s y) ^ 2) 0 1 (spread_of a s f).
Proof.
  intros a s f A S F. apply is_RInt_ext with (fun y => Rmax 0 (f * (f - photon_depth a s y))).
  - intros y Y. rewrite Rmin_left, Rmax_right in Y by lra. assert (D := depth_range a s y ltac:(lra) S ltac:(lra)).
    destruct (width_sq f (photon_depth a s y) ltac:(lra)) as [->|[N _]]; [reflexivity | lra].
  - apply (depth_law a s (fun z => Rmax 0 (f * (f - z)))); try assumption.
    + intros z _. apply width_sq_continuous. lra.
    + unfold is_truncated_mean. apply is_RInt_ext with (fun z => diffusion_width f z ^ 2 * (a * exp (- a * z))).
      * intros z Z. rewrite Rmin_left, Rmax_right in Z by lra. destruct (width_sq f z ltac:(lra)) as [->|[N _]]; [reflexivity | lra].
      * apply spread_mean; assumption.
Qed.

Lemma diffusion_average : forall a s d, 0 < a -> 0 < s -> 0 <= d <= s -> exists w, charge_diffusion a s d = Some w /\
  is_truncated_mean a s (fun z => diffusion_width (s - d) z ^ 2) (w ^ 2) /\
  is_RInt (fun y => diffusion_width (s - d) (photon_depth a s y) ^ 2) 0 1 (w ^ 2).
Proof.
  intros a s d A S D. exists (sqrt (spread_of a s (s - d))). split; [apply charge_diffusion_value; assumption|].
  rewrite pow2_sqrt by (apply spread_bounds; lra). split; [apply spread_mean | apply spread_drawn]; lra.
Qed.

Lemma diffusion_range : forall a s d, 0 < a -> 0 < s -> 0 <= d <= s -> exists w, charge_diffusion a s d = Some w /\ 0 <= w <= s - d /\ (w = 0 <-> d = s).
Proof.
  intros a s d A S D. exists (sqrt (spread_of a s (s - d))). split; [apply charge_diffusion_value; assumption|].
  destruct (spread_bounds a s (s - d) A S ltac:(lra)) as [[B1 B2] E]. split; [split; [apply sqrt_pos|]|].
  - apply Rle_trans with (sqrt ((s - d) ^ 2)); [apply sqrt_le_1_alt, B2 | rewrite sqrt_pow2; lra].
  - split; intros H.
    + apply sqrt_eq_0 in H; [|exact B1]. apply E in H. lra.
    + replace (spread_of a s (s - d)) with 0; [apply sqrt_0|]. symmetry. apply E. lra.
Qed.

(** A thicker depletion region spreads less. *)
Lemma spread_increasing : forall a s f g, 0 < a -> 0 < s -> 0 <= f < g -> spread_of a s f < spread_of a s g.
Proof.
  intros a s f g A S F. assert (X := absorbed_pos a s A S). unfold spread_of, Rdiv.
  apply Rmult_lt_compat_r; [apply Rinv_0_lt_compat; nra|].
  assert (P := spread_numerator a g A ltac:(lra)).
  assert (M : a * f + exp (- a * f) - 1 <= a * g + exp (- a * g) - 1).
  { (* exp(-af) - exp(-ag) <= a (g - f) *)
    assert (H := exp_gt (- a * (g - f)) ltac:(nra)). assert (E : exp (- a * g) = exp (- a * f) * exp (- a * (g - f))) by (rewrite <- exp_plus; f_equal; ring).
    rewrite E. assert (Y : 0 < exp (- a * f) <= 1).
    { split; [apply exp_pos|]. destruct (Req_dec f 0) as [->|]; [rewrite Rmult_0_r, exp_0; lra|]. left. rewrite <- exp_0. apply exp_increasing. nra. }
    set (e := exp (- a * f)) in *. set (u := exp (- a * (g - f))) in *.
    assert (e * (1 - u) <= e * (a * (g - f))) by (apply Rmult_le_compat_l; lra).
    assert (e * (a * (g - f)) <= 1 * (a * (g - f))) by (apply Rmult_le_compat_r; [nra | lra]). lra. }
  assert (N : 0 <= a * f + exp (- a * f) - 1).
  { destruct (Req_dec f 0) as [->|]; [rewrite !Rmult_0_r, exp_0; lra|]. left. apply spread_numerator; lra. }
  nra.
Qed.

(** ** The kernel *)
Definition antikernel (x m : R) : R := exp (- (x * x) * (m * m) / 2) / (x * sqrt (2 * PI)) + m / 2 * erf (x * m / sqrt 2).
Definition second_difference (x m : R) : R := antikernel x (m + 1) - 2 * antikernel x m + antikernel x (m - 1).

Lemma root2 : 0 < sqrt 2 /\ sqrt 2 * sqrt 2 = 2.
Proof. split; [apply sqrt_lt_R0; lra | apply sqrt_sqrt; lra]. Qed.
Lemma root2pi : sqrt (2 * PI) = sqrt 2 * sqrt PI.
Proof. apply sqrt_mult; [lra | assert (H := PI_RGT_0); lra]. Qed.

Lemma ex_erf : forall y, ex_derive (fun u => erf u) y.
Proof. intros y. eexists. apply erf_derive. Qed.
Lemma Derive_erf : forall y, Derive (fun u => erf u) y = 2 / sqrt PI * gauss y.
Proof. intros y. apply is_derive_unique, erf_derive. Qed.

Lemma antikernel_derive : forall x m, x <> 0 -> is_derive (antikernel x) m (erf (x * m / sqrt 2) / 2).
Proof.
  intros x m X. destruct root2 as [P S]. assert (Q := sqrt_PI_pos). unfold antikernel. rewrite root2pi.
  auto_derive; [apply ex_erf|]. rewrite Derive_erf. unfold gauss, Rdiv. set (t := sqrt 2) in *. clearbody t.
  assert (E : (x * m * / t) ^ 2 = (x * x) * (m * m) * / 2) by (rewrite <- S; field; lra).
  rewrite E. replace (- (x * x) * (m * m) * / 2) with (- (x * x * (m * m) * / 2)) by ring.
  set (e := exp _). set (r := sqrt PI) in *. set (f := erf _).
  assert (T : / (x * (t * r)) = t / (2 * x * r)) by (rewrite <- S; field; lra).
  assert (T2 : / t = t / 2) by (rewrite <- S; field; lra). rewrite T, T2. field. lra.
Qed.
Lemma ex_antikernel : forall x y, x <> 0 -> ex_derive (fun u => antikernel x u) y.
Proof. intros x y X. eexists. apply antikernel_derive, X. Qed.
Lemma Derive_antikernel : forall x y, x <> 0 -> Derive (fun u => antikernel x u) y = erf (x * y / sqrt 2) / 2.
Proof. intros x y X. apply is_derive_unique, antikernel_derive, X. Qed.

Lemma antikernel_step : forall x m, x <> 0 -> exists c, m < c < m + 1 /\ antikernel x (m + 1) - antikernel x m = erf (x * c / sqrt 2) / 2.
Proof.
  intros x m X. destruct (MVT_cor2 (antikernel x) (fun c => erf (x * c / sqrt 2) / 2) m (m + 1) ltac:(lra)) as (c & E & C).
  - intros c _. apply is_derive_Reals, antikernel_derive, X.
  - exists c. split; [exact C|]. rewrite E. ring.
Qed.

Lemma antikernel_even : forall x m, antikernel x (- m) = antikernel x m.
Proof.
  intros x m. unfold antikernel. replace (- m * - m) with (m * m) by ring. replace (x * - m / sqrt 2) with (- (x * m / sqrt 2)) by (field; destruct root2; lra).
  rewrite erf_opp. f_equal. lra.
Qed.

Lemma scaled_lt : forall x a b, 0 < x -> a < b -> x * a / sqrt 2 < x * b / sqrt 2.
Proof. intros x a b X L. destruct root2 as [P _]. unfold Rdiv. apply Rmult_lt_compat_r; [apply Rinv_0_lt_compat, P|]. nra. Qed.

Lemma second_pos : forall x m, 0 < x -> 0 < second_difference x m.
Proof.
  intros x m X. unfold second_difference. destruct (antikernel_step x m ltac:(lra)) as (c & C & E).
  destruct (antikernel_step x (m - 1) ltac:(lra)) as (b & B & F). replace (m - 1 + 1) with m in * by ring.
  assert (L := erf_increasing _ _ (scaled_lt x b c X ltac:(lra))). lra.
Qed.

Lemma second_even : forall x m, second_difference x (- m) = second_difference x m.
Proof.
  intros x m. unfold second_difference. replace (- m + 1) with (- (m - 1)) by ring. replace (- m - 1) with (- (m + 1)) by ring. rewrite !antikernel_even. ring.
Qed.

Lemma second_centre : forall x, 0 < x -> 0 < second_difference x 0 < 1.
Proof.
  intros x X. split; [apply second_pos, X|]. unfold second_difference. replace (0 - 1) with (- (1)) by ring. replace (0 + 1) with 1 by ring. rewrite antikernel_even.
  destruct (antikernel_step x 0 ltac:(lra)) as (c & C & E). replace (0 + 1) with 1 in E by ring.
  assert (B := erf_bounds (x * c / sqrt 2)). lra.
Qed.

Lemma kernel_value : forall w d n, 0 < w -> 0 < d -> kernel_1d w d n = Fin (second_difference (d / w) (IZR n)).
Proof.
  intros w d n W D. assert (X : 0 < d / w) by (apply Rdiv_lt_0_compat; assumption). destruct root2 as [P _]. assert (Q := sqrt_PI_pos).
  unfold kernel_1d, width_ratio. destruct (Req_EM_T w 0); [lra|]. set (x := d / w) in *. cbn [emul ediv eadd eopp eexp eerf]. rewrite root2pi.
  destruct (Req_EM_T (x * (sqrt 2 * sqrt PI)) 0) as [Z|_]; [exfalso; assert (0 < x * (sqrt 2 * sqrt PI)) by (apply Rmult_lt_0_compat; [exact X | apply Rmult_lt_0_compat; assumption]); lra|].
  destruct (Req_EM_T 2 0); [lra|]. destruct (Req_EM_T (sqrt 2) 0); [lra|]. cbn [emul ediv eadd eopp eexp eerf].
  destruct (Req_EM_T 2 0); [lra|]. cbn [eadd eopp]. f_equal. unfold second_difference, antikernel. rewrite root2pi. set (t := sqrt 2) in *. set (r := sqrt PI) in *. set (m := IZR n).
  repeat match goal with |- context [exp ?u] => let e := fresh "e" in set (e := exp u) end.
  repeat match goal with |- context [erf ?u] => let f := fresh "f" in set (f := erf u) end. field. lra.
Qed.

(** ** Sums *)
Lemma centred_step : forall x N, centred_sum (fun n => second_difference x (IZR n)) N = 2 * (antikernel x (INR N + 1) - antikernel x (INR N)).
Proof.
  intros x N. induction N as [|N IH].
  - cbn [centred_sum INR]. unfold second_difference. replace (0 - 1) with (- (1)) by ring. replace (0 + 1) with 1 by ring. rewrite antikernel_even. ring.
  - cbn [centred_sum]. rewrite IH. rewrite opp_IZR, second_even, <- INR_IZR_INZ. unfold second_difference. rewrite S_INR. replace (INR N + 1 - 1) with (INR N) by ring. ring.
Qed.

Lemma centred_limit : forall x, 0 < x -> is_lim_seq (centred_sum (fun n => second_difference x (IZR n))) 1.
Proof.
  intros x X. destruct root2 as [P _]. apply is_lim_seq_Reals. intros eps E. destruct (erf_limit eps E) as (Z & ZP & HZ).
  destruct (archimed_cor1 (x / (Z * sqrt 2))) as (N0 & N1 & N2); [apply Rdiv_lt_0_compat; [exact X | nra]|].
  exists N0. intros N HN. rewrite centred_step. destruct (antikernel_step x (INR N) ltac:(lra)) as (c & C & ->).
  unfold R_dist. assert (B := erf_bounds (x * c / sqrt 2)). assert (L : Z <= x * c / sqrt 2).
  { apply le_INR in HN. assert (IP : 0 < INR N0) by (apply lt_0_INR; exact N2).
    apply (proj1 (Rcomplements.Rle_div_r _ _ _ P)).
    assert (K : Z * sqrt 2 < x * INR N0).
    { apply Rmult_lt_reg_r with (/ (INR N0 * (Z * sqrt 2))); [apply Rinv_0_lt_compat; repeat apply Rmult_lt_0_compat; assumption|].
      replace (Z * sqrt 2 * / (INR N0 * (Z * sqrt 2))) with (/ INR N0) by (field; lra).
      replace (x * INR N0 * / (INR N0 * (Z * sqrt 2))) with (x / (Z * sqrt 2)) by (field; lra). exact N1. }
    assert (x * INR N0 <= x * c) by nra. lra. }
  specialize (HZ _ L). replace (2 * (erf (x * c / sqrt 2) / 2) - 1) with (- (1 - erf (x * c / sqrt 2))) by field. rewrite Rabs_Ropp, Rabs_right; lra.
Qed.

(** ** What the kernel means *)
Lemma probability_value : forall t w lo hi, 0 < w ->
  normal_probability t w lo hi = erf ((hi - t) / (w * sqrt 2)) / 2 - erf ((lo - t) / (w * sqrt 2)) / 2.
Proof.
  intros t w lo hi W. destruct root2 as [P S]. assert (Q := sqrt_PI_pos). unfold normal_probability. apply is_RInt_unique.
  apply (is_RInt_derive (V := R_CompleteNormedModule) (fun u => erf ((u - t) / (w * sqrt 2)) / 2)).
  - intros u _. unfold normal_density. rewrite root2pi.
    auto_derive; [apply ex_erf|]. rewrite Derive_erf. unfold gauss, Rminus, Rdiv. set (k := sqrt 2) in *. clearbody k.
    replace (- ((u + - t) * / (w * k)) ^ 2) with (- (u + - t) ^ 2 * / (2 * w ^ 2)) by (rewrite <- S; field; lra).
    field. lra.
  - intros u _. unfold normal_density. apply (ex_derive_continuous (V := R_NormedModule)). auto_derive. nra.
Qed.

Lemma kernel_meaning : forall w d n, 0 < w -> 0 < d -> is_pixel_probability w d n (second_difference (d / w) (IZR n)).
Proof.
  intros w d n W D. assert (X : 0 < d / w) by (apply Rdiv_lt_0_compat; assumption). destruct root2 as [P _]. unfold is_pixel_probability. set (m := IZR n).
  set (x := d / w) in *. set (F := fun t => d * antikernel x (m - 1 / 2 - t / d) - d * antikernel x (m + 1 / 2 - t / d)).
  apply is_RInt_ext with (fun t => erf (x * (m + 1 / 2 - t / d) / sqrt 2) / 2 - erf (x * (m - 1 / 2 - t / d) / sqrt 2) / 2).
  { intros t _. rewrite probability_value by exact W. unfold x. f_equal; f_equal; f_equal; field; lra. }
  replace (second_difference x m * d) with (F (d / 2) - F (- d / 2)).
  2:{ unfold F, second_difference. replace (m - 1 / 2 - d / 2 / d) with (m - 1) by (field; lra). replace (m + 1 / 2 - d / 2 / d) with m by (field; lra).
      replace (m - 1 / 2 - - d / 2 / d) with m by (field; lra). replace (m + 1 / 2 - - d / 2 / d) with (m + 1) by (field; lra). ring. }
  apply (is_RInt_derive (V := R_CompleteNormedModule) F).
  - intros t _. unfold F. auto_derive; [repeat split; apply ex_antikernel; lra|].
    rewrite !Derive_antikernel by lra. unfold Rminus, Rdiv. field. lra.
  - intros t _. apply (ex_derive_continuous (V := R_NormedModule)). auto_derive. repeat split; apply ex_erf.
Qed.

(** ** Mean charge capture *)
Lemma capture_value : forall w d, 0 < w -> 0 < d -> mean_charge_capture w d = Fin (second_difference (d / w) 0 ^ 2).
Proof.
  intros w d W D. assert (X : 0 < d / w) by (apply Rdiv_lt_0_compat; assumption). destruct root2 as [P S]. assert (Q := sqrt_PI_pos). assert (PP := PI_RGT_0).
  unfold mean_charge_capture, width_ratio. destruct (Req_EM_T w 0); [lra|]. set (x := d / w) in *. unfold esub. cbn [emul eopp ediv]. destruct (Req_EM_T 2 0); [lra|].
  cbn [eexp eopp eadd emul ediv]. destruct (Req_EM_T x 0); [lra|]. destruct (Req_EM_T (sqrt 2) 0); [lra|]. cbn [eerf eadd emul]. f_equal.
  unfold second_difference. replace (0 - 1) with (- (1)) by ring. replace (0 + 1) with 1 by ring. rewrite antikernel_even. unfold antikernel.
  rewrite !Rmult_0_r, !Rmult_1_r. replace (0 / 2) with 0 by field. rewrite exp_0. rewrite root2pi. rewrite sqrt_div by lra.
  replace (- (x * x) / 2) with (- (x * x) / 2) by ring. set (e := exp _). set (f := erf (x / sqrt 2)).
  replace (sqrt 2 / sqrt PI * (e + - (1)) / x) with (2 * (e / (x * (sqrt 2 * sqrt PI))) - 2 * (1 / (x * (sqrt 2 * sqrt PI)))).
  - field. lra.
  - clear f. set (k := sqrt 2) in *. clearbody k. clearbody e. rewrite <- S. field. lra.
Qed.

Lemma r_neg_pos : forall x, 0 < x -> r_neg x = false.
Proof. intros x X. unfold r_neg. destruct (Rlt_dec x 0); [lra | reflexivity]. Qed.

Lemma capture_zero : forall d, 0 < d -> mean_charge_capture 0 d = Fin 1.
Proof.
  intros d D. destruct root2 as [P S]. unfold mean_charge_capture, width_ratio. destruct (Req_EM_T 0 0); [|lra]. destruct (Req_EM_T d 0); [lra|].
  rewrite (r_neg_pos d D). cbn. destruct (Req_EM_T 2 0); [lra|]. destruct (Req_EM_T (sqrt 2) 0); [lra|]. rewrite !r_neg_pos by lra. cbn.
  rewrite (r_neg_pos (sqrt 2)) by lra. cbn. f_equal. ring.
Qed.

(** The capture decreases with the width of the cloud. *)
Lemma centre_derive : forall x, 0 < x -> is_derive (fun x => second_difference x 0) x (2 * (1 - exp (- (x * x) / 2)) / (x * x * sqrt (2 * PI))).
Proof.
  intros x X. destruct root2 as [P S]. assert (Q := sqrt_PI_pos).
  apply is_derive_ext_loc with (fun x => 2 * (exp (- (x * x) / 2) - 1) / (x * sqrt (2 * PI)) + erf (x / sqrt 2)).
  - exists (mkposreal x X). intros y B. apply Rabs_def2 in B. unfold minus, plus, opp in B. cbn in B. assert (Y : 0 < y) by lra.
    unfold second_difference. replace (0 - 1) with (- (1)) by ring. replace (0 + 1) with 1 by ring. rewrite antikernel_even. unfold antikernel.
    rewrite !Rmult_0_r, !Rmult_1_r. replace (0 / 2) with 0 by field. rewrite exp_0, root2pi. real. field. lra.
  - rewrite root2pi. auto_derive; [repeat split; [assert (0 < x * (sqrt 2 * sqrt PI)) by (repeat apply Rmult_lt_0_compat; assumption); lra | apply ex_erf]|].
    rewrite Derive_erf. unfold gauss, Rminus, Rdiv. set (t := sqrt 2) in *. clearbody t.
    replace (- (x * / t) ^ 2) with (- (x * x) * / 2) by (rewrite <- S; field; lra). set (e := exp _). clearbody e. set (r := sqrt PI) in *. clearbody r.
    replace (x * x) with (x ^ 2) by ring. field. lra.
Qed.

Lemma centre_increasing : forall x y, 0 < x -> x < y -> second_difference x 0 < second_difference y 0.
Proof.
  intros x y X Y. assert (Q : 0 < sqrt (2 * PI)) by (apply sqrt_lt_R0; assert (H := PI_RGT_0); lra).
  destruct (MVT_cor2 (fun x => second_difference x 0) (fun x => 2 * (1 - exp (- (x * x) / 2)) / (x * x * sqrt (2 * PI))) x y Y) as (c & E & C).
  - intros c C. apply is_derive_Reals, centre_derive. lra.
  - assert (0 < 2 * (1 - exp (- (c * c) / 2)) / (c * c * sqrt (2 * PI)) * (y - x)); [|lra].
    apply Rmult_lt_0_compat; [|lra]. apply Rdiv_lt_0_compat.
    + assert (exp (- (c * c) / 2) < 1); [|lra]. rewrite <- exp_0. apply exp_increasing. nra.
    + apply Rmult_lt_0_compat; nra.
Qed.

Lemma capture_bounds : forall w d, 0 < w -> 0 < d -> exists c, mean_charge_capture w d = Fin c /\ 0 < c < 1.
Proof.
  intros w d W D. exists (second_difference (d / w) 0 ^ 2). split; [apply capture_value; assumption|].
  assert (B := second_centre (d / w) ltac:(apply Rdiv_lt_0_compat; assumption)). nra.
Qed.

Lemma capture_decreasing : forall w v d c e, 0 <= w < v -> 0 < d -> mean_charge_capture w d = Fin c -> mean_charge_capture v d = Fin e -> e < c.
Proof.
  intros w v d c e W D HC HE. rewrite capture_value in HE by lra. injection HE as <-.
  assert (X : 0 < d / v) by (apply Rdiv_lt_0_compat; lra). assert (B := second_centre (d / v) X).
  destruct (Req_dec w 0) as [->|N].
  - rewrite capture_zero in HC by exact D. injection HC as <-. nra.
  - rewrite capture_value in HC by lra. injection HC as <-.
    assert (L : d / v < d / w) by (apply Rmult_lt_compat_l; [exact D | apply Rinv_lt_contravar; nra]).
    assert (I := centre_increasing (d / v) (d / w) X L). nra.
Qed.

(** ** The normalised kernel *)
Definition line (w d : R) : R := second_difference (d / w) 0 + 2 * second_difference (d / w) 1.
Lemma product_value : forall w d i j, 0 < w -> 0 < d ->
  kernel_product w d i j = Fin (second_difference (d / w) (IZR i) * second_difference (d / w) (IZR j)).
Proof. intros w d i j W D. unfold kernel_product. rewrite !kernel_value by assumption. reflexivity. Qed.
Lemma line_pos : forall w d, 0 < w -> 0 < d -> 0 < line w d.
Proof.
  intros w d W D. assert (X : 0 < d / w) by (apply Rdiv_lt_0_compat; assumption). unfold line.
  assert (A := second_pos _ 0 X). assert (B := second_pos _ 1 X). lra.
Qed.
Lemma total_value : forall w d, 0 < w -> 0 < d -> kernel_total w d = Fin (line w d ^ 2).
Proof.
  intros w d W D. unfold kernel_total, kernel_indices. cbn [flat_map map app]. rewrite !product_value by assumption. unfold esum. cbn [fold_right eadd]. f_equal.
  replace (IZR (-1)) with (- (1)) by (rewrite <- opp_IZR; reflexivity). rewrite second_even. unfold line. ring.
Qed.
Lemma normalised_value : forall w d i j, 0 < w -> 0 < d ->
  kernel_diffusion w d i j = Fin (second_difference (d / w) (IZR i) * second_difference (d / w) (IZR j) / line w d ^ 2).
Proof.
  intros w d i j W D. unfold kernel_diffusion. rewrite product_value, total_value by assumption. cbn [ediv].
  assert (L := line_pos w d W D). destruct (Req_EM_T (line w d ^ 2) 0); [nra | reflexivity].
Qed.

Lemma kernel_positive : forall w d i j, 0 < w -> 0 < d -> exists v, kernel_diffusion w d i j = Fin v /\ 0 < v.
Proof.
  intros w d i j W D. eexists. split; [apply normalised_value; assumption|]. assert (X : 0 < d / w) by (apply Rdiv_lt_0_compat; assumption). assert (L := line_pos w d W D).
  apply Rdiv_lt_0_compat; [|nra]. apply Rmult_lt_0_compat; apply second_pos, X.
Qed.
Lemma kernel_symmetric : forall w d i j, 0 < w -> 0 < d ->
  kernel_diffusion w d (- i) j = kernel_diffusion w d i j /\ kernel_diffusion w d i (- j) = kernel_diffusion w d i j /\
  kernel_diffusion w d j i = kernel_diffusion w d i j.
Proof.
  intros w d i j W D. rewrite !normalised_value by assumption. rewrite !opp_IZR, !second_even. split; [reflexivity|]. split; [reflexivity|]. f_equal. ring_simplify. unfold Rdiv. ring.
Qed.
Lemma kernel_sum : forall w d, 0 < w -> 0 < d ->
  esum (flat_map (fun i => map (fun j => kernel_diffusion w d i j) [-1; 0; 1]%Z) [-1; 0; 1]%Z) = Fin 1.
Proof.
  intros w d W D. cbn [flat_map map app]. rewrite !normalised_value by assumption. unfold esum. cbn [fold_right eadd]. f_equal.
  replace (IZR (-1)) with (- (1)) by (rewrite <- opp_IZR; reflexivity). rewrite second_even.
  assert (L := line_pos w d W D). unfold line in *. set (x := d / w) in *. set (p := second_difference x 0) in *. set (q := second_difference x 1) in *. field. lra.
Qed.
(** The sum over all pixels exceeds the one over three. *)
Lemma line_lt_1 : forall w d, 0 < w -> 0 < d -> line w d < 1.
Proof.
  intros w d W D. assert (X : 0 < d / w) by (apply Rdiv_lt_0_compat; assumption). set (x := d / w) in *.
  assert (E : line w d = centred_sum (fun n => second_difference x (IZR n)) 1).
  { unfold line. fold x. cbn [centred_sum]. rewrite opp_IZR, second_even. cbn. ring. }
  rewrite E, centred_step. destruct (antikernel_step x (INR 1) ltac:(lra)) as (c & C & ->). assert (B := erf_bounds (x * c / sqrt 2)). lra.
Qed.
Lemma kernel_centre : forall w d, 0 < w -> 0 < d -> exists k c v, kernel_1d w d 0 = Fin k /\ mean_charge_capture w d = Fin c /\
  kernel_diffusion w d 0 0 = Fin v /\ c = k ^ 2 /\ c < v.
Proof.
  intros w d W D. assert (X : 0 < d / w) by (apply Rdiv_lt_0_compat; assumption). do 3 eexists.
  split; [apply kernel_value; assumption|]. split; [apply capture_value; assumption|]. split; [apply normalised_value; assumption|]. split; [reflexivity|].
  assert (P := second_pos (d / w) 0 X). assert (L := line_pos w d W D). assert (M := line_lt_1 w d W D). set (p := second_difference (d / w) 0) in *.
  apply (proj1 (Rcomplements.Rlt_div_r (p ^ 2) (p * p) (line w d ^ 2) ltac:(nra))). assert (Q : line w d * line w d < 1) by nra.
  assert (R := Rmult_lt_compat_l (p * p) _ _ ltac:(nra) Q). replace (p ^ 2 * line w d ^ 2) with (p * p * (line w d * line w d)) by ring. lra.
Qed.

(** Without diffusion. *)
Lemma kernel_nan : forall d i j, 0 < d -> In i [-1; 0; 1]%Z -> In j [-1; 0; 1]%Z -> kernel_diffusion 0 d i j = NaN.
Proof.
  intros d i j D I J. assert (N : forall i, In i [-1; 0; 1]%Z -> kernel_1d 0 d i = NaN).
  { intros k K. unfold kernel_1d, width_ratio. destruct (Req_EM_T 0 0); [|lra]. destruct (Req_EM_T d 0); [lra|]. rewrite (r_neg_pos d D).
    assert (Z : forall m, m = 0 -> eexp (ediv (emul (eopp (emul (Inf false) (Inf false))) (Fin m)) (Fin 2)) = NaN).
    { intros m ->. cbn. destruct (Req_EM_T 0 0); [reflexivity | lra]. }
    assert (NA : forall a, eadd a NaN = NaN) by (intros []; reflexivity). assert (NM : forall a, emul a NaN = NaN) by (intros []; reflexivity).
    cbv zeta. destruct K as [<-|[<-|[<-|[]]]].
    - rewrite (Z ((-1 + 1) * (-1 + 1))) by ring. rewrite NA, NM. reflexivity.
    - rewrite (Z (0 * 0)) by ring. rewrite NM, NA. cbn [eadd]. rewrite NM. reflexivity.
    - rewrite (Z ((1 - 1) * (1 - 1))) by ring. cbn [eadd]. rewrite NM. reflexivity. }
  unfold kernel_diffusion, kernel_product. rewrite (N i I). reflexivity.
Qed.

(** ** Fitting the depletion region *)
Lemma depletion_value : forall a s d wp, 0 < a -> 0 < s -> 0 <= d <= s -> 0 < wp -> exists c, depletion_capture a s d wp = Fin c /\ 0 < c <= 1.
Proof.
  intros a s d wp A S D W. unfold depletion_capture. destruct (diffusion_range a s d A S D) as (w & -> & B & _).
  destruct (Req_dec w 0) as [->|N]; [exists 1; rewrite capture_zero by exact W; split; [reflexivity | lra]|].
  destruct (capture_bounds w wp ltac:(lra) W) as (c & E & C). exists c. split; [exact E | lra].
Qed.
Lemma depletion_increasing : forall a s d e wp b c, 0 < a -> 0 < s -> 0 <= d < e -> e <= s -> 0 < wp ->
  depletion_capture a s d wp = Fin b -> depletion_capture a s e wp = Fin c -> b < c.
Proof.
  intros a s d e wp b c A S D E W HB HC. unfold depletion_capture in *. rewrite charge_diffusion_value in HB by lra. rewrite charge_diffusion_value in HC by lra.
  refine (capture_decreasing (sqrt (spread_of a s (s - e))) (sqrt (spread_of a s (s - d))) wp c b _ W HC HB).
  split; [apply sqrt_pos|]. apply sqrt_lt_1_alt. split; [apply spread_bounds; lra | apply spread_increasing; lra].
Qed.

Lemma esum_fin : forall {A} (f : A -> ext) (g : A -> R) l, (forall a, In a l -> f a = Fin (g a)) -> esum (map f l) = Fin (rsum (map g l)).
Proof.
  intros A f g l H. induction l as [|a l IH]; [reflexivity|]. cbn [map]. unfold esum in *. cbn [fold_right]. rewrite IH by (intros b B; apply H; right; exact B).
  rewrite (H a) by (left; reflexivity). reflexivity.
Qed.
Lemma rsum_sq_pos : forall {A} (g : A -> R) l, (forall a, In a l -> 0 < g a) -> l <> [] -> 0 < rsum (map g l).
Proof.
  intros A g l H N. destruct l as [|a l]; [contradiction|]. clear N. revert a H. induction l as [|b l IH]; intros a H.
  - cbn. assert (X := H a (or_introl eq_refl)). lra.
  - change (0 < g a + rsum (map g (b :: l))). assert (X := H a (or_introl eq_refl)). assert (Y := IH b (fun c I => H c (or_intror I))). lra.
Qed.

Lemma fit_exact : forall s wp d0 measured, 0 < s -> 0 < wp -> 0 <= d0 <= s -> measured <> [] ->
  (forall m, In m measured -> 0 < fst m /\ depletion_capture (fst m) s d0 wp = Fin (snd m)) ->
  fit_objective s wp measured d0 = Fin 0 /\
  forall d, 0 <= d <= s -> d <> d0 -> exists v, fit_objective s wp measured d = Fin v /\ 0 < v.
Proof.
  intros s wp d0 measured S W D N H.
  assert (LP : 0 < INR (length measured)) by (apply lt_0_INR; destruct measured; [contradiction | cbn; lia]).
  split.
  - unfold fit_objective. cbv zeta. rewrite (esum_fin _ (fun _ => 0)).
    + assert (Z : rsum (map (fun _ : R * R => 0) measured) = 0) by (clear; induction measured as [|m l IH]; [reflexivity | change (0 + rsum (map (fun _ : R * R => 0) l) = 0); lra]).
      rewrite Z. cbn [ediv]. destruct (Req_EM_T (INR (length measured)) 0); [lra|]. cbn [esqrt]. replace (0 / INR (length measured)) with 0 by (field; lra).
      destruct (Rle_dec 0 0); [f_equal; apply sqrt_0 | lra].
    + intros m I. destruct (H m I) as [_ E]. rewrite E. cbn. f_equal. ring.
  - intros d DD NE.
    assert (V : exists g : R * R -> R, forall m, In m measured -> depletion_capture (fst m) s d wp = Fin (g m) /\ g m <> snd m).
    { exists (fun m => match depletion_capture (fst m) s d wp with Fin c => c | _ => 0 end). intros m I. destruct (H m I) as [A E].
      destruct (depletion_value (fst m) s d wp A S DD W) as (c & C & _). rewrite C. split; [reflexivity|].
      destruct (Rlt_dec d d0) as [L|L].
      - assert (X := depletion_increasing (fst m) s d d0 wp c (snd m) A S ltac:(lra) ltac:(lra) W C E). lra.
      - assert (X := depletion_increasing (fst m) s d0 d wp (snd m) c A S ltac:(lra) ltac:(lra) W E C). lra. }
    destruct V as (g & G). unfold fit_objective. cbv zeta. rewrite (esum_fin _ (fun m => (snd m - g m) * (snd m - g m))).
    + assert (P : 0 < rsum (map (fun m => (snd m - g m) * (snd m - g m)) measured)).
      { apply rsum_sq_pos; [|exact N]. intros m I. destruct (G m I) as [_ X]. destruct (Rtotal_order (g m) (snd m)) as [L|[L|L]]; [nra | contradiction | nra]. }
      set (q := rsum _) in *. assert (Q : 0 < q / INR (length measured)) by (apply Rdiv_lt_0_compat; assumption).
      cbn [ediv]. destruct (Req_EM_T (INR (length measured)) 0); [lra|]. cbn [esqrt]. destruct (Rle_dec 0 (q / INR (length measured))); [|lra].
      eexists. split; [reflexivity | apply sqrt_lt_R0, Q].
    + intros m I. destruct (G m I) as [E _]. rewrite E. reflexivity.
Qed.

(** A depletion region thicker than the substrate, and a substrate that absorbs nothing. *)
Lemma diffusion_defined : forall a s d, 0 < a -> 0 < s -> ((exists w, charge_diffusion a s d = Some w) <-> d <= s).
Proof.
  intros a s d A S. assert (X := absorbed_pos a s A S). unfold charge_diffusion. rewrite odiv_nz by nra. cbn [obind].
  assert (E : forall f, 0 <= a * f + exp (- a * f) - 1).
  { intros f. destruct (Req_dec f 0) as [->|N]; [replace (- a * 0) with 0 by ring; rewrite exp_0; lra|].
    assert (H := exp_ineq1 (- a * f) ltac:(nra)). lra. }
  set (f := s - d). assert (D : 0 < a * (1 - exp (- a * s))) by nra. split.
  - intros [w W]. apply Rnot_lt_le. intros L. assert (F : f < 0) by (unfold f; lra).
    assert (H := exp_ineq1 (- a * f) ltac:(nra)).
    assert (Q : f * (a * f + exp (- a * f) - 1) / (a * (1 - exp (- a * s))) < 0).
    { unfold Rdiv. assert (0 < / (a * (1 - exp (- a * s)))) by (apply Rinv_0_lt_compat, D).
      assert (f * (a * f + exp (- a * f) - 1) < 0) by nra. nra. }
    unfold osqrt in W. destruct (Rle_dec 0 _) as [K|K]; [lra | discriminate].
  - intros L. eexists. apply osqrt_nonneg. assert (F : 0 <= f) by (unfold f; lra).
    apply Rmult_le_pos; [apply Rmult_le_pos; [exact F | apply E] | apply Rlt_le, Rinv_0_lt_compat, D].
Qed.
Lemma diffusion_clear : forall s d, charge_diffusion 0 s d = None.
Proof. intros s d. unfold charge_diffusion. replace (0 * (1 - exp (- 0 * s))) with 0 by ring. rewrite odiv_0. reflexivity. Qed.
