(** Moments of the approximate distribution of measured electrons. *)
From Coq Require Import Reals List ZArith Lra Lia.
From Coquelicot Require Import Coquelicot.
From Verif Require Import Num NumLemmas RamanathanModel SensorModel SensorSpec DistSpec DistProofs SensorProofs MonteCarloMeanProofs DepthProofs ApproxModel ApproxSpec.
Import ListNotations.
Open Scope R_scope.
Open Scope opt_scope.

(** ** Conditional moments of the depth *)
Definition mp_value (x n0 : R) : R := n0 + (1 - n0) * (1 / x - exp (- x) / (1 - exp (- x))).
Definition vp_value (x n0 : R) : R := (1 - n0) ^ 2 * (1 / x ^ 2 - exp (- x) / (1 - exp (- x)) ^ 2).

Lemma exp_inv_neg x : exp x = / exp (- x).
Proof. rewrite <- exp_Ropp. f_equal. ring. Qed.

Lemma mean_p_value x n0 : 0 < x -> mean_p x n0 = Some (mp_value x n0).
Proof.
  intros X. assert (E := exp_neg_lt1 x X). assert (P := exp_pos (- x)). unfold mean_p.
  rewrite odiv_nz by lra. cbn [obind].
  assert (Q : 1 - exp x = - (1 - exp (- x)) / exp (- x)) by (rewrite exp_inv_neg; field; lra).
  rewrite Q, odiv_nz.
  - cbn [obind]. f_equal. unfold mp_value. field. lra.
  - apply Rmult_integral_contrapositive_currified; [lra|]. apply Rinv_neq_0_compat. lra.
Qed.
Lemma sinh_half x : sinh (x / 2) * sinh (x / 2) = (exp x - 2 + exp (- x)) / 4.
Proof.
  unfold sinh. assert (A : exp (x / 2) * exp (x / 2) = exp x) by (rewrite <- exp_plus; f_equal; field).
  assert (B : exp (- (x / 2)) * exp (- (x / 2)) = exp (- x)) by (rewrite <- exp_plus; f_equal; field).
  assert (C : exp (x / 2) * exp (- (x / 2)) = 1) by (rewrite <- exp_plus; replace (x / 2 + - (x / 2)) with 0 by ring; apply exp_0).
  nra.
Qed.
Lemma var_p_value x n0 : 0 < x -> var_p x n0 = Some (vp_value x n0).
Proof.
  intros X. assert (E := exp_neg_lt1 x X). assert (P := exp_pos (- x)). unfold var_p.
  rewrite odiv_nz by nra. cbn [obind].
  assert (Q : sinh (x / 2) * sinh (x / 2) = (1 - exp (- x)) ^ 2 / (4 * exp (- x))).
  { rewrite sinh_half, exp_inv_neg. field. lra. }
  rewrite Q, odiv_nz.
  - cbn [obind]. f_equal. unfold vp_value. field. lra.
  - apply Rmult_integral_contrapositive_currified; [apply pow_nonzero; lra|]. apply Rinv_neq_0_compat. lra.
Qed.

Lemma ramp_mean a W n0 : 0 < a -> 0 < W ->
  is_truncated_mean a W (differential_efficiency n0 W) (mp_value (a * W) n0).
Proof.
  intros A P. unfold is_truncated_mean. assert (H := efficiency_int a W n0 W A P ltac:(lra)).
  assert (X : 0 < a * W) by nra. assert (E := exp_neg_lt1 _ X).
  match type of H with is_RInt _ _ _ ?v => match goal with |- is_RInt _ _ _ ?w => replace w with v; [exact H|] end end.
  unfold mp_value, cce, phi. replace (- a * W) with (- (a * W)) by ring. field. lra.
Qed.
Lemma ramp_variance a W n0 : 0 < a -> 0 < W ->
  is_truncated_mean a W (fun z => (differential_efficiency n0 W z - mp_value (a * W) n0) ^ 2) (vp_value (a * W) n0).
Proof.
  intros A P. unfold is_truncated_mean. assert (H := square_int a W n0 W (mp_value (a * W) n0) A P ltac:(lra)).
  assert (X : 0 < a * W) by nra. assert (E := exp_neg_lt1 _ X).
  match type of H with is_RInt _ _ _ ?v => match goal with |- is_RInt _ _ _ ?w => replace w with v; [exact H|] end end.
  unfold mp_value, vp_value, cce, phi. replace (- a * W) with (- (a * W)) by ring. field. lra.
Qed.

(** ** The fraction *)
Lemma fraction_value a W D : 0 < a -> 0 < D -> fraction_partial a W D = Some ((1 - exp (- (a * W))) / (1 - exp (- (a * D)))).
Proof. intros A P. unfold fraction_partial. rewrite odiv_nz; [reflexivity|]. assert (E := exp_neg_lt1 (a * D) ltac:(nra)). lra. Qed.
Lemma fraction_range a W D : 0 < a -> 0 < W <= D -> 0 < (1 - exp (- (a * W))) / (1 - exp (- (a * D))) <= 1.
Proof.
  intros A [P L]. assert (E := exp_neg_lt1 (a * W) ltac:(nra)). assert (F := exp_neg_lt1 (a * D) ltac:(nra)).
  assert (G : exp (- (a * D)) <= exp (- (a * W))) by (destruct (Req_dec D W) as [->|N]; [lra | left; apply exp_increasing; nra]).
  split; [apply Rdiv_lt_0_compat; lra|]. apply Rmult_le_reg_r with (1 - exp (- (a * D))); [lra|].
  unfold Rdiv. rewrite Rmult_assoc, Rinv_l by lra. lra.
Qed.
Lemma fraction_mean a W D : 0 < a -> 0 < W <= D ->
  is_truncated_mean a D (in_implant W) ((1 - exp (- (a * W))) / (1 - exp (- (a * D)))).
Proof.
  intros A [P L]. unfold is_truncated_mean. assert (F := exp_neg_lt1 (a * D) ltac:(nra)).
  assert (H1 : is_RInt (fun z => in_implant W z * (a * exp (- a * z))) 0 W (lin_primitive a 1 0 W - lin_primitive a 1 0 0)).
  { eapply is_RInt_ext; [|apply (lin_int a 1 0), A]. intros z [_ Z]. rewrite Rmax_right in Z by lra.
    unfold in_implant. destruct (Rlt_dec z W); [|lra]. cbv beta. f_equal. ring. }
  assert (H2 : is_RInt (fun z => in_implant W z * (a * exp (- a * z))) W D (lin_primitive a 0 0 D - lin_primitive a 0 0 W)).
  { eapply is_RInt_ext; [|apply (lin_int a 0 0), A]. intros z [Z _]. rewrite Rmin_left in Z by lra.
    unfold in_implant. destruct (Rlt_dec z W); [lra|]. cbv beta. f_equal. ring. }
  assert (H := is_RInt_Chasles (V := R_NormedModule) _ _ _ _ _ _ H1 H2).
  match type of H with is_RInt _ _ _ ?v => match goal with |- is_RInt _ _ _ ?w => replace w with v; [exact H|] end end.
  match goal with |- @eq _ ?u ?v => change (@eq R u v) end. unfold plus; cbn.
  unfold lin_primitive. replace (- a * 0) with 0 by ring. rewrite exp_0. replace (- a * W) with (- (a * W)) by ring.
  replace (- a * D) with (- (a * D)) in * by ring. field. lra.
Qed.

Lemma truncated_unique a D g u v : 0 < a -> 0 < D -> is_truncated_mean a D g u -> is_truncated_mean a D g v -> u = v.
Proof.
  intros A P U V. assert (F := absorbed_pos a D A P). unfold is_truncated_mean in U, V. apply (is_RInt_unique (V := R_CompleteNormedModule)) in U.
  apply (is_RInt_unique (V := R_CompleteNormedModule)) in V. rewrite U in V. apply Rmult_eq_reg_r in V; [exact V | lra].
Qed.

(** The moments of all of the photons, from those inside of the implant layer. *)
Lemma depth_mean_split a W D n0 : 0 < a -> 0 < W <= D ->
  let p := (1 - exp (- (a * W))) / (1 - exp (- (a * D))) in
  is_truncated_mean a D (differential_efficiency n0 W) (p * mp_value (a * W) n0 + (1 - p)).
Proof.
  intros A [P L] p. unfold is_truncated_mean. assert (H := efficiency_int a W n0 D A P L).
  assert (X : 0 < a * W) by nra. assert (E := exp_neg_lt1 _ X). assert (F := exp_neg_lt1 (a * D) ltac:(nra)).
  match type of H with is_RInt _ _ _ ?v => match goal with |- is_RInt _ _ _ ?w => replace w with v; [exact H|] end end.
  unfold p, mp_value, cce, phi. replace (- a * D) with (- (a * D)) by ring. field. lra.
Qed.
Lemma depth_variance_split a W D n0 c : 0 < a -> 0 < W <= D ->
  let p := (1 - exp (- (a * W))) / (1 - exp (- (a * D))) in
  let mp := mp_value (a * W) n0 in
  is_truncated_mean a D (fun z => (differential_efficiency n0 W z - c) ^ 2)
    (p * (vp_value (a * W) n0 + (mp - c) ^ 2) + (1 - p) * (1 - c) ^ 2).
Proof.
  intros A [P L] p mp. unfold is_truncated_mean. assert (H := square_int a W n0 D c A P L).
  assert (X : 0 < a * W) by nra. assert (E := exp_neg_lt1 _ X). assert (F := exp_neg_lt1 (a * D) ltac:(nra)).
  match type of H with is_RInt _ _ _ ?v => match goal with |- is_RInt _ _ _ ?w => replace w with v; [exact H|] end end.
  unfold p, mp, mp_value, vp_value, cce, phi. replace (- a * D) with (- (a * D)) by ring. field. lra.
Qed.

(** ** Bounds *)
Lemma mp_range x n0 : 0 < x -> 0 <= n0 <= 1 -> 0 < mp_value x n0 <= 1.
Proof.
  intros X N. unfold mp_value. assert (E := exp_neg_lt1 x X). assert (P := exp_pos (- x)). assert (S := exp_neg_step x X). assert (T := exp_neg_lt x X).
  set (e := exp (- x)) in *. set (k := 1 / x - e / (1 - e)).
  assert (K : k * (x * (1 - e)) = 1 - e - x * e) by (unfold k; field; lra).
  assert (M : 0 < x * (1 - e)) by nra.
  assert (K0 : 0 < k) by (apply Rmult_lt_reg_r with (x * (1 - e)); [exact M|]; rewrite K; lra).
  assert (K1 : k < 1) by (apply Rmult_lt_reg_r with (x * (1 - e)); [exact M|]; rewrite K; nra).
  split; nra.
Qed.
(** The second moment of a number in [0, 1] is at most its mean. *)
Lemma vp_range x n0 : 0 < x -> 0 <= n0 <= 1 ->
  0 <= vp_value x n0 /\ vp_value x n0 + mp_value x n0 ^ 2 <= mp_value x n0.
Proof.
  intros X N. unfold vp_value, mp_value. assert (E := exp_neg_lt1 x X). assert (P := exp_pos (- x)).
  assert (T := tanh_ineq x ltac:(lra)). assert (V := var_bounds x 0 X ltac:(lra)).
  set (e := exp (- x)) in *. set (k := 1 / x - e / (1 - e)). set (v := 1 / x ^ 2 - e / (1 - e) ^ 2).
  assert (M : 0 < x * (1 - e)) by nra.
  assert (K : k * (x * (1 - e)) = 1 - e - x * e) by (unfold k; field; lra).
  assert (VV : v * (x * (1 - e)) ^ 2 = (1 - e) ^ 2 - x ^ 2 * e) by (unfold v; field; lra).
  assert (M2 : 0 < (x * (1 - e)) ^ 2) by nra.
  (* sinh (x/2) >= x/2 *)
  assert (V0 : 0 <= v).
  { apply Rmult_le_reg_r with ((x * (1 - e)) ^ 2); [exact M2|]. rewrite VV, Rmult_0_l.
    set (h := exp (- (x / 2))). assert (HE : e = h ^ 2) by (unfold e, h; rewrite <- Rsqr_pow2; unfold Rsqr; rewrite <- exp_plus; f_equal; field).
    assert (HP : 0 < h) by apply exp_pos.
    assert (H : x * h <= 1 - h ^ 2).
    { assert (Y := exp_pos (- (x / 2))). assert (S := sinh_form (x / 2)).
      assert (Q : 0 <= sinh (x / 2) - x / 2).
      { assert (VB := var_bounds (x / 2) 0 ltac:(lra) ltac:(lra)). destruct VB as [VB _]. unfold var_cce in VB.
        apply Rmult_le_reg_l with ((1 / (x / 2)) ^ 2 * (2 * exp (- (x / 2)))).
        - apply Rmult_lt_0_compat; [|lra]. apply pow_lt. apply Rdiv_lt_0_compat; lra.
        - rewrite Rmult_0_r. replace ((1 - 0) / (x / 2)) with (1 / (x / 2)) in VB by (field; lra). lra. }
      unfold sinh in Q. fold h in Q. assert (HI : exp (x / 2) * h = 1) by (unfold h; rewrite <- exp_plus; replace (x / 2 + - (x / 2)) with 0 by ring; apply exp_0).
      assert (Q2 : 0 <= ((exp (x / 2) - h) / 2 - x / 2) * h) by (apply Rmult_le_pos; lra).
      replace (((exp (x / 2) - h) / 2 - x / 2) * h) with ((exp (x / 2) * h - h ^ 2 - x * h) / 2) in Q2 by field. rewrite HI in Q2. lra. }
    rewrite HE. assert (0 <= x * h) by nra. nra. }
  split; [apply Rmult_le_pos; [apply pow2_ge_0 | exact V0]|].
  (* v + k^2 <= k *)
  assert (KK : v + k ^ 2 <= k).
  { apply Rmult_le_reg_r with ((x * (1 - e)) ^ 2); [exact M2|].
    replace ((v + k ^ 2) * (x * (1 - e)) ^ 2) with (v * (x * (1 - e)) ^ 2 + (k * (x * (1 - e))) ^ 2) by ring.
    replace (k * (x * (1 - e)) ^ 2) with (k * (x * (1 - e)) * (x * (1 - e))) by ring.
    rewrite VV, K. assert (U : 0 <= (1 - e) * (x - 2 + (2 + x) * e)) by (apply Rmult_le_pos; lra).
    apply Rminus_le. match goal with |- ?g <= 0 => replace g with (- ((1 - e) * (x - 2 + (2 + x) * e))) by ring end. lra. }
  assert (K1 : k <= 1) by nra.
  assert (U : 0 <= n0 * (1 - n0) * (1 - k)) by (apply Rmult_le_pos; [nra | lra]).
  assert (U2 : 0 <= (1 - n0) ^ 2 * (k - (v + k ^ 2))) by (apply Rmult_le_pos; [apply pow2_ge_0 | lra]).
  apply Rminus_le. match goal with |- ?g <= 0 => replace g with (- (n0 * (1 - n0) * (1 - k)) - (1 - n0) ^ 2 * (k - (v + k ^ 2))) by ring end. lra.
Qed.

(** ** Moments of mixtures *)
Ltac entries := repeat (first [apply List.Forall_nil | apply List.Forall_cons; [cbn [fst snd]|]]).
Lemma int_of_bounds x : 0 <= x -> 0 <= x - IZR (int_of x) < 1 /\ (0 <= int_of x)%Z.
Proof.
  intros X. unfold int_of. destruct (Rle_dec 0 x) as [H|H]; [|lra]. destruct (base_Int_part x) as [A B]. split; [lra|].
  apply le_IZR. cbn. destruct (Z_lt_le_dec (Int_part x) 0) as [L|L]; [|apply IZR_le in L; exact L].
  exfalso. assert (M : (Int_part x <= -1)%Z) by lia. apply IZR_le in M. lra.
Qed.
Lemma discretize_expect f x : expect f (discretize x) =
  (x - IZR (int_of x)) * f (IZR (int_of x) + 1) + (1 - (x - IZR (int_of x))) * f (IZR (int_of x)).
Proof.
  unfold discretize. rewrite expect_mix.
  unfold expect, bernoulli; cbn. rewrite (Rplus_0_r (IZR (int_of x))). ring.
Qed.
Lemma discretize_mean x : mean (discretize x) = x.
Proof. unfold mean. rewrite discretize_expect. ring. Qed.
Lemma discretize_total x : expect (fun _ => 1) (discretize x) = 1.
Proof. rewrite discretize_expect. ring. Qed.
Lemma discretize_second x : 0 <= x -> x * x <= second (discretize x) <= x * x + 1 / 4.
Proof.
  intros X. destruct (int_of_bounds x X) as [B _]. unfold second. rewrite discretize_expect.
  set (i := IZR (int_of x)) in *. set (f := x - i) in *.
  replace (f * ((i + 1) * (i + 1)) + (1 - f) * (i * i)) with (x * x + f * (1 - f)) by (unfold f; ring).
  assert (0 <= (f - 1 / 2) ^ 2) by apply pow2_ge_0. nra.
Qed.
Lemma Forall_conv (Q : R * R -> Prop) d e : (forall pv qw, In pv d -> In qw e -> Q (fst pv * fst qw, snd pv + snd qw)) ->
  List.Forall Q (conv d e).
Proof.
  intros H. apply List.Forall_forall. intros z I. unfold conv in I. apply in_flat_map in I as (pv & I1 & I2).
  apply in_map_iff in I2 as (qw & <- & I3). auto.
Qed.
Lemma discretize_good x : 0 <= x -> is_dist (discretize x) /\ whole (discretize x).
Proof.
  intros X. destruct (int_of_bounds x X) as [B N]. split; [split; [|apply discretize_total]|].
  - unfold discretize, mix, weigh, bernoulli; cbn [map flat_map app fst snd]. entries; lra.
  - unfold whole, discretize, mix, weigh, bernoulli; cbn [map flat_map app fst snd]. destruct (IZN _ N) as [n E]. rewrite E, <- INR_IZR_INZ.
    entries; [exists (S n); rewrite S_INR; reflexivity | exists n; ring].
Qed.
Lemma mix_good d next : is_dist d -> (forall pv, In pv d -> is_dist (next (snd pv)) /\ whole (next (snd pv))) ->
  is_dist (mix d next) /\ whole (mix d next).
Proof.
  intros [P T] H. split; [split|].
  - apply List.Forall_forall. intros z I. unfold mix in I. apply in_flat_map in I as (pa & I1 & I2).
    unfold weigh in I2. apply in_map_iff in I2 as (qw & <- & I3). cbn.
    destruct (H _ I1) as [[Q _] _]. rewrite List.Forall_forall in P, Q. specialize (P _ I1). specialize (Q _ I3). nra.
  - rewrite expect_mix_dist. transitivity (expect (fun _ => 1) d); [|exact T].
    apply (rsum_map_ext (fun pv => fst pv * expect (fun _ => 1) (next (snd pv)))). intros pv I.
    destruct (H _ I) as [[_ Q] _]. rewrite Q. reflexivity.
  - apply List.Forall_forall. intros z I. unfold mix in I. apply in_flat_map in I as (pa & I1 & I2).
    unfold weigh in I2. apply in_map_iff in I2 as (qw & <- & I3). cbn.
    destruct (H _ I1) as [_ W]. unfold whole in W. rewrite List.Forall_forall in W. exact (W _ I3).
Qed.
Lemma expect_le f g d : is_dist d -> (forall pv, In pv d -> f (snd pv) <= g (snd pv)) -> expect f d <= expect g d.
Proof.
  intros [P _] H. induction d as [|pv d IH]; [apply Rle_refl|]. inversion P as [|? ? P1 P2]; subst.
  assert (A := H pv (or_introl eq_refl)). assert (B := IH P2 (fun q I => H q (or_intror I))). rewrite !expect_cons.
  apply Rplus_le_compat; [apply Rmult_le_compat_l; assumption | exact B].
Qed.
Lemma expect_eq_on f g (d : dist) : (forall pv, In pv d -> f (snd pv) = g (snd pv)) -> expect f d = expect g d.
Proof. intros H. unfold expect. apply rsum_map_ext. intros pv I. rewrite H by exact I. reflexivity. Qed.

(** Mean [m] and variance between [v] and [v + 1/4]. *)
Definition moments (d : dist) (m lo hi : R) : Prop :=
  is_dist d /\ whole d /\ mean d = m /\ lo <= variance d <= hi.

Lemma discrete_gamma_moments gamma m vmr : like_gamma gamma -> 0 <= m -> 0 <= vmr ->
  exists d, discrete_gamma gamma m vmr = Some d /\ moments d m (m * vmr) (m * vmr + 1 / 4).
Proof.
  intros G M V. unfold discrete_gamma. destruct (Rlt_dec m 0); [lra|]. destruct (Rlt_dec vmr 0); [lra|].
  destruct (Req_EM_T vmr 0) as [->|N].
  - eexists; split; [reflexivity|]. destruct (discretize_good m M) as [A B]. split; [exact A|]. split; [exact B|].
    split; [apply discretize_mean|]. rewrite variance_second by apply A. assert (S := discretize_second m M).
    rewrite discretize_mean. lra.
  - eexists; split; [reflexivity|]. destruct (G (m / vmr) vmr) as (D & P & GM & GV); [|lra|].
    { apply Rmult_le_pos; [exact M|]. left; apply Rinv_0_lt_compat; lra. }
    replace (m / vmr * vmr) with m in GM by (field; lra). replace (m / vmr * (vmr * vmr)) with (m * vmr) in GV by (field; lra).
    set (g := gamma (m / vmr) vmr) in *. rewrite List.Forall_forall in P.
    destruct (mix_good g discretize D (fun pv I => discretize_good _ (P _ I))) as [A B].
    assert (EM : mean (mix g discretize) = m).
    { unfold mean. rewrite expect_mix_dist. rewrite <- GM. apply expect_ext. intros x. apply discretize_mean. }
    split; [exact A|]. split; [exact B|]. split; [exact EM|].
    rewrite variance_second by apply A. rewrite EM. rewrite variance_second in GV by apply D. rewrite GM in GV.
    unfold second. rewrite expect_mix_dist.
    assert (L : second g <= expect (fun x => expect (fun y => y * y) (discretize x)) g).
    { unfold second. apply (expect_le (fun x => x * x)); [exact D|]. intros pv I. apply (discretize_second (snd pv) (P _ I)). }
    assert (U : expect (fun x => expect (fun y => y * y) (discretize x)) g <= second g + 1 / 4).
    { replace (second g + 1 / 4) with (expect (fun x => x * x + 1 / 4) g).
      - apply (expect_le _ (fun x => x * x + 1 / 4)); [exact D|]. intros pv I. apply (discretize_second (snd pv) (P _ I)).
      - rewrite expect_plus, expect_const. destruct D as [_ D]. rewrite D. unfold second. ring. }
    lra.
Qed.

Lemma conv_moments d e m lo hi m' lo' hi' : moments d m lo hi -> moments e m' lo' hi' ->
  moments (conv d e) (m + m') (lo + lo') (hi + hi').
Proof.
  intros ([P T] & W & M & V) ([P' T'] & W' & M' & V').
  assert (TC : expect (fun _ => 1) (conv d e) = 1) by (rewrite expect_conv, (expect_ext _ (fun _ => 1)) by (intros; exact T'); exact T).
  assert (MC : mean (conv d e) = m + m').
  { unfold mean. rewrite expect_conv, (expect_ext _ (fun x => x + m')).
    - rewrite expect_plus, expect_const, T. fold (mean d). rewrite M. ring.
    - intros x. rewrite expect_plus, expect_const, T'. fold (mean e). rewrite M'. ring. }
  assert (SC : second (conv d e) = second d + 2 * m * m' + second e).
  { unfold second. rewrite expect_conv, (expect_ext _ (fun x => x * x + (2 * m' * x + second e))).
    - rewrite expect_plus, expect_plus, expect_scal, expect_const, T. fold (mean d). rewrite M. unfold second. ring.
    - intros x. rewrite (expect_ext _ (fun w => x * x + (2 * x * w + w * w))) by (intros; ring).
      rewrite (expect_plus (fun _ => x * x)), (expect_plus (fun w => 2 * x * w)), (expect_scal (2 * x) (fun w => w)), expect_const, T'.
      fold (mean e). rewrite M'. unfold second. ring. }
  rewrite variance_second in V by exact T. rewrite variance_second in V' by exact T'. rewrite M in V. rewrite M' in V'.
  split; [split; [|exact TC]|split; [|split; [exact MC|]]].
  - rewrite List.Forall_forall in P, P'. apply Forall_conv. intros pv qw I J. cbn. specialize (P _ I). specialize (P' _ J). nra.
  - unfold whole in *. rewrite List.Forall_forall in W, W'. apply Forall_conv. intros pv qw I J. cbn.
    destruct (W _ I) as [i ->]. destruct (W' _ J) as [j ->]. exists (i + j)%nat. symmetry; apply plus_INR.
  - rewrite variance_second by exact TC. rewrite MC, SC. nra.
Qed.

Lemma omix_some d next nx : (forall pv, In pv d -> next (snd pv) = Some (nx (snd pv))) -> omix d next = Some (mix d nx).
Proof.
  induction d as [|[p x] d IH]; intros H; cbn; [reflexivity|].
  assert (E := H (p, x) (or_introl eq_refl)); cbn in E. rewrite E; cbn. rewrite IH by (intros pv I; apply H; right; exact I). reflexivity.
Qed.

Lemma mix_moments d nx (m lo hi : R -> R) : is_dist d ->
  (forall pv, In pv d -> moments (nx (snd pv)) (m (snd pv)) (lo (snd pv)) (hi (snd pv))) ->
  is_dist (mix d nx) /\ whole (mix d nx) /\ mean (mix d nx) = expect m d /\
  expect (fun x => lo x + m x * m x) d - expect m d * expect m d <= variance (mix d nx)
    <= expect (fun x => hi x + m x * m x) d - expect m d * expect m d.
Proof.
  intros D H. destruct (mix_good d nx D (fun pv I => let 'conj a (conj b _) := H pv I in conj a b)) as [A B].
  assert (EM : mean (mix d nx) = expect m d).
  { unfold mean. rewrite expect_mix_dist. apply (expect_eq_on (fun x => expect (fun y => y) (nx x))). intros pv I. apply H, I. }
  split; [exact A|]. split; [exact B|]. split; [exact EM|].
  rewrite variance_second by apply A. rewrite EM. unfold second. rewrite expect_mix_dist.
  assert (S : forall pv, In pv d -> lo (snd pv) + m (snd pv) * m (snd pv) <= expect (fun y => y * y) (nx (snd pv)) <= hi (snd pv) + m (snd pv) * m (snd pv)).
  { intros pv I. destruct (H pv I) as ([_ T] & _ & M & V). rewrite variance_second in V by exact T. rewrite M in V. unfold second in V. lra. }
  split.
  - assert (L := expect_le (fun x => lo x + m x * m x) (fun x => expect (fun y => y * y) (nx x)) d D (fun pv I => proj1 (S pv I))). lra.
  - assert (L := expect_le (fun x => expect (fun y => y * y) (nx x)) (fun x => hi x + m x * m x) d D (fun pv I => proj2 (S pv I))). lra.
Qed.

Lemma binomial_values n h pv : In pv (binomial n h) -> exists k : nat, snd pv = INR k /\ (k <= n)%nat.
Proof.
  revert pv. induction n as [|n IH]; intros pv I.
  - destruct I as [<-|[]]. exists O; auto.
  - unfold binomial in I; cbn [iid_sum] in I. apply in_flat_map in I as (b & B & I). apply in_map_iff in I as (qw & <- & J).
    destruct (IH qw J) as (k & E & L). cbn. rewrite E. destruct B as [<-|[<-|[]]]; cbn.
    + exists (S k). rewrite S_INR. split; [ring | lia].
    + exists k. split; [ring | lia].
Qed.
Lemma iid_dist n d : is_dist d -> is_dist (iid_sum n d).
Proof.
  intros [P T]. split; [|apply iid_total, T]. induction n as [|n IH]; cbn [iid_sum]; [entries; lra|].
  rewrite List.Forall_forall in P, IH. apply Forall_conv. intros pv qw I J. cbn. specialize (P _ I). specialize (IH _ J). nra.
Qed.
Lemma binomial_dist n h : 0 <= h <= 1 -> is_dist (binomial n h).
Proof. intros H. apply iid_dist. split; [unfold bernoulli; entries; lra | apply bernoulli_total]. Qed.

(** ** One count of photons in the implant layer *)
Lemma vmr_ge_fano f q mp vp : 0 <= f <= 1 -> 0 < q -> 0 < mp -> 0 <= vp -> vp + mp ^ 2 <= mp ->
  f <= var_i f q mp vp / mean_i q mp.
Proof.
  intros F Q M V B. unfold mean_i. apply Rmult_le_reg_r with (q * mp); [nra|].
  unfold Rdiv. rewrite Rmult_assoc, Rinv_l by nra. unfold var_i.
  replace (f * q * vp + f * q * (mp * mp) + vp * (q * q) + q * (mp - (vp + mp * mp)))
    with (q * (f * mp + (1 - f) * (mp - (vp + mp ^ 2))) + q * q * vp) by ring. 
  assert (0 <= q * ((1 - f) * (mp - (vp + mp ^ 2)))) by (apply Rmult_le_pos; [lra|]; apply Rmult_le_pos; lra).
  assert (0 <= q * q * vp) by nra. nra.
Qed.

Lemma given_moments gamma n k mp vp q f : like_gamma gamma -> (k <= n)%nat -> 0 <= f <= 1 -> 0 < q -> 0 < mp -> 0 <= vp ->
  vp + mp ^ 2 <= mp ->
  exists d, electrons_given gamma (INR n) mp vp q f (INR k) = Some d /\
    moments d (INR k * (q * mp) + (INR n - INR k) * q)
      (INR k * var_i f q mp vp + (INR n - INR k) * (f * q) - 1 / 6)
      (INR k * var_i f q mp vp + (INR n - INR k) * (f * q) + 1 / 2).
Proof.
  intros G L F Q M V B. unfold electrons_given.
  assert (MI : 0 < mean_i q mp) by (unfold mean_i; nra). rewrite odiv_nz by lra. cbn [obind].
  assert (VF := vmr_ge_fano f q mp vp F Q M V B). set (r := var_i f q mp vp / mean_i q mp) in *.
  assert (RV : var_i f q mp vp = r * mean_i q mp) by (unfold r; field; lra).
  assert (K := pos_INR k). assert (NK : INR k <= INR n) by (apply le_INR, L).
  set (m := INR k * mean_i q mp) in *. assert (M0 : 0 <= m) by (unfold m; nra).
  assert (VD : f <= vmr_drawn m r f /\ m * r - 1 / 6 <= m * vmr_drawn m r f <= m * r).
  { unfold vmr_drawn. destruct (Req_EM_T m 0) as [E|N]; [rewrite E; lra|]. assert (MP : 0 < m) by lra.
    set (s := r - 1 / (6 * m)). assert (S : m * s = m * r - 1 / 6) by (unfold s; field; lra).
    assert (SR : s <= r) by (apply Rmult_le_reg_l with m; [exact MP | lra]).
    unfold Rmax. destruct (Rle_dec s f) as [H|H]; split; try nra. }
  destruct VD as (V1 & V2).
  destruct (discrete_gamma_moments gamma m (vmr_drawn m r f) G M0 ltac:(lra)) as (d1 & E1 & H1). rewrite E1. cbn [obind].
  destruct (discrete_gamma_moments gamma ((INR n - INR k) * q) f G ltac:(nra) ltac:(lra)) as (d2 & E2 & H2). rewrite E2. cbn [obind].
  eexists; split; [reflexivity|]. assert (C := conv_moments _ _ _ _ _ _ _ _ H2 H1).
  destruct C as (A & W & CM & CV). split; [exact A|]. split; [exact W|]. split; [rewrite CM; unfold m, mean_i; ring|].
  rewrite RV. replace (INR k * (r * mean_i q mp)) with (m * r) by (unfold m; ring). lra.
Qed.

(** ** The whole *)
Section Whole.
  Variables (gamma : R -> R -> dist) (n : nat) (a W D n0 q f : R).
  Hypotheses (G : like_gamma gamma) (A : 0 < a) (WD : 0 < W <= D) (N0 : 0 <= n0 <= 1) (Q : 0 < q) (F : 0 <= f <= 1).
  Let p := (1 - exp (- (a * W))) / (1 - exp (- (a * D))).
  Let mp := mp_value (a * W) n0.
  Let vp := vp_value (a * W) n0.
  Let v1 := p * var_i f q mp vp + (1 - p) * (f * q) + p * (1 - p) * (q * mp - q) ^ 2.

  Lemma approx_value : exists d, electrons_measured_approx gamma n a W D n0 q f = Some d /\
    is_dist d /\ whole d /\ mean d = INR n * (q * (p * mp + (1 - p))) /\
    INR n * v1 - 1 / 6 <= variance d <= INR n * v1 + 1 / 2.
  Proof.
    assert (X : 0 < a * W) by nra. assert (R := fraction_range a W D A WD). fold p in R.
    destruct (mp_range (a * W) n0 X N0) as [M _]. destruct (vp_range (a * W) n0 X N0) as [V B]. fold mp vp in M, V, B.
    unfold electrons_measured_approx. rewrite fraction_value by lra. cbn [obind]. fold p.
    destruct (Rlt_dec p 0); [lra|]. destruct (Rlt_dec 1 p); [lra|].
    rewrite mean_p_value, var_p_value by exact X. cbn [obind]. fold mp vp.
    set (given := electrons_given gamma (INR n) mp vp q f).
    set (nx := fun x => match given x with Some d => d | None => [] end).
    assert (H : forall pv, In pv (binomial n p) -> given (snd pv) = Some (nx (snd pv)) /\
      moments (nx (snd pv)) (snd pv * (q * mp) + (INR n - snd pv) * q)
        (snd pv * var_i f q mp vp + (INR n - snd pv) * (f * q) - 1 / 6)
        (snd pv * var_i f q mp vp + (INR n - snd pv) * (f * q) + 1 / 2)).
    { intros pv I. destruct (binomial_values n p pv I) as (k & -> & L).
      destruct (given_moments gamma n k mp vp q f G L F Q M V B) as (d & E & HM). unfold nx, given. rewrite E. auto. }
    rewrite (omix_some _ _ nx (fun pv I => proj1 (H pv I))). eexists; split; [reflexivity|].
    assert (BD := binomial_dist n p ltac:(lra)).
    destruct (mix_moments (binomial n p) nx (fun x => x * (q * mp) + (INR n - x) * q)
      (fun x => x * var_i f q mp vp + (INR n - x) * (f * q) - 1 / 6)
      (fun x => x * var_i f q mp vp + (INR n - x) * (f * q) + 1 / 2) BD (fun pv I => proj2 (H pv I))) as (Z1 & Z2 & Z3 & Z4).
    assert (BT : expect (fun _ => 1) (binomial n p) = 1) by apply BD.
    assert (B1 : expect (fun x => x) (binomial n p) = INR n * p) by apply binomial_mean.
    assert (B2 : expect (fun x => x * x) (binomial n p) = INR n * p + INR n * (INR n - 1) * (p * p)) by apply binomial_second.
    assert (QD : forall u v w, expect (fun x => u + (v * x + w * (x * x))) (binomial n p) = u + v * (INR n * p) + w * (INR n * p + INR n * (INR n - 1) * (p * p))).
    { intros u v w. rewrite expect_plus, expect_plus, expect_const, !expect_scal, BT, B1, B2. ring. }
    rewrite (expect_ext _ (fun x => INR n * q + ((q * mp - q) * x + 0 * (x * x)))) in Z3, Z4 by (intros; ring). rewrite QD in Z3, Z4.
    split; [exact Z1|]. split; [exact Z2|]. split; [rewrite Z3; ring|].
    rewrite (expect_ext _ (fun x => (INR n * (f * q) - 1 / 6 + INR n * q * (INR n * q)) + ((var_i f q mp vp - f * q + 2 * (INR n * q) * (q * mp - q)) * x + (q * mp - q) ^ 2 * (x * x)))) in Z4 by (intros; ring).
    rewrite (expect_ext (fun x => x * var_i f q mp vp + (INR n - x) * (f * q) + 1 / 2 + _) (fun x => (INR n * (f * q) + 1 / 2 + INR n * q * (INR n * q)) + ((var_i f q mp vp - f * q + 2 * (INR n * q) * (q * mp - q)) * x + (q * mp - q) ^ 2 * (x * x)))) in Z4 by (intros; ring).
    rewrite !QD in Z4. unfold v1.
    match type of Z4 with ?l <= _ <= ?u => match goal with |- ?l' <= _ <= ?u' => replace l' with l by ring; replace u' with u by ring end end. exact Z4.
  Qed.

  (** The same moments from the exact distribution of one photon. *)
  Lemma exact_variance c V pairs eff :
    is_truncated_mean a D (differential_efficiency n0 W) c ->
    is_truncated_mean a D (fun z => (differential_efficiency n0 W z - c) ^ 2) V ->
    is_dist (counts pairs) -> DistSpec.mean (counts pairs) = q -> variance (counts pairs) = f * q ->
    is_dist eff -> DistSpec.mean eff = c -> variance eff = V ->
    c = p * mp + (1 - p) /\ variance (thinned pairs eff) = v1.
  Proof.
    intros C1 C2 [_ PT] PM PV [_ ET] EM EV. assert (DP : 0 < D) by lra.
    assert (EC : c = p * mp + (1 - p)) by exact (truncated_unique a D _ _ _ A DP C1 (depth_mean_split a W D n0 A WD)).
    split; [exact EC|].
    assert (EVV := truncated_unique a D _ _ _ A DP C2 (depth_variance_split a W D n0 c A WD)). fold p mp vp in EVV.
    rewrite variance_second by (apply thinned_total; assumption). rewrite thinned_mean, thinned_second by assumption.
    rewrite variance_second in PV by assumption. rewrite variance_second in EV by assumption.
    rewrite PM in *. rewrite EM in *.
    assert (S1 : second (counts pairs) = f * q + q * q) by lra.
    assert (S2 : second eff = p * (vp + (mp - c) ^ 2) + (1 - p) * (1 - c) ^ 2 + c * c) by (rewrite <- EVV; lra).
    rewrite S1, S2, EC. unfold v1, var_i. ring.
  Qed.
End Whole.

Lemma approx_moments gamma n a W D n0 q f c V pairs eff : like_gamma gamma -> 0 < a -> 0 < W <= D -> 0 <= n0 <= 1 ->
  0 < q -> 0 <= f <= 1 ->
  is_truncated_mean a D (differential_efficiency n0 W) c ->
  is_truncated_mean a D (fun z => (differential_efficiency n0 W z - c) ^ 2) V ->
  is_dist (counts pairs) -> DistSpec.mean (counts pairs) = q -> variance (counts pairs) = f * q ->
  is_dist eff -> DistSpec.mean eff = c -> variance eff = V ->
  exists d, electrons_measured_approx gamma n a W D n0 q f = Some d /\ is_dist d /\ whole d /\
    DistSpec.mean d = DistSpec.mean (iid_sum n (thinned pairs eff)) /\
    variance (iid_sum n (thinned pairs eff)) - 1 / 6 <= variance d <= variance (iid_sum n (thinned pairs eff)) + 1 / 2.
Proof.
  intros G A WD N0 Q F C1 C2 PD PM PV ED EM EV.
  destruct (approx_value gamma n a W D n0 q f G A WD N0 Q F) as (d & E & D1 & D2 & D3 & D4).
  destruct (exact_variance a W D n0 q f A WD c V pairs eff C1 C2 PD PM PV ED EM EV) as [EC TV].
  exists d. split; [exact E|]. split; [exact D1|]. split; [exact D2|].
  assert (TT : expect (fun _ => 1) (thinned pairs eff) = 1) by (apply thinned_total; [apply PD | apply ED]).
  assert (TM : DistSpec.mean (thinned pairs eff) = q * c) by (rewrite thinned_mean, PM, EM; try apply PD; try apply ED; reflexivity).
  assert (IV : variance (iid_sum n (thinned pairs eff)) = INR n * variance (thinned pairs eff)).
  { rewrite (variance_second (iid_sum n (thinned pairs eff))) by (apply iid_total, TT). rewrite iid_mean, iid_second by exact TT. rewrite variance_second by exact TT. ring. }
  rewrite IV, TV, iid_mean, TM by exact TT. split; [rewrite D3, EC; ring | exact D4].
Qed.

(** ** No implant layer *)
Lemma approx_no_implant gamma n a D n0 q f : electrons_measured_approx gamma n a 0 D n0 q f = None.
Proof.
  unfold electrons_measured_approx. destruct (fraction_partial a 0 D) as [p|]; cbn; [|reflexivity].
  destruct (Rlt_dec p 0); [reflexivity|]. destruct (Rlt_dec 1 p); [reflexivity|].
  unfold mean_p. rewrite Rmult_0_r, odiv_0. reflexivity.
Qed.

(** ** A distribution of two values with the moments of a gamma distribution *)
Definition two_gamma (shape scale : R) : dist := [(shape / (shape + 1), (shape + 1) * scale); (1 / (shape + 1), 0)].
Lemma two_gamma_like : like_gamma two_gamma.
Proof.
  intros k s K S. assert (T : expect (fun _ => 1) (two_gamma k s) = 1) by (unfold expect, two_gamma; cbn; field; lra).
  assert (M : mean (two_gamma k s) = k * s) by (unfold mean, expect, two_gamma; cbn; field; lra).
  assert (IK : 0 < / (k + 1)) by (apply Rinv_0_lt_compat; lra).
  split; [split; [|exact T]|split; [|split; [exact M|]]].
  - unfold two_gamma, Rdiv; entries; nra.
  - unfold two_gamma; entries; nra.
  - rewrite variance_second by exact T. rewrite M. unfold second, expect, two_gamma; cbn. field. lra.
Qed.

(** Two efficiencies with given moments. *)
Definition two_values (c V : R) : dist := [(1 / 2, c - sqrt V); (1 / 2, c + sqrt V)].
Lemma two_values_moments c V : 0 <= V -> is_dist (two_values c V) /\ mean (two_values c V) = c /\ variance (two_values c V) = V.
Proof.
  intros P. assert (T : expect (fun _ => 1) (two_values c V) = 1) by (unfold expect, two_values; cbn; field).
  assert (M : mean (two_values c V) = c) by (unfold mean, expect, two_values; cbn; field).
  split; [split; [unfold two_values; entries; lra | exact T]|]. split; [exact M|].
  rewrite variance_second by exact T. rewrite M. unfold second, expect, two_values; cbn.
  assert (S := sqrt_sqrt V P). nra.
Qed.
Lemma approx_example : exists c V eff, like_gamma two_gamma /\
  is_truncated_mean 1 2 (differential_efficiency (1 / 2) 1) c /\
  is_truncated_mean 1 2 (fun z => (differential_efficiency (1 / 2) 1 z - c) ^ 2) V /\
  is_dist (counts [(1, 2%nat)]) /\ mean (counts [(1, 2%nat)]) = 2 /\ variance (counts [(1, 2%nat)]) = 0 * 2 /\
  is_dist eff /\ mean eff = c /\ variance eff = V /\ 1 / 2 < c < 1.
Proof.
  assert (X : 0 < 1 * 1) by lra. assert (R := fraction_range 1 1 2 ltac:(lra) ltac:(lra)).
  assert (R1 : (1 - exp (- (1 * 1))) / (1 - exp (- (1 * 2))) < 1).
  { assert (E := exp_neg_lt1 (1 * 2) ltac:(lra)). assert (F := exp_increasing (- (1 * 2)) (- (1 * 1)) ltac:(lra)).
    apply Rmult_lt_reg_r with (1 - exp (- (1 * 2))); [lra|]. unfold Rdiv. rewrite Rmult_assoc, Rinv_l by lra. lra. }
  assert (MR := mp_range (1 * 1) (1 / 2) X ltac:(lra)). assert (VR := vp_range (1 * 1) (1 / 2) X ltac:(lra)).
  assert (M1 := depth_mean_split 1 1 2 (1 / 2) ltac:(lra) ltac:(lra)). cbv zeta in M1.
  assert (ML : 1 / 2 < mp_value (1 * 1) (1 / 2) < 1).
  { unfold mp_value. assert (E := exp_neg_lt1 _ X). assert (P := exp_pos (- (1 * 1))). assert (S := exp_neg_step _ X). assert (T := exp_neg_lt _ X).
    set (e := exp (- (1 * 1))) in *. set (k := 1 / (1 * 1) - e / (1 - e)).
    assert (K : k * (1 - e) = 1 - 2 * e) by (unfold k; field; lra). split; nra. }
  set (p := (1 - exp (- (1 * 1))) / (1 - exp (- (1 * 2)))) in *. set (mp := mp_value (1 * 1) (1 / 2)) in *.
  set (c := p * mp + (1 - p)) in *.
  assert (V1 := depth_variance_split 1 1 2 (1 / 2) c ltac:(lra) ltac:(lra)). cbv zeta in V1. fold p mp in V1.
  set (V := p * (vp_value (1 * 1) (1 / 2) + (mp - c) ^ 2) + (1 - p) * (1 - c) ^ 2) in *.
  assert (VP : 0 <= V).
  { unfold V. apply Rplus_le_le_0_compat; apply Rmult_le_pos; try lra; [|apply pow2_ge_0].
    apply Rplus_le_le_0_compat; [apply VR | apply pow2_ge_0]. }
  exists c, V, (two_values c V). destruct (two_values_moments c V VP) as (T1 & T2 & T3).
  split; [apply two_gamma_like|]. split; [exact M1|]. split; [exact V1|].
  split; [split; [unfold counts; cbn [map fst snd]; entries; lra | unfold expect; cbn; ring]|].
  split; [unfold mean, expect; cbn; ring|].
  split; [unfold variance, mean, expect; cbn; ring|]. split; [exact T1|]. split; [exact T2|]. split; [exact T3|].
  unfold c; split; nra.
Qed.
