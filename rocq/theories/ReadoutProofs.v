(** When a measured pixel has an uncertainty. *)
From Coq Require Import Reals List Bool Lra Lia.
From Coquelicot Require Import Coquelicot.
From Verif Require Import Vec Num NumLemmas ComplexModel ComplexLemmas LayerModel LayerProofs RamanathanModel SensorModel SensorSpec SensorCollectProofs SensorProofs SensorStatProofs ReadoutModel.
Open Scope R_scope.
Open Scope opt_scope.

Lemma material_ratio : forall tb m w d, working tb m w d -> (m <> Ideal -> exists F, fano_factor tb w 300 = Some F /\ 0 <= F) ->
  exists v, 0 < v /\ forall e, material_uncertainty tb m e w d = osqrt (v * e).
Proof.
  intros tb [|m] w d K HF; cbn [working material_uncertainty] in *.
  - exists 1. split; [lra|]. intros e. f_equal. ring.
  - destruct K as (W & RD & A & P & E0 & q & Q & QP). destruct HF as (F & HF & FP); [discriminate|].
    destruct (absorption_pos _ _ _ W A) as (a & HA & AP).
    rewrite (vmr_value tb w d _ _ _ _ _ d a q F (snell_identity _ _ (index_nonzero _ _ A) RD) HA AP P E0 Q HF). cbn [obind].
    eexists. split; [|intros e; reflexivity].
    assert (X : 0 < a * si_implant m) by nra. destruct (cce_bounds _ _ X E0) as [_ CP].
    assert (N := vmr_nonneg (a * si_implant m) (si_eta0 m) 0 F X E0 (Rle_refl 0) FP). cbv zeta in N.
    destruct (var_bounds _ _ X E0) as [V0 _].
    assert (Z : 0 <= var_cce (a * si_implant m) (si_eta0 m) / cce (a * si_implant m) (si_eta0 m)) by (apply Rdiv_le_0_compat; lra).
    assert (0 < q * cce (a * si_implant m) (si_eta0 m)) by (apply Rmult_lt_0_compat; assumption).
    assert (0 <= q * (var_cce (a * si_implant m) (si_eta0 m) / cce (a * si_implant m) (si_eta0 m))) by (apply Rmult_le_pos; lra). lra.
Qed.

Section sensor.
Variables (tb : pair_table) (s : imaging_sensor) (w : R) (d : C).
Hypothesis K : working tb (sn_material s) w d.
Hypothesis HF : sn_material s <> Ideal -> exists F, fano_factor tb w 300 = Some F /\ 0 <= F.

Lemma number_iff : forall e, (exists t, sensor_uncertainty tb s e w d = Some t) <-> 0 <= e.
Proof.
  intros e. destruct (material_ratio tb (sn_material s) w d K HF) as (v & V & M). unfold sensor_uncertainty. rewrite M. split.
  - intros [t H]. unfold osqrt in H at 1. destruct (Rle_dec 0 (v * e)) as [L|L]; [|discriminate].
    destruct (Rle_lt_dec 0 e) as [|N]; [assumption|]. exfalso. assert (0 < v * - e) by (apply Rmult_lt_0_compat; lra). lra.
  - intros E. rewrite osqrt_nonneg by (apply Rmult_le_pos; lra). cbn [obind]. eexists. apply osqrt_nonneg.
    assert (A := Rle_0_sqr (sqrt (v * e))). assert (B := Rle_0_sqr (sn_read_noise s)). unfold Rsqr in *. lra.
Qed.
Lemma noisy_iff : 0 <= sn_read_noise s -> forall k z,
  (exists t, uncertainty_noisy tb s k z w d = Some t) <-> 0 <= INR k + sn_read_noise s * z.
Proof.
  intros R k z. unfold uncertainty_noisy, expose_noisy. destruct (Rlt_dec (sn_read_noise s) 0); [lra|]. cbn [obind]. apply number_iff.
Qed.
Lemma quiet : sn_read_noise s = 0 -> forall k z, exists t, uncertainty_noisy tb s k z w d = Some t.
Proof. intros R k z. apply noisy_iff; [lra|]. rewrite R. assert (H := pos_INR k). lra. Qed.
Lemma dark_half : 0 < sn_read_noise s -> forall z, z <> 0 ->
  ((exists t, uncertainty_noisy tb s 0 z w d = Some t) <-> uncertainty_noisy tb s 0 (- z) w d = None).
Proof.
  intros R z Z. rewrite noisy_iff by lra.
  assert (N : uncertainty_noisy tb s 0 (- z) w d = None <-> ~ exists t, uncertainty_noisy tb s 0 (- z) w d = Some t).
  { destruct (uncertainty_noisy tb s 0 (- z) w d); split; try discriminate; try reflexivity; [intros H; exfalso; apply H; eauto|intros _ [t H]; discriminate]. }
  rewrite N, noisy_iff by lra. cbn [INR]. rewrite !Rplus_0_l. split.
  - intros H H'. apply Z. assert (E : sn_read_noise s * z = 0) by lra. apply Rmult_integral in E. destruct E; [lra|assumption].
  - intros H. apply Rnot_le_lt in H. lra.
Qed.
Lemma too_low : 0 < sn_read_noise s -> forall k, exists z0, z0 <= 0 /\ forall z, z < z0 -> uncertainty_noisy tb s k z w d = None.
Proof.
  intros R k. exists (- (INR k / sn_read_noise s)). assert (P := pos_INR k). split.
  - assert (0 <= INR k / sn_read_noise s) by (apply Rdiv_le_0_compat; lra). lra.
  - intros z Z. destruct (uncertainty_noisy tb s k z w d) as [t|] eqn:E; [|reflexivity]. exfalso.
    assert (H : 0 <= INR k + sn_read_noise s * z) by (apply noisy_iff; [lra|eauto]).
    assert (L : sn_read_noise s * z < sn_read_noise s * - (INR k / sn_read_noise s)) by (apply Rmult_lt_compat_l; assumption).
    replace (sn_read_noise s * - (INR k / sn_read_noise s)) with (- INR k) in L by (field; lra). lra.
Qed.
End sensor.
