(** Theorems on the approximate distribution of measured electrons: C77. *)
From Coq Require Import Reals List.
From Verif Require Import Num RamanathanModel SensorModel SensorSpec DistSpec ApproxModel ApproxSpec ApproxProofs.
Import ListNotations.
Open Scope R_scope.

(** The fraction of partially collected photons is the fraction of the photons absorbed in
    the substrate that are absorbed in the implant layer. *)
Theorem C77_fraction : forall a W D, 0 < a -> 0 < W <= D ->
  exists p, fraction_partial a W D = Some p /\ 0 < p <= 1 /\ is_truncated_mean a D (in_implant W) p.
Proof.
  intros a W D A L. eexists. split; [apply fraction_value; [exact A | apply (Rlt_le_trans _ W); apply L]|].
  split; [exact (fraction_range a W D A L) | exact (fraction_mean a W D A L)].
Qed.
Print Assumptions C77_fraction.

(** The mean and the variance of the collection efficiency inside of the implant layer. *)
Theorem C77_efficiency : forall a W n0, 0 < a -> 0 < W ->
  exists m v, mean_p (a * W) n0 = Some m /\ var_p (a * W) n0 = Some v /\
    is_truncated_mean a W (differential_efficiency n0 W) m /\
    is_truncated_mean a W (fun z => (differential_efficiency n0 W z - m) ^ 2) v.
Proof.
  intros a W n0 A P. do 2 eexists. split; [exact (mean_p_value _ n0 (Rmult_lt_0_compat _ _ A P))|].
  split; [exact (var_p_value _ n0 (Rmult_lt_0_compat _ _ A P))|].
  split; [exact (ramp_mean a W n0 A P) | exact (ramp_variance a W n0 A P)].
Qed.
Print Assumptions C77_efficiency.

(** The mean is that of the exact distribution, and the variance differs by at most half an
    electron squared, for any number of photons; only whole numbers of electrons are drawn.
    The exact distribution is the sum over the photons of a number of pairs, thinned by the
    collection efficiency at the depth of the photon. *)
Theorem C77_moments_partial : forall gamma n a W D n0 q f c V pairs eff, like_gamma gamma ->
  0 < a -> 0 < W <= D -> 0 <= n0 <= 1 -> 0 < q -> 0 <= f <= 1 ->
  is_truncated_mean a D (differential_efficiency n0 W) c ->
  is_truncated_mean a D (fun z => (differential_efficiency n0 W z - c) ^ 2) V ->
  is_dist (counts pairs) -> DistSpec.mean (counts pairs) = q -> variance (counts pairs) = f * q ->
  is_dist eff -> DistSpec.mean eff = c -> variance eff = V ->
  exists d, electrons_measured_approx gamma n a W D n0 q f = Some d /\ is_dist d /\ whole d /\
    DistSpec.mean d = DistSpec.mean (iid_sum n (thinned pairs eff)) /\
    variance (iid_sum n (thinned pairs eff)) - 1 / 6 <= variance d <= variance (iid_sum n (thinned pairs eff)) + 1 / 2.
Proof. exact approx_moments. Qed.
Print Assumptions C77_moments_partial.

(** Without an implant layer, the default of [BackIlluminatedSiliconSensorMaterial], there is
    no result (NaN probabilities), although every charge is collected. *)
Theorem C77_no_implant_refuted : forall gamma n a D n0 q f, electrons_measured_approx gamma n a 0 D n0 q f = None.
Proof. exact approx_no_implant. Qed.
Print Assumptions C77_no_implant_refuted.

Example C77_nonvacuous : exists c V eff, like_gamma two_gamma /\
  is_truncated_mean 1 2 (differential_efficiency (1 / 2) 1) c /\
  is_truncated_mean 1 2 (fun z => (differential_efficiency (1 / 2) 1 z - c) ^ 2) V /\
  is_dist (counts [(1, 2%nat)]) /\ DistSpec.mean (counts [(1, 2%nat)]) = 2 /\ variance (counts [(1, 2%nat)]) = 0 * 2 /\
  is_dist eff /\ DistSpec.mean eff = c /\ variance eff = V /\ 1 / 2 < c < 1.
Proof. exact approx_example. Qed.
