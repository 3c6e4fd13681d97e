(** C121: every measured pixel has an uncertainty. *)
From Coq Require Import Reals List Bool Lra.
From Coquelicot Require Import Coquelicot.
From Verif Require Import Num RamanathanModel SensorModel SensorSpec SensorExamples ReadoutModel ReadoutProofs.
Open Scope R_scope.

(** Missing for the full claim: pixels that the read noise makes negative.  They are exactly the
    pixels without an uncertainty. *)
Theorem C121_number_partial : forall tb s w d, working tb (sn_material s) w d ->
  (sn_material s <> Ideal -> exists F, fano_factor tb w 300 = Some F /\ 0 <= F) -> 0 <= sn_read_noise s ->
  forall signal z, (exists t, uncertainty_noisy tb s signal z w d = Some t) <-> 0 <= INR signal + sn_read_noise s * z.
Proof. exact noisy_iff. Qed.
Print Assumptions C121_number_partial.

(** Without read noise every pixel has one. *)
Theorem C121_quiet_partial : forall tb s w d, working tb (sn_material s) w d ->
  (sn_material s <> Ideal -> exists F, fano_factor tb w 300 = Some F /\ 0 <= F) -> sn_read_noise s = 0 ->
  forall signal z, exists t, uncertainty_noisy tb s signal z w d = Some t.
Proof. exact quiet. Qed.
Print Assumptions C121_quiet_partial.

(** Of a dark pixel's draw and the opposite draw, which is as likely, exactly one leaves it without
    an uncertainty: half of the dark pixels have none. *)
Theorem C121_dark : forall tb s w d, working tb (sn_material s) w d ->
  (sn_material s <> Ideal -> exists F, fano_factor tb w 300 = Some F /\ 0 <= F) -> 0 < sn_read_noise s ->
  forall z, z <> 0 ->
  ((exists t, uncertainty_noisy tb s 0 z w d = Some t) <-> uncertainty_noisy tb s 0 (- z) w d = None).
Proof. exact dark_half. Qed.
Print Assumptions C121_dark.

(** With read noise no signal is bright enough to be safe. *)
Theorem C121_bright : forall tb s w d, working tb (sn_material s) w d ->
  (sn_material s <> Ideal -> exists F, fano_factor tb w 300 = Some F /\ 0 <= F) -> 0 < sn_read_noise s ->
  forall signal, exists z0, z0 <= 0 /\ forall z, z < z0 -> uncertainty_noisy tb s signal z w d = None.
Proof. exact too_low. Qed.
Print Assumptions C121_bright.

Theorem C121_refuted : exists tb s w d signal z e, working tb (sn_material s) w d /\ 0 <= sn_read_noise s /\
  expose_noisy s signal z = Some e /\ uncertainty_noisy tb s signal z w d = None.
Proof.
  exists table_a, (sensor_si 1), 1, (RtoC 1), 3%nat, (-1), (-1). split; [exact working_a|]. split; [cbn; lra|].
  assert (E : expose_noisy (sensor_si 1) 3 (-1) = Some (-1)).
  { unfold expose_noisy. cbn [sensor_si sn_read_noise]. destruct (Rlt_dec 4 0); [lra|]. f_equal. cbn. ring. }
  split; [exact E|]. destruct (uncertainty_noisy table_a (sensor_si 1) 3 (-1) 1 (RtoC 1)) as [t|] eqn:U; [|reflexivity]. exfalso.
  assert (H : 0 <= INR 3 + sn_read_noise (sensor_si 1) * -1).
  { apply (noisy_iff table_a (sensor_si 1) 1 (RtoC 1) working_a); [intros _; exists 0; split; [apply fano_300|lra]|cbn; lra|eauto]. }
  cbn in H. lra.
Qed.
Print Assumptions C121_refuted.

Example C121_nonvacuous : working table_a (sn_material (sensor_si 1)) 1 (RtoC 1) /\
  (exists F, fano_factor table_a 1 300 = Some F /\ 0 <= F) /\ 0 < sn_read_noise (sensor_si 1) /\
  exists t, uncertainty_noisy table_a (sensor_si 1) 3 (1/2) 1 (RtoC 1) = Some t.
Proof.
  split; [exact working_a|]. split; [exists 0; split; [apply fano_300|lra]|]. split; [cbn; lra|].
  apply noisy_iff; [exact working_a|intros _; exists 0; split; [apply fano_300|lra]|cbn; lra|cbn; lra].
Qed.
