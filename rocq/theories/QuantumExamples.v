(** A sensor for the non-vacuity examples. *)
From Coq Require Import Reals List Bool ZArith Lra Lia.
From Coquelicot Require Import Coquelicot.
From Verif Require Import Vec Num RayModel ComplexModel ComplexLemmas LayerModel LayerSpec LayerCaseProofs RamanathanModel SensorModel SensorExamples QuantumModel QuantumSpec QuantumProofs.
Open Scope R_scope.

Definition glassy_sensor : detector := mkDetector 1 2 40 (1 / 2) (fun _ => RtoC 2) (fun _ => (1, 1)) 0 0 300.
Definition glassy_ray : ray := mkRay (2 * PI) (Some (V3 0 0 0)) (Some (V3 0 0 1)) (Some 1) 0 1 true.

Lemma glassy_meets : smooth_sensor glassy_sensor (2 * PI) 1 1 /\ clear_oxide glassy_sensor (2 * PI) 1 1 /\ opaque_substrate glassy_sensor (2 * PI) 1 1 /\
  is_attenuation (dt_n_substrate glassy_sensor (2 * PI)) (2 * PI) 1 1 2 /\ 0 < dt_implant glassy_sensor /\ 0 <= dt_eta0 glassy_sensor <= 1 /\
  r_direction glassy_ray = Some (V3 0 0 1) /\ r_attenuation glassy_ray = 0 /\
  smooth_sensor glassy_sensor (r_wavelength glassy_ray) (r_index glassy_ray) (- dot (V3 0 0 1) (V3 0 0 (-1))).
Proof.
  assert (P := PI_RGT_0).
  assert (S : smooth_sensor glassy_sensor (2 * PI) 1 1).
  { unfold smooth_sensor. cbn [glassy_sensor dt_oxide dt_substrate dt_rough_oxide dt_rough_substrate dt_n_oxide dt_n_substrate].
    assert (O1 : off_critical (RtoC (1 ^ 2 * (1 - 1 ^ 2))) (RtoC 2)) by (intros E; apply (f_equal Re) in E; cbn in E; lra).
    assert (O2 : off_critical (RtoC (1 ^ 2 * (1 - 1 ^ 2))) (1, 1)) by (intros E; apply (f_equal Im) in E; cbn in E; lra).
    repeat (split; [lra || reflexivity || (split; cbn; lra) || exact O1 || exact O2|]). exact O2. }
  assert (A : is_attenuation (1, 1) (2 * PI) 1 1 2).
  { exists (1, 1). split; [cnum|]. cbn. split; [lra|]. split; [lra|]. field. lra. }
  assert (A0 : is_attenuation (RtoC 2) (2 * PI) 1 1 0).
  { exists (RtoC 2). split; [cnum|]. cbn. split; [lra|]. split; [lra|]. field. lra. }
  split; [exact S|]. split.
  { intros a H. cbn [glassy_sensor dt_n_oxide dt_oxide] in *. rewrite (attenuation_unique _ _ _ _ _ _ H A0). replace (0 * 1 / 2) with 0 by lra. rewrite exp_0. lra. }
  split.
  { intros a H. cbn [glassy_sensor dt_n_substrate dt_substrate] in *. rewrite (attenuation_unique _ _ _ _ _ _ H A). replace (2 * 40 / 2) with 40 by lra. exact exp_40. }
  split; [exact A|]. split; [cbn; lra|]. split; [cbn; lra|]. split; [reflexivity|]. split; [reflexivity|].
  replace (- dot (V3 0 0 1) (V3 0 0 (-1))) with 1 by (unfold dot; cbn; ring). exact S.
Qed.

Definition glassy_cold : detector := mkDetector 1 2 40 (1 / 2) (fun _ => RtoC 2) (fun _ => (1, 1)) 0 0 0.

Lemma cold_meets :
  smooth_sensor glassy_cold 1 1 1 /\ is_attenuation (dt_n_substrate glassy_cold 1) 1 1 1 (4 * PI) /\ 0 < dt_implant glassy_cold /\
  0 <= dt_eta0 glassy_cold <= 1 /\ arrives None None 1 /\ arrives (Some (V3 0 0 1)) (Some (V3 0 0 (-1))) 1 /\
  quantum_yield_ideal table_a 1 (dt_temperature glassy_cold) = Some (INR 2) /\
  quantum_efficiency_effective glassy_cold 1 (RtoC 1) (RtoC 1) <> None.
Proof.
  assert (P := PI_RGT_0).
  assert (S : smooth_sensor glassy_cold 1 1 1).
  { unfold smooth_sensor. cbn [glassy_cold dt_oxide dt_substrate dt_rough_oxide dt_rough_substrate dt_n_oxide dt_n_substrate].
    assert (O1 : off_critical (RtoC (1 ^ 2 * (1 - 1 ^ 2))) (RtoC 2)) by (intros E; apply (f_equal Re) in E; cbn in E; lra).
    assert (O2 : off_critical (RtoC (1 ^ 2 * (1 - 1 ^ 2))) (1, 1)) by (intros E; apply (f_equal Im) in E; cbn in E; lra).
    repeat (split; [lra || reflexivity || (split; cbn; lra) || exact O1 || exact O2|]). exact O2. }
  assert (A : is_attenuation (dt_n_substrate glassy_cold 1) 1 1 1 (4 * PI)).
  { change (is_attenuation (1, 1) 1 1 1 (4 * PI)). exists (1, 1). split; [cnum|]. cbn. split; [lra|]. split; [lra|]. field. }
  split; [exact S|]. split; [exact A|]. split; [cbn; lra|]. split; [cbn; lra|]. split; [reflexivity|].
  split; [cbn; unfold dot; cbn; ring|]. split; [exact yield_a|].
  destruct (eqe_value glassy_cold 1 1 1 (4 * PI) S A) as (xs & xp & c & _ & _ & _ & V & _); [lra|cbn; lra|cbn; lra|].
  rewrite V. discriminate.
Qed.
