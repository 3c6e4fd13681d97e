From Coq Require Import Reals Lra List Sorting.Sorted.
From Coquelicot Require Import Coquelicot.
From Verif Require Import Num Vec RayModel ComplexModel LayerModel LayerProofs RamanathanModel PairTableModel SensorModel QuantumModel TableModel ChemicalModel
  ChemicalSpec ChemicalProofs ChemicalSensorProofs PairEdgeProofs.
Import ListNotations.
Open Scope R_scope.

Lemma clear_photon : exists w, 0 < w /\ forall oxide implant substrate eta0 temperature photons, 0 <= temperature <= 300 ->
  quantum_yield_ideal shipped w temperature = Some 0 /\
  quantum_efficiency_effective (shipped_detector oxide implant substrate eta0 0 0 temperature) w (RtoC 1) (RtoC 1) = None /\
  exists d, snells_law_scalar (RtoC 1) (RtoC 1) (chemical_index silicon_table w) = Some d /\
    material_signal shipped (shipped_silicon implant eta0 temperature) photons w d = None.
Proof.
  exists 15000. split; [lra|]. intros o i s e T p HT.
  destruct (infrared_both 0 15000 0 0 0 0 0 0 0 T (mkDraws 0 (fun _ _ => 0) 0 (fun n _ => n) 0 0 (fun _ _ _ => 0) (fun _ _ _ => 0)) ltac:(lra) HT ltac:(unfold hc; lra) ltac:(cbn; lra)) as [Y _].
  destruct (clear_sensor o i s e 0 0 T 15000 1 p ltac:(lra) ltac:(lra)) as (Q & _ & D). auto.
Qed.

Lemma chemical_example : 0 <= 50 /\ 0 < 2000 /\ 0 <= 160000 /\ 0 <= 0.21 <= 1 /\ 0 < 304 /\ 304 < 11199.6 /\ 0 < 1 /\ 0 < 0.8 <= 1 /\
  (exists d, snells_law_scalar (RtoC 0.8) (RtoC 1) (chemical_index silicon_table 304) = Some d) /\
  11199.6 <= 15000 <= 25001 /\ silicon_table <> [] /\
  StronglySorted (fun a b => nk_wavelength a < nk_wavelength b) silicon_table /\ length silicon_table = 1146%nat /\
  (let a := mkNk 1 1 0 in let b := mkNk 2 2 0 in let c := mkNk 2 3 0 in
   StronglySorted (fun a b => nk_wavelength a <= nk_wavelength b) ([] ++ a :: b :: c :: [mkNk 3 1 1]) /\ nk_wavelength a < nk_wavelength b /\
   nk_wavelength b = nk_wavelength c /\ nk_n b <> nk_n c /\ (forall r, In r [mkNk 3 1 1] -> nk_wavelength r <> nk_wavelength c)).
Proof.
  do 4 (split; [lra|]). do 4 (split; [lra|]). split.
  { destruct (silicon_absorbs 304 ltac:(lra)) as (n & k & E & N & _). unfold chemical_index. rewrite E. eexists. apply snell_value.
    intros Z. injection Z. lra. }
  split; [lra|]. split; [apply table_some, silicon_data_some|]. split; [exact silicon_sorted|].
  split; [unfold silicon_table; rewrite map_length; vm_compute; reflexivity|]. cbv zeta. split.
  { cbn [app]. repeat constructor; cbn; lra. }
  cbn. repeat split; try lra. intros r [<- | []]. cbn. lra.
Qed.
