From Coq Require Import Reals Lra Lia List Bool String.
From Coquelicot Require Import Coquelicot.
From Verif Require Import Num NumLemmas Vec ComplexModel LayerModel LayerProofs RamanathanModel PairTableModel SensorModel QuantumModel DiffusionModel TableModel ChemicalModel
  QuantumSpec QuantumMethodProofs ChemicalSpec ChemicalProofs ChemicalSensorProofs PairMethodProofs FactoryModel FactorySpec FactoryProofs.
Import ListNotations.
Open Scope R_scope.

(** A sensor like that of the guess on 14 micrometers of silicon, and what it would measure at 304 Angstrom. *)
Definition known : parameters := (50, 2317, 0, 0.21).
Definition thick : depletion_model := mkDepletion 86550 150000 160000.
Definition thin : depletion_model := mkDepletion 35520 80000 160000.

Lemma known_efficiency : exists e, material_eqe (sm_detector (with_parameters 140000 thick 300 known)) 304 None (RtoC 1) None = Some e.
Proof.
  destruct (shipped_efficiency 50 2317 140000 0.21 300 304 1 1) as (_ & _ & e & _ & _ & E & _); try lra.
  exists e. unfold material_eqe. rewrite incidence_default. unfold with_parameters, known, nanometer. replace (0 * 10) with 0 by ring. exact E.
Qed.

Lemma known_best : exists e, finds_best (fun _ _ => known) 140000 thick 300 [(304, e)] /\
  is_residual (fit_eqe (fun _ _ => known) 140000 thick [(304, e)] 300) [(304, e)] 0.
Proof.
  destruct known_efficiency as (e & E). exists e.
  assert (R : is_residual (with_parameters 140000 thick 300 known) [(304, e)] 0).
  { exists [e]. split; [constructor; [exact E | constructor] |]. split; [discriminate |]. split; [lra |]. unfold rsum. cbn. ring. }
  split; [| rewrite fit_is; exact R].
  intros f g _. split; [unfold within, known; repeat split; lra |]. intros y r _ (es & _ & _ & P & _). exists 0. split; [exact R | exact P].
Qed.

(** An improved depletion model does not reach the ready-made sensor. *)
Lemma stale_depletion : forall maker, In maker makers -> exists minimize measured T,
  let old := maker minimize thin measured in let new := maker minimize thick measured in
  let '(a, w) := factory new T (snd (factory old T (mkWorld None []))) in
  nth_error (w_heap w) a = Some (set_temperature T (p_result old)) /\ set_temperature T (p_result old) <> set_temperature T (p_result new).
Proof.
  intros maker M. exists (fun _ g => g), [(304, 0.5)], 200. intros old new.
  assert (E : p_text old = p_text new) by (unfold old, new; destruct M as [<- | [<- | [<- | []]]]; reflexivity).
  assert (D : sm_depletion (p_result old) = Some thin /\ sm_depletion (p_result new) = Some thick)
    by (unfold old, new; destruct M as [<- | [<- | [<- | []]]]; split; reflexivity).
  pose proof (factory_stale old new 200 200 E) as H. cbv zeta in H. clearbody old new.
  destruct (factory new 200 (snd (factory old 200 (mkWorld None [])))) as [a w]. split; [exact H |].
  intros Z. apply (f_equal sm_depletion) in Z. unfold set_temperature in Z. cbn [sm_depletion] in Z. rewrite (proj1 D), (proj2 D) in Z.
  apply (f_equal (option_map dm_thickness)) in Z. cbn in Z. injection Z. lra.
Qed.

(** Without a depletion model there is no signal, although no signal depends on it. *)
Lemma default_fails : exists q photons w direction y, physical q /\ 0 < photons /\ 0 < w /\ 0 < y /\
  (forall d, sensor_signal shipped (mkSensorMaterial q (Some d)) photons w direction = Returns (Some y)) /\
  sensor_signal shipped (mkSensorMaterial q None) photons w direction = AttributeError.
Proof.
  destruct (silicon_absorbs 304 ltac:(lra)) as (n & k & EI & N & _).
  assert (NZ : chemical_index silicon_table 304 <> RtoC 0) by (unfold chemical_index; rewrite EI; intros Z; injection Z; lra).
  destruct (signal_defined 50 2317 140000 0.21 300 10 304 1 1 _ ltac:(lra) ltac:(lra) ltac:(lra) ltac:(lra) ltac:(lra) ltac:(lra) ltac:(lra) ltac:(lra) ltac:(lra) ltac:(lra)
    (snell_value _ _ _ NZ)) as (y & c & Y & C & _ & S).
  exists (shipped_detector 50 2317 140000 0.21 0 0 300), 10, 304. eexists. exists (y * c * 10).
  split; [unfold physical; cbn; repeat split; lra |]. split; [lra |]. split; [lra |]. split.
  - destruct (PairMethodProofs.methods_agree 1 304 1 1 1 1 1 1 1 300 ltac:(lra) ltac:(unfold hc; lra) ltac:(lra) ltac:(lra)) as (_ & y' & m & _ & _ & Y' & _ & _ & M & B).
    rewrite Y' in Y. assert (E : y' = y) by congruence. subst y'. apply Rabs_le_between in B. 
    apply Rmult_lt_0_compat; [apply Rmult_lt_0_compat; lra | lra].
  - split; [intros d; unfold sensor_signal, with_depletion; cbn [sm_depletion sm_detector]; f_equal; exact S | reflexivity].
Qed.

Lemma factory_example : exists a b, let p := e2v_ccd97 (fun _ _ => known) thick [(304, 0.5)] in
  let w := snd (factory p 300 (mkWorld None [])) in
  let w' := snd (factory p 200 (assign 0 (set_temperature 100) w)) in
  nth_error (w_heap w') 0 = Some a /\ nth_error (w_heap w') 1 = Some b /\ dt_temperature (sm_detector a) = 100 /\ dt_temperature (sm_detector b) = 200 /\
  dt_implant (sm_detector a) = 2317 /\ dt_substrate (sm_detector b) = 140000.
Proof. do 2 eexists. intros p w w'. split; [reflexivity |]. split; [reflexivity |]. repeat split; reflexivity. Qed.
