(** Single rows of the tables that the package contains (C103). *)
From Coq Require Import Reals Lra Psatz List Bool ZArith Lia Sorting.Sorted.
From Verif Require Import Num NumLemmas ExtNum MaterialModel RamanathanModel PairData PairTableModel PairTableSpec SiliconSpec SiliconProofs
  MonteCarloMeanSpec MonteCarloMeanProofs PairTableProofs PairYieldProofs PairDrawProofs PairMethodProofs.
Import ListNotations.
Open Scope R_scope.
Open Scope opt_scope.

Definition no_data : data_row := (0, [], [], [])%Z.
Definition data_0K (d : data_row) : list Z := let '(_, p, _, _) := d in p.
Definition data_100K (d : data_row) : list Z := let '(_, _, p, _) := d in p.
Definition data_300K (d : data_row) : list Z := let '(_, _, _, p) := d in p.
Lemma row_data : forall d, row_energy (row_of_data d) = IZR (data_energy d) / 100 /\ row_0K (row_of_data d) = map probability (data_0K d) /\
  row_100K (row_of_data d) = map probability (data_100K d) /\ row_300K (row_of_data d) = map probability (data_300K d).
Proof. intros [[[e p0] p1] p3]. repeat split. Qed.

Definition at_26 : data_row := nth 30 pair_data no_data.
Definition at_50 : data_row := nth 978 pair_data no_data.
Lemma data_length : length pair_data = 979%nat.
Proof. vm_compute. reflexivity. Qed.
Lemma in_26 : In (row_of_data at_26) shipped.
Proof. apply in_map, nth_In. rewrite data_length. lia. Qed.
Lemma in_50 : In (row_of_data at_50) shipped.
Proof. apply in_map, nth_In. rewrite data_length. lia. Qed.
Lemma values_26 : data_energy at_26 = 260%Z /\ zm1 (data_0K at_26) <> 0%Z /\ zm1 (data_100K at_26) = 100011%Z /\ zm1 (data_300K at_26) = 100054%Z /\
  length (data_100K at_26) = 20%nat /\ length (data_300K at_26) = 20%nat.
Proof. vm_compute. repeat split. discriminate. Qed.
Lemma values_50 : data_energy at_50 = 5000%Z /\ zm1 (data_0K at_50) = 1343169%Z /\ zm1 (data_100K at_50) = 1346891%Z /\ zm1 (data_300K at_50) = 1371603%Z.
Proof. vm_compute. repeat split. Qed.

Lemma energy_node : forall T d e, In (row_of_data d) shipped -> IZR (data_energy d) / 100 = e -> forall w, hc / w = e ->
  energy_pair shipped w T = along_temperature T (pair_cost e (map probability (data_0K d))) (pair_cost e (map probability (data_100K d)))
    (pair_cost e (map probability (data_300K d))).
Proof.
  intros T d e I E w X. destruct (row_data d) as (R & R0 & R1 & R3). unfold energy_pair.
  rewrite (einterp_node _ (photon_energy w) (snd (row_energy_pair T (row_of_data d)))).
  - unfold row_energy_pair. cbn [snd]. rewrite R, R0, R1, R3, E. reflexivity.
  - apply in_map_iff. exists (row_of_data d). split; [|exact I]. unfold row_energy_pair, photon_energy. cbn [snd]. f_equal. rewrite R, E. symmetry. exact X.
  - apply (map_sorted (fun r => snd (row_energy_pair T r))), shipped_sorted.
Qed.

Lemma cost_value : forall e l z, zm1 l = z -> (z <> 0)%Z -> pair_cost e (map probability l) = Fin (e / (IZR z / 100000)).
Proof.
  intros e l z E N. unfold pair_cost, ediv_pos. rewrite moment1_real, E. destruct (Req_EM_T (IZR z / 100000) 0) as [Z|Z]; [|reflexivity].
  exfalso. apply N, eq_IZR. lra.
Qed.

(** ** The end of the tables *)
Lemma tables_end : forall w T, hc / w = 50 -> 0 <= T <= 300 ->
  exists e, energy_pair shipped w T = Fin e /\ Rabs (e - pair_energy_law (energy_bandgap T)) <= 0.002 * e.
Proof.
  intros w T X H. destruct values_50 as (VE & V0 & V1 & V3).
  rewrite (energy_node T at_50 50 in_50 ltac:(rewrite VE; lra) w X).
  rewrite (cost_value 50 _ _ V0), (cost_value 50 _ _ V1), (cost_value 50 _ _ V3) by discriminate.
  rewrite along_line by exact H. eexists. split; [reflexivity|].
  set (a := 50 / (1343169 / 100000)). set (b := 50 / (1346891 / 100000)). set (c := 50 / (1371603 / 100000)).
  assert (A : 3.7225 < a < 3.7226) by (unfold a; lra). assert (B : 3.7122 < b < 3.7123) by (unfold b; lra). assert (C : 3.6453 < c < 3.6454) by (unfold c; lra).
  unfold pair_energy_law, energy_bandgap.
  set (u := T * T / (T + 655)). replace (4.9e-4 * (T * T) / (T + 655)) with (4.9e-4 * u) by (unfold u; field; lra).
  assert (U : u * (T + 655) = T * T) by (unfold u; field; lra). clearbody u a b c.
  unfold broken_line. destruct (Rlt_dec T 100) as [L|L].
  - set (k := T / 100). assert (K : 0 <= k < 1) by (unfold k; lra). assert (TK : T = 100 * k) by (unfold k; lra). clearbody k. subst T.
    assert (U0 : 0 <= u).
    { apply Rmult_le_reg_r with (100 * k + 655); [lra|]. nra. }
    assert (U1 : u <= 13.3 * k).
    { apply Rmult_le_reg_r with (100 * k + 655); [lra|]. nra. }
    assert (U2 : 24.7 * k - 11.5 <= u).
    { apply Rmult_le_reg_r with (100 * k + 655); [lra|]. rewrite U. assert (Q := Rle_0_sqr (k - 0.998)). unfold Rsqr in Q. nra. }
    assert (P1 : 0.0102 * k <= (a - b) * k) by (apply Rmult_le_compat_r; lra).
    assert (P2 : (a - b) * k <= 0.0104 * k) by (apply Rmult_le_compat_r; lra).
    replace ((b - a) * k) with (- ((a - b) * k)) by ring. apply Rabs_le. lra.
  - set (k := (T - 100) / 200). assert (K : 0 <= k <= 1) by (unfold k; lra). assert (TK : T = 100 + 200 * k) by (unfold k; lra). clearbody k. subst T.
    assert (U1 : u <= 13.25 + 81 * k).
    { apply Rmult_le_reg_r with (100 + 200 * k + 655); [lra|]. nra. }
    assert (U2 : 5.45 + 82.62 * k <= u).
    { apply Rmult_le_reg_r with (100 + 200 * k + 655); [lra|]. rewrite U. assert (Q := Rle_0_sqr (k - 0.5)). unfold Rsqr in Q. nra. }
    assert (U3 : 13.24 + 49.4 * k <= u).
    { apply Rmult_le_reg_r with (100 + 200 * k + 655); [lra|]. rewrite U. nra. }
    assert (P1 : 0.0668 * k <= (b - c) * k) by (apply Rmult_le_compat_r; lra).
    assert (P2 : (b - c) * k <= 0.067 * k) by (apply Rmult_le_compat_r; lra).
    replace ((c - b) * k) with (- ((b - c) * k)) by ring. apply Rabs_le.
    destruct (Rle_dec k 0.18); lra.
Qed.

(** ** Between the temperatures of the tables *)
Lemma methods_differ : exists w T p y, 1.2 <= hc / w <= 50 /\ 0 <= T <= 300 /\
  osequence (map (probability_of_pairs shipped (photon_energy w) T) (seq 0 (num_electron shipped))) = Some p /\
  quantum_yield_ideal shipped w T = Some y /\ y <> moment1 p.
Proof.
  destruct values_26 as (VE & V0 & V1 & V3 & L1 & L3). destruct (row_data at_26) as (R & R0 & R1 & R3).
  assert (X : hc / (hc / 2.6) = 2.6) by (assert (hc <> 0) by (unfold hc; lra); field; repeat split; (assumption || lra)).
  set (v := mix (1 / 2) (fun k => nth k (map probability (data_100K at_26)) 0) (fun k => nth k (map probability (data_300K at_26)) 0)).
  exists (hc / 2.6), 200, (values v), (2.6 / (1 / 2 * (2.6 / (100011 / 100000)) + 1 / 2 * (2.6 / (100054 / 100000)))).
  split; [lra|]. split; [lra|]. split; [|split].
  - rewrite shipped_electrons. rewrite (map_ext _ (fun k => Some (v k))).
    + rewrite <- (map_map v Some). apply osequence_some.
    + intros k. rewrite (probability_rows shipped _ 200 k (fun r => 1 / 2 * nth k (row_100K r) 0 + 1 / 2 * nth k (row_300K r) 0)).
      * apply interp_node; [|apply (map_sorted (fun r => 1 / 2 * nth k (row_100K r) 0 + 1 / 2 * nth k (row_300K r) 0)), shipped_sorted].
        apply in_map_iff. exists (row_of_data at_26). split; [|exact in_26]. unfold photon_energy. rewrite X, R, R1, R3, VE. unfold v, mix. f_equal; lra.
      * intros r. cbn [interp interp_from]. destruct (Rle_dec 200 0); [lra|]. destruct (Rle_dec 200 100); [lra|]. destruct (Rle_dec 200 300); [|lra].
        rewrite odiv_nz by lra. cbn [obind]. f_equal. field.
  - unfold quantum_yield_ideal. rewrite (energy_node 200 at_26 2.6 in_26 ltac:(rewrite VE; lra) (hc / 2.6) X).
    rewrite (cost_value 2.6 _ _ eq_refl V0), (cost_value 2.6 _ _ V1), (cost_value 2.6 _ _ V3) by discriminate.
    rewrite along_line by lra. unfold broken_line. destruct (Rlt_dec 200 100); [lra|].
    unfold photon_energy. rewrite X. cbn [ediv]. destruct (Req_EM_T _ 0) as [Z|Z]; [lra|]. cbn [to_opt]. f_equal. f_equal. field.
  - unfold v. rewrite mix_moment, !values_nth by (rewrite map_length; assumption). rewrite !moment1_real, V1, V3. lra.
Qed.

Lemma shipped_rows : forall r, In r shipped -> 1.2 <= row_energy r -> good_row r.
Proof.
  intros r I E. rewrite shipped_head in I. destruct I as [<-|[<-|I]].
  - rewrite none_energy in E. lra.
  - rewrite edge_energy in E. lra.
  - apply rows_good; exact I.
Qed.
Lemma shipped_distributions : forall r, In r shipped -> 1.2 <= row_energy r ->
  distribution (row_0K r) /\ distribution (row_100K r) /\ distribution (row_300K r).
Proof. intros r I E. destruct (shipped_rows r I E) as [_ [_ ? _ _ _] [_ ? _ _ _] [_ ? _ _ _]]. auto. Qed.
Lemma infrared_both : forall photons w a W Dp D wx wy h0 T d, 0 < w -> 0 <= T <= 300 -> hc / w <= 1.1 -> 0 <= dr_pair d ->
  quantum_yield_ideal shipped w T = Some 0 /\
  exists px, measured_pixel shipped photons w a W Dp D wx wy h0 T = Some px /\ pair_count px d = Some 20%Z.
Proof.
  intros photons w a W Dp D wx wy h0 T d P H X U. split; [apply infrared_yield; assumption|]. apply infrared; assumption.
Qed.
