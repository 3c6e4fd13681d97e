(** Yield and Fano factor from the tables that the package contains (C103). *)
From Coq Require Import Reals Lra Psatz List Bool ZArith Lia Sorting.Sorted.
From Verif Require Import Num NumLemmas ExtNum MaterialModel RamanathanModel PairData PairTableModel PairTableSpec SiliconSpec SiliconProofs
  MonteCarloMeanSpec MonteCarloMeanProofs PairTableProofs.
Import ListNotations.
Open Scope R_scope.
Open Scope opt_scope.

(** ** Interpolation keeps what segments keep *)
Lemma einterp_from_keeps : forall (P : ext -> Prop) right x,
  (forall x0 x1 y0 y1, x0 < x < x1 -> P y0 -> P y1 -> P (e_segment x x0 y0 x1 y1)) ->
  (forall r, right = Some r -> P r) ->
  forall nodes x0 y0, x0 <= x -> P y0 -> List.Forall (fun n => P (snd n)) nodes -> P (einterp_from right x x0 y0 nodes).
Proof.
  intros P right x SEG R nodes. induction nodes as [|[x1 y1] nodes IH]; intros x0 y0 L Y F; cbn [einterp_from];
    destruct (Req_EM_T x x0) as [E|N]; try exact Y.
  - destruct right as [r|]; [apply R; reflexivity | exact Y].
  - inversion F as [|? ? Y1 F']; subst. cbn in Y1. destruct (Rlt_dec x x1) as [K|K].
    + apply SEG; [lra| |]; assumption.
    + apply IH; [lra| |]; assumption.
Qed.

Lemma einterp_keeps : forall (P : ext -> Prop) right x,
  (forall x0 x1 y0 y1, x0 < x < x1 -> P y0 -> P y1 -> P (e_segment x x0 y0 x1 y1)) ->
  (forall r, right = Some r -> P r) ->
  forall nodes, nodes <> [] -> List.Forall (fun n => P (snd n)) nodes -> P (einterp right x nodes).
Proof.
  intros P right x SEG R [|[x0 y0] nodes] N F; [contradiction|]. inversion F as [|? ? Y F']; subst. cbn in Y. cbn [einterp].
  destruct (Rlt_dec x x0); [exact Y|]. apply einterp_from_keeps; try assumption. lra.
Qed.

(** Infinite or at least [lo]. *)
Definition at_least (lo : R) (y : ext) : Prop := y = Inf false \/ exists e, y = Fin e /\ lo <= e.
(** Between two numbers. *)
Definition within (lo hi : R) (y : ext) : Prop := exists e, y = Fin e /\ lo <= e <= hi.

Lemma segment_real : forall x x0 x1 y0 y1, x0 < x < x1 ->
  e_segment x x0 (Fin y0) x1 (Fin y1) = Fin (y0 + (y1 - y0) * ((x - x0) / (x1 - x0))).
Proof.
  intros x x0 x1 y0 y1 H. unfold e_segment. cbn. destruct (Req_EM_T (x1 - x0) 0); [lra|]. cbn. f_equal. field. lra.
Qed.

Lemma fraction : forall x x0 x1, x0 < x < x1 -> 0 < (x - x0) / (x1 - x0) < 1.
Proof.
  intros x x0 x1 H. assert (D : 0 < x1 - x0) by lra. split; [apply Rdiv_lt_0_compat; lra|].
  apply Rmult_lt_reg_r with (x1 - x0); [exact D|]. replace ((x - x0) / (x1 - x0) * (x1 - x0)) with (x - x0) by (field; lra). lra.
Qed.

Lemma neg_false : forall x, 0 < x -> r_neg x = false.
Proof. intros x H. unfold r_neg. destruct (Rlt_dec x 0); [lra|reflexivity]. Qed.
Lemma neg_true : forall x, x < 0 -> r_neg x = true.
Proof. intros x H. unfold r_neg. destruct (Rlt_dec x 0); [reflexivity|lra]. Qed.

Lemma segment_inf_inf : forall x x0 x1, x0 < x < x1 -> e_segment x x0 (Inf false) x1 (Inf false) = Inf false.
Proof. intros. reflexivity. Qed.
Lemma segment_inf_fin : forall x x0 x1 y, x0 < x < x1 -> e_segment x x0 (Inf false) x1 (Fin y) = Inf false.
Proof.
  intros x x0 x1 y H. unfold e_segment. cbn. destruct (Req_EM_T (x1 - x0) 0); [lra|]. rewrite (neg_false (x1 - x0)) by lra. cbn.
  destruct (Req_EM_T (x - x0) 0); [lra|]. rewrite (neg_false (x - x0)) by lra. cbn.
  destruct (Req_EM_T (x - x1) 0); [lra|]. rewrite (neg_true (x - x1)) by lra. reflexivity.
Qed.
Lemma segment_fin_inf : forall x x0 x1 y, x0 < x < x1 -> e_segment x x0 (Fin y) x1 (Inf false) = Inf false.
Proof.
  intros x x0 x1 y H. unfold e_segment. cbn. destruct (Req_EM_T (x1 - x0) 0); [lra|]. rewrite (neg_false (x1 - x0)) by lra. cbn.
  destruct (Req_EM_T (x - x0) 0); [lra|]. rewrite (neg_false (x - x0)) by lra. reflexivity.
Qed.

Lemma at_least_segment : forall lo x x0 x1 y0 y1, x0 < x < x1 -> at_least lo y0 -> at_least lo y1 -> at_least lo (e_segment x x0 y0 x1 y1).
Proof.
  intros lo x x0 x1 y0 y1 H [->|(a & -> & A)] [->|(b & -> & B)].
  - left. apply segment_inf_inf; exact H.
  - left. apply segment_inf_fin; exact H.
  - left. apply segment_fin_inf; exact H.
  - right. rewrite segment_real by exact H. eexists. split; [reflexivity|]. assert (F := fraction _ _ _ H). nra.
Qed.
Lemma within_segment : forall lo hi x x0 x1 y0 y1, x0 < x < x1 -> within lo hi y0 -> within lo hi y1 -> within lo hi (e_segment x x0 y0 x1 y1).
Proof.
  intros lo hi x x0 x1 y0 y1 H (a & -> & A) (b & -> & B). rewrite segment_real by exact H. eexists. split; [reflexivity|].
  assert (F := fraction _ _ _ H). nra.
Qed.

Lemma temperature_keeps : forall (P : ext -> Prop) T a b c,
  (forall x0 x1 y0 y1, x0 < T < x1 -> P y0 -> P y1 -> P (e_segment T x0 y0 x1 y1)) ->
  P a -> P b -> P c -> P (along_temperature T a b c).
Proof.
  intros P T a b c SEG A B C. unfold along_temperature. apply einterp_keeps; [exact SEG|discriminate|discriminate|].
  repeat constructor; assumption.
Qed.

Lemma temperature_closed : forall T y, 0 <= T < 300 -> (y = Inf false \/ exists e, y = Fin e) ->
  along_temperature T (Inf false) (Inf false) y = Inf false.
Proof.
  intros T y H Y. unfold along_temperature. cbn [einterp einterp_from].
  destruct (Rlt_dec T 0); [reflexivity|]. destruct (Req_EM_T T 0); [reflexivity|].
  destruct (Rlt_dec T 100); [apply segment_inf_inf; lra|]. destruct (Req_EM_T T 100); [reflexivity|].
  destruct (Rlt_dec T 300); [|lra]. destruct Y as [->|(e & ->)]; [apply segment_inf_inf|apply segment_inf_fin]; lra.
Qed.

(** ** The energy of a pair *)
Lemma cost_good : forall e p, good_probabilities e p -> at_least 1.1692 (pair_cost e p).
Proof.
  intros e p G. destruct G as [_ _ O C _]. unfold pair_cost, ediv_pos. destruct (Req_EM_T (moment1 p) 0); [lra|].
  right. eexists. split; [reflexivity|exact C].
Qed.

Lemma moment_nothing : moment1 (map probability nothing) = 0.
Proof. rewrite moment1_real. replace (zm1 nothing) with 0%Z by reflexivity. lra. Qed.
Lemma moment_one : moment1 (map probability one_pair) = 1.
Proof. rewrite moment1_real. replace (zm1 one_pair) with 100000%Z by reflexivity. lra. Qed.
Lemma cost_nothing : forall e, pair_cost e (map probability nothing) = Inf false.
Proof. intros e. unfold pair_cost, ediv_pos. rewrite moment_nothing. destruct (Req_EM_T 0 0); [reflexivity|lra]. Qed.
Lemma cost_one : forall e, pair_cost e (map probability one_pair) = Fin e.
Proof.
  intros e. unfold pair_cost, ediv_pos. rewrite moment_one. destruct (Req_EM_T 1 0); [lra|]. f_equal. field.
Qed.

Lemma rows_at_least : forall T, 0 <= T <= 300 -> List.Forall (fun n => at_least (energy_bandgap T) (snd n)) (map (row_energy_pair T) shipped).
Proof.
  intros T H. assert (B := bandgap_between T H). rewrite shipped_head. cbn [map]. constructor; [|constructor].
  - left. cbn [row_energy_pair snd none_row row_of_data row_energy row_0K row_100K row_300K]. rewrite !cost_nothing.
    destruct (Rlt_dec T 300) as [L|L]; [apply temperature_closed; [lra|left; reflexivity]|].
    replace T with 300 by lra. apply (einterp_node None 300 (Inf false)); [cbn; auto | apply three].
  - cbn [row_energy_pair snd edge_row row_of_data row_energy row_0K row_100K row_300K]. rewrite !cost_nothing, cost_one.
    destruct (Rlt_dec T 300) as [L|L].
    + left. apply temperature_closed; [lra|right; eexists; reflexivity].
    + replace T with 300 by lra. right. eexists. split; [apply (einterp_node None 300); [cbn; auto | apply three]|].
      assert (R := bandgap_room). lra.
  - apply (List.Forall_map (row_energy_pair T) (fun n => at_least (energy_bandgap T) (snd n)) (first_row :: rest_rows)).
    apply List.Forall_forall. intros r I. destruct (rows_good r I) as [_ G0 G1 G3]. cbn [row_energy_pair snd].
    assert (W : forall y, at_least 1.1692 y -> at_least (energy_bandgap T) y).
    { intros y [->|(e & -> & E)]; [left; reflexivity|right; exists e; split; [reflexivity|lra]]. }
    apply W. apply temperature_keeps; try (apply cost_good; assumption).
    intros. apply at_least_segment; assumption.
Qed.

Lemma shipped_cost : forall w T, 0 <= T <= 300 -> at_least (energy_bandgap T) (energy_pair shipped w T).
Proof.
  intros w T H. unfold energy_pair. apply einterp_keeps.
  - intros. apply at_least_segment; assumption.
  - intros r E. injection E as <-. right. eexists. split; [reflexivity|]. assert (B := bandgap_between T H). unfold energy_pair_inf. lra.
  - rewrite shipped_head. discriminate.
  - apply rows_at_least; exact H.
Qed.

Lemma shipped_yield : forall w T, 0 < w -> 0 <= T <= 300 ->
  exists y, quantum_yield_ideal shipped w T = Some y /\ 0 <= y /\ y * energy_bandgap T <= hc / w.
Proof.
  intros w T W H. assert (B := bandgap_between T H). assert (P : 0 < hc / w) by (apply Rdiv_lt_0_compat; [unfold hc; lra|exact W]).
  unfold quantum_yield_ideal. destruct (shipped_cost w T H) as [->|(e & -> & E)].
  - exists 0. cbn. split; [reflexivity|]. split; [lra|]. rewrite Rmult_0_l. lra.
  - cbn [ediv]. destruct (Req_EM_T e 0); [lra|]. exists (photon_energy w / e). split; [reflexivity|]. unfold photon_energy. split.
    + apply Rlt_le, Rdiv_lt_0_compat; lra.
    + apply Rmult_le_reg_r with e; [lra|]. replace (hc / w / e * energy_bandgap T * e) with (hc / w * energy_bandgap T) by (field; lra).
      apply Rmult_le_compat_l; lra.
Qed.

(** Photons from 1.2 eV on have a finite pair energy. *)
Lemma einterp_skip : forall right x (n0 n1 n2 : R * ext) nodes, fst n0 < fst n1 -> fst n1 < fst n2 -> fst n2 <= x ->
  einterp right x (n0 :: n1 :: n2 :: nodes) = einterp_from right x (fst n2) (snd n2) nodes.
Proof.
  intros right x [x0 y0] [x1 y1] [x2 y2] nodes A B C. cbn [fst snd] in *. cbn [einterp einterp_from].
  destruct (Rlt_dec x x0); [lra|]. destruct (Req_EM_T x x0); [lra|]. destruct (Rlt_dec x x1); [lra|].
  destruct (Req_EM_T x x1); [lra|]. destruct (Rlt_dec x x2); [lra|]. reflexivity.
Qed.

(** ** The Fano factor *)
Lemma fano_good : forall e p, good_probabilities e p -> within 0 0.19 (table_fano p).
Proof.
  intros e p G. destruct G as [_ _ O _ F]. unfold table_fano. cbn [ediv]. destruct (Req_EM_T (moment1 p) 0); [lra|].
  eexists. split; [reflexivity|exact F].
Qed.

Lemma fano_node_bounds : forall T, 0 <= T <= 300 -> 0 <= fano_factor_inf T <= 0.19.
Proof. intros T H. assert (B := bandgap_between T H). unfold fano_factor_inf. lra. Qed.

Lemma fano_at_good : forall get T0 x, 0 <= T0 <= 300 -> 1.2 <= x ->
  (forall r, In r (first_row :: rest_rows) -> within 0 0.19 (table_fano (get r))) -> within 0 0.19 (fano_at get T0 x shipped).
Proof.
  intros get T0 x H X G. unfold fano_at. rewrite shipped_head. cbn [map].
  rewrite einterp_skip by (cbn [fst]; rewrite ?none_energy, ?edge_energy, ?first_energy; lra).
  apply einterp_from_keeps.
  - intros. apply within_segment; assumption.
  - intros r E. injection E as <-. eexists. split; [reflexivity|]. apply fano_node_bounds; exact H.
  - cbn [fst]. rewrite first_energy. exact X.
  - cbn [snd]. apply G. left; reflexivity.
  - apply List.Forall_map. cbn [snd]. apply List.Forall_forall. intros r I. apply G. right; exact I.
Qed.

Lemma shipped_fano : forall w T, 0 <= T <= 300 -> 1.2 <= hc / w ->
  exists f, fano_factor shipped w T = Some f /\ 0 <= f <= 0.19.
Proof.
  intros w T H X. unfold fano_factor.
  assert (W : within 0 0.19 (along_temperature T (fano_at row_0K 0 (photon_energy w) shipped)
    (fano_at row_100K 100 (photon_energy w) shipped) (fano_at row_300K 300 (photon_energy w) shipped))).
  { apply temperature_keeps; [intros; apply within_segment; assumption| | |]; (apply fano_at_good; [lra|exact X|]);
      intros r I; destruct (rows_good r I) as [_ G0 G1 G3]; eapply fano_good; eassumption. }
  cbv zeta. destruct W as (f & -> & F). exists f. split; [reflexivity|exact F].
Qed.

Lemma segment_nan : forall x x0 x1, e_segment x x0 NaN x1 NaN = NaN.
Proof. reflexivity. Qed.

Lemma fano_none : forall w T, hc / w <= 1.1 -> fano_factor shipped w T = None.
Proof.
  intros w T X. unfold fano_factor.
  assert (N : forall get T0, table_fano (get none_row) = NaN -> fano_at get T0 (photon_energy w) shipped = NaN).
  { intros get T0 Z. unfold fano_at. rewrite shipped_head. cbn [map einterp]. rewrite Z, none_energy.
    destruct (Rlt_dec (photon_energy w) 1.1); [reflexivity|]. cbn [einterp_from]. unfold photon_energy in *.
    destruct (Req_EM_T (hc / w) 1.1); [reflexivity|lra]. }
  assert (Z : table_fano (map probability nothing) = NaN).
  { unfold table_fano. rewrite moment_nothing. cbn [ediv]. destruct (Req_EM_T 0 0); [reflexivity|lra]. }
  cbv zeta. rewrite !N by exact Z.
  assert (W : along_temperature T NaN NaN NaN = NaN).
  { apply (temperature_keeps (fun y => y = NaN)); try reflexivity. intros x0 x1 y0 y1 _ -> ->. apply segment_nan. }
  rewrite W. reflexivity.
Qed.
