(** Pair production in silicon above the tables (C102). *)
From Coq Require Import Reals Lra Psatz List Bool.
From Verif Require Import Num NumLemmas ExtNum RamanathanModel SiliconSpec MonteCarloMeanProofs.
Import ListNotations.
Open Scope R_scope.
Open Scope opt_scope.

Lemma bandgap_law : forall T, energy_bandgap T = gap_law 1.1692 T.
Proof. intros T. unfold energy_bandgap, gap_law. replace (T ^ 2) with (T * T) by ring. reflexivity. Qed.

Lemma bandgap_falls : forall T T', 0 <= T -> T < T' -> energy_bandgap T' < energy_bandgap T.
Proof.
  intros T T' A B. unfold energy_bandgap.
  assert (H : T * T / (T + 655) < T' * T' / (T' + 655)).
  { apply Rmult_lt_reg_r with ((T + 655) * (T' + 655)); [apply Rmult_lt_0_compat; lra|].
    replace (T * T / (T + 655) * ((T + 655) * (T' + 655))) with (T * T * (T' + 655)) by (field; lra).
    replace (T' * T' / (T' + 655) * ((T + 655) * (T' + 655))) with (T' * T' * (T + 655)) by (field; lra).
    assert (0 <= T * T' * (T' - T)) by (repeat apply Rmult_le_pos; lra).
    assert (0 < (T' - T) * (T' + T)) by (apply Rmult_lt_0_compat; lra). nra. }
  replace (4.9e-4 * (T * T) / (T + 655)) with (4.9e-4 * (T * T / (T + 655))) by (field; lra).
  replace (4.9e-4 * (T' * T') / (T' + 655)) with (4.9e-4 * (T' * T' / (T' + 655))) by (field; lra). lra.
Qed.

Lemma bandgap_room : 1.123 < energy_bandgap 300 < 1.124.
Proof.
  unfold energy_bandgap. replace (300 + 655) with 955 by lra. split; lra.
Qed.

Lemma bandgap_between : forall T, 0 <= T <= 300 -> 1.123 < energy_bandgap T <= 1.1692.
Proof.
  intros T H. assert (R := bandgap_room). split.
  - destruct (Rlt_dec T 300) as [L|L]; [assert (B := bandgap_falls T 300 (proj1 H) L); lra|].
    replace T with 300 by lra. lra.
  - destruct (Rlt_dec 0 T) as [L|L].
    + assert (B := bandgap_falls 0 T ltac:(lra) L). assert (Z : energy_bandgap 0 = 1.1692) by (unfold energy_bandgap; field). lra.
    + replace T with 0 by lra. unfold energy_bandgap. right. field.
Qed.

Lemma above_map : forall {A} (f : pair_row -> R * A) tb w, (forall r, fst (f r) = row_energy r) -> above_table tb w ->
  map f tb <> [] /\ List.Forall (fun a => fst a < photon_energy w) (map f tb).
Proof.
  intros A f tb w F [N L]. split.
  - destruct tb; [contradiction|discriminate].
  - apply List.Forall_forall. intros a I. apply in_map_iff in I. destruct I as (r & <- & I). rewrite F.
    rewrite List.Forall_forall in L. apply (L r I).
Qed.

Lemma pair_above : forall tb w T, above_table tb w -> energy_pair tb w T = Fin (pair_energy_law (energy_bandgap T)).
Proof.
  intros tb w T A. unfold energy_pair. destruct (above_map (row_energy_pair T) tb w ltac:(reflexivity) A) as [N L].
  rewrite einterp_right by assumption. reflexivity.
Qed.

Lemma pair_law_pos : forall T, 0 <= T <= 300 -> 3.645 < pair_energy_law (energy_bandgap T) < 3.725.
Proof. intros T H. assert (B := bandgap_between T H). unfold pair_energy_law. lra. Qed.

Lemma yield_above : forall tb w T, 0 <= T <= 300 -> above_table tb w ->
  exists e, energy_pair tb w T = Fin e /\ e = pair_energy_law (energy_bandgap T) /\ 3.645 < e < 3.725 /\
    quantum_yield_ideal tb w T = Some (hc / w / e).
Proof.
  intros tb w T H A. exists (pair_energy_law (energy_bandgap T)). rewrite pair_above by exact A. split; [reflexivity|].
  split; [reflexivity|]. assert (P := pair_law_pos T H). split; [exact P|].
  unfold quantum_yield_ideal. rewrite pair_above by exact A. cbn [ediv].
  destruct (Req_EM_T _ 0) as [Z|Z]; [lra|reflexivity].
Qed.

Definition fano_node (T : R) : R := fano_law (energy_bandgap T).

Lemma fano_at_above : forall get T0 tb w, above_table tb w -> fano_at get T0 (photon_energy w) tb = Fin (fano_node T0).
Proof.
  intros get T0 tb w A. unfold fano_at.
  destruct (above_map (fun r => (row_energy r, table_fano (get r))) tb w ltac:(reflexivity) A) as [N L].
  rewrite einterp_right by assumption. reflexivity.
Qed.

Definition broken_line (a b c T : R) : R :=
  if Rlt_dec T 100 then a + (b - a) * (T / 100) else b + (c - b) * ((T - 100) / 200).

Lemma along_line : forall a b c T, 0 <= T <= 300 -> along_temperature T (Fin a) (Fin b) (Fin c) = Fin (broken_line a b c T).
Proof.
  intros a b c T H. unfold along_temperature, broken_line. cbn [einterp einterp_from].
  destruct (Rlt_dec T 0); [lra|]. destruct (Req_EM_T T 0) as [->|N].
  { destruct (Rlt_dec 0 100); [|lra]. f_equal. field. }
  destruct (Rlt_dec T 100) as [L|L].
  { unfold e_segment. cbn. destruct (Req_EM_T (100 - 0) 0); [lra|]. cbn. f_equal. field. }
  destruct (Req_EM_T T 100) as [->|N1]; [f_equal; field|].
  destruct (Rlt_dec T 300) as [M|M].
  { unfold e_segment. cbn. destruct (Req_EM_T (300 - 100) 0); [lra|]. cbn. f_equal. field. }
  destruct (Req_EM_T T 300) as [->|N2]; [f_equal; field|lra].
Qed.

Lemma fano_above : forall tb w T, 0 <= T <= 300 -> above_table tb w ->
  fano_factor tb w T = Some (broken_line (fano_node 0) (fano_node 100) (fano_node 300) T).
Proof.
  intros tb w T H A. unfold fano_factor. rewrite !fano_at_above by exact A. rewrite along_line by exact H. reflexivity.
Qed.

Lemma broken_rises : forall a b c T T', a <= b -> b <= c -> 0 <= T -> T <= T' -> T' <= 300 ->
  broken_line a b c T <= broken_line a b c T'.
Proof.
  intros a b c T T' AB BC H L H'. unfold broken_line. destruct (Rlt_dec T 100), (Rlt_dec T' 100); nra.
Qed.

Lemma fano_node_0 : fano_node 0 = -0.028 * 1.1692 + 0.0015 * 5.2 + 0.14.
Proof. unfold fano_node, fano_law, energy_bandgap. field. Qed.

Lemma fano_node_rises : forall T T', 0 <= T -> T < T' -> fano_node T < fano_node T'.
Proof. intros T T' A B. assert (F := bandgap_falls T T' A B). unfold fano_node, fano_law. lra. Qed.

Lemma fano_nodes : forall tb w T, above_table tb w -> In T [0; 100; 300] ->
  fano_factor tb w T = Some (fano_law (energy_bandgap T)).
Proof.
  intros tb w T A I. rewrite fano_above; [|destruct I as [<-|[<-|[<-|[]]]]; lra|exact A]. f_equal. unfold broken_line.
  destruct I as [<-|[<-|[<-|[]]]].
  - destruct (Rlt_dec 0 100); [|lra]. unfold fano_node. field.
  - destruct (Rlt_dec 100 100); [lra|]. unfold fano_node. field.
  - destruct (Rlt_dec 300 100); [lra|]. unfold fano_node. field.
Qed.

Lemma fano_rises : forall tb w T T', above_table tb w -> 0 <= T -> T <= T' -> T' <= 300 ->
  exists f f', fano_factor tb w T = Some f /\ fano_factor tb w T' = Some f' /\ f <= f' /\ 0.115 < f /\ f' < 0.1164.
Proof.
  intros tb w T T' A H L H'. rewrite !fano_above by (try exact A; lra). do 2 eexists. split; [reflexivity|]. split; [reflexivity|].
  assert (A1 := fano_node_rises 0 100 ltac:(lra) ltac:(lra)). assert (A2 := fano_node_rises 100 300 ltac:(lra) ltac:(lra)).
  split; [apply broken_rises; lra|].
  assert (B1 := broken_rises (fano_node 0) (fano_node 100) (fano_node 300) 0 T ltac:(lra) ltac:(lra) ltac:(lra) ltac:(lra) ltac:(lra)).
  assert (B2 := broken_rises (fano_node 0) (fano_node 100) (fano_node 300) T' 300 ltac:(lra) ltac:(lra) ltac:(lra) ltac:(lra) ltac:(lra)).
  unfold broken_line at 1 in B1. destruct (Rlt_dec 0 100); [|lra].
  unfold broken_line at 2 in B2. destruct (Rlt_dec 300 100); [lra|].
  assert (Z := fano_node_0). assert (R := bandgap_room). assert (E : fano_node 300 < 0.1164) by (unfold fano_node, fano_law; lra).
  split; lra.
Qed.

(** At 200 K the factor is not that of the law. *)
Lemma fano_chord : forall tb w, above_table tb w -> fano_factor tb w 200 <> Some (fano_law (energy_bandgap 200)).
Proof.
  intros tb w A. rewrite fano_above by (try exact A; lra). intros E. injection E as E. revert E.
  unfold broken_line. destruct (Rlt_dec 200 100); [lra|]. unfold fano_node, fano_law, energy_bandgap.
  intros E. assert (X : (200 - 100) / 200 = / 2) by field. rewrite X in E.
  replace (100 + 655) with 755 in E by lra.
  replace (300 + 655) with 955 in E by lra.
  replace (200 + 655) with 855 in E by lra. lra.
Qed.

Lemma gap_documented : forall T, energy_bandgap T <> gap_law 1.192 T.
Proof. intros T. rewrite bandgap_law. unfold gap_law. lra. Qed.
