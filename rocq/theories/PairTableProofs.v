(** The tables of pair-production probabilities that the package contains (C103). *)
From Coq Require Import Reals Lra Psatz List Bool ZArith Lia Sorting.Sorted.
From Verif Require Import Num NumLemmas ExtNum MaterialModel RamanathanModel PairData PairTableModel PairTableSpec SiliconSpec SiliconProofs
  MonteCarloMeanSpec MonteCarloMeanProofs.
Import ListNotations.
Open Scope R_scope.
Open Scope opt_scope.

(** ** The tables in whole numbers *)
Definition zsum (l : list Z) : Z := fold_right Z.add 0%Z l.
Definition zmoment (f : Z -> Z) (l : list Z) : Z := zsum (map (fun np => f (fst np) * snd np)%Z (combine (map Z.of_nat (seq 1 (length l))) l)).
Definition zm1 := zmoment (fun n => n).
Definition zm2 := zmoment (fun n => n * n)%Z.

Definition good_list (e : Z) (l : list Z) : bool :=
  (length l =? 20)%nat && forallb (Z.leb 0) l && (zsum l =? 100000)%Z && (100000 <=? zm1 l)%Z &&
  (11692 * zm1 l <=? e * 10000000)%Z &&
  (zm1 l * zm1 l <=? zm2 l * 100000)%Z && (100 * (zm2 l * 100000 - zm1 l * zm1 l) <=? 19 * (zm1 l * 100000))%Z.
Definition good_data (d : data_row) : bool :=
  let '(e, p0, p100, p300) := d in
  (120 <=? e)%Z && (e <=? 5000)%Z && good_list e p0 && good_list e p100 && good_list e p300.
Definition data_energy (d : data_row) : Z := let '(e, _, _, _) := d in e.
Fixpoint rising (l : list Z) : bool :=
  match l with a :: ((b :: _) as rest) => (a <? b)%Z && rising rest | _ => true end.

Definition nothing : list Z := repeat 0%Z 20.
Definition one_pair : list Z := 100000%Z :: repeat 0%Z 19.
Definition rest_data : list data_row := skipn 3 pair_data.

Lemma data_head : pair_data = (110%Z, nothing, nothing, nothing) :: (115%Z, nothing, nothing, one_pair) ::
  (120%Z, one_pair, one_pair, one_pair) :: rest_data.
Proof. vm_compute. reflexivity. Qed.
Lemma data_good : forallb good_data ((120%Z, one_pair, one_pair, one_pair) :: rest_data) = true.
Proof. vm_compute. reflexivity. Qed.
Lemma data_rising : rising (map data_energy pair_data) = true.
Proof. vm_compute. reflexivity. Qed.

(** ** From whole numbers to real ones *)
Lemma sum_real : forall l, rsum (map probability l) = IZR (zsum l) / 100000.
Proof.
  induction l as [|z l IH]; [cbn; lra|]. change (probability z + rsum (map probability l) = IZR (z + zsum l) / 100000).
  rewrite IH, plus_IZR. unfold probability. lra.
Qed.

Lemma moment_real : forall (f : Z -> Z) (g : Z -> R) ns l, (forall n, IZR (f n) = g n) ->
  rsum (map (fun np => g (fst np) * snd np) (combine ns (map probability l))) =
  IZR (zsum (map (fun np => f (fst np) * snd np)%Z (combine ns l))) / 100000.
Proof.
  intros f g ns l F. revert ns. induction l as [|z l IH]; intros [|n ns]; try (cbn; lra).
  change (g n * probability z + rsum (map (fun np => g (fst np) * snd np) (combine ns (map probability l))) =
    IZR (f n * z + zsum (map (fun np => f (fst np) * snd np)%Z (combine ns l))) / 100000).
  rewrite IH, plus_IZR, mult_IZR, F. unfold probability. lra.
Qed.

Lemma moment1_real : forall l, moment1 (map probability l) = IZR (zm1 l) / 100000.
Proof.
  intros l. unfold moment1, zm1, zmoment, pair_numbers. rewrite map_length. apply (moment_real (fun n => n) IZR). reflexivity.
Qed.
Lemma moment2_real : forall l, moment2 (map probability l) = IZR (zm2 l) / 100000.
Proof.
  intros l. unfold moment2, zm2, zmoment, pair_numbers. rewrite map_length.
  apply (moment_real (fun n => n * n)%Z (fun n => IZR n * IZR n)). intros n. apply mult_IZR.
Qed.

(** What the rows from 1.2 eV on have in common. *)
Record good_probabilities (e : R) (p : list R) : Prop := {
  gp_length : length p = 20%nat;
  gp_distribution : distribution p;
  gp_one : 1 <= moment1 p;
  gp_cost : 1.1692 <= e / moment1 p;
  gp_fano : 0 <= (moment2 p - moment1 p * moment1 p) / moment1 p <= 0.19 }.

Lemma good_list_real : forall e l, good_list e l = true -> good_probabilities (IZR e / 100) (map probability l).
Proof.
  intros e l H. unfold good_list in H.
  apply andb_true_iff in H; destruct H as [H F2]. apply andb_true_iff in H; destruct H as [H F1].
  apply andb_true_iff in H; destruct H as [H C]. apply andb_true_iff in H; destruct H as [H O].
  apply andb_true_iff in H; destruct H as [H S]. apply andb_true_iff in H; destruct H as [L P].
  apply Nat.eqb_eq in L. apply Z.eqb_eq in S. apply Z.leb_le in O, C, F1, F2. rewrite forallb_forall in P.
  apply IZR_le in O, C, F1, F2. repeat rewrite mult_IZR in C, F1, F2. rewrite minus_IZR in F2. repeat rewrite mult_IZR in F2.
  set (m := IZR (zm1 l)) in *. set (q := IZR (zm2 l)) in *.
  assert (M : 0 < m / 100000) by lra.
  split.
  - rewrite map_length. exact L.
  - split.
    + apply List.Forall_forall. intros x I. apply in_map_iff in I. destruct I as (z & <- & I). specialize (P z I).
      apply Z.leb_le in P. apply IZR_le in P. unfold probability. lra.
    + rewrite sum_real, S. lra.
  - rewrite moment1_real. fold m. lra.
  - rewrite moment1_real. fold m. apply Rmult_le_reg_r with (m / 100000); [exact M|].
    replace (IZR e / 100 / (m / 100000) * (m / 100000)) with (IZR e / 100) by (field; lra). lra.
  - rewrite moment1_real, moment2_real. fold m q. split.
    + apply Rmult_le_reg_r with (m / 100000); [exact M|].
      replace ((q / 100000 - m / 100000 * (m / 100000)) / (m / 100000) * (m / 100000)) with (q / 100000 - m / 100000 * (m / 100000)) by (field; lra). lra.
    + apply Rmult_le_reg_r with (m / 100000); [exact M|].
      replace ((q / 100000 - m / 100000 * (m / 100000)) / (m / 100000) * (m / 100000)) with (q / 100000 - m / 100000 * (m / 100000)) by (field; lra). lra.
Qed.

Record good_row (r : pair_row) : Prop := {
  gr_energy : 1.2 <= row_energy r <= 50;
  gr_0K : good_probabilities (row_energy r) (row_0K r);
  gr_100K : good_probabilities (row_energy r) (row_100K r);
  gr_300K : good_probabilities (row_energy r) (row_300K r) }.

Definition none_row : pair_row := row_of_data (110%Z, nothing, nothing, nothing).
Definition edge_row : pair_row := row_of_data (115%Z, nothing, nothing, one_pair).
Definition first_row : pair_row := row_of_data (120%Z, one_pair, one_pair, one_pair).
Definition rest_rows : pair_table := map row_of_data rest_data.

Lemma shipped_head : shipped = none_row :: edge_row :: first_row :: rest_rows.
Proof. unfold shipped. rewrite data_head. reflexivity. Qed.

Lemma rows_good : forall r, In r (first_row :: rest_rows) -> good_row r.
Proof.
  intros r I. change (In r (map row_of_data ((120%Z, one_pair, one_pair, one_pair) :: rest_data))) in I.
  apply in_map_iff in I. destruct I as (d & <- & I). assert (H := data_good). rewrite forallb_forall in H. specialize (H d I).
  destruct d as (((e & p0) & p1) & p3). unfold good_data in H.
  apply andb_true_iff in H; destruct H as [H G3]. apply andb_true_iff in H; destruct H as [H G1].
  apply andb_true_iff in H; destruct H as [H G0]. apply andb_true_iff in H; destruct H as [A B].
  apply Z.leb_le in A, B. apply IZR_le in A, B. unfold row_of_data.
  split; cbn [row_energy row_0K row_100K row_300K]; [lra| | |]; apply good_list_real; assumption.
Qed.

Lemma rising_sorted : forall l : list data_row, rising (map data_energy l) = true ->
  StronglySorted (fun r s => row_energy r < row_energy s) (map row_of_data l).
Proof.
  intros l H. apply Sorted_StronglySorted; [intros a b c; apply Rlt_trans|].
  induction l as [|a l IH]; [constructor|]. cbn [map]. destruct l as [|b l].
  - repeat constructor.
  - cbn [map rising] in H. apply andb_true_iff in H. destruct H as [L H]. constructor; [apply IH; exact H|].
    cbn [map]. constructor. apply Z.ltb_lt in L. apply IZR_lt in L.
    destruct a as (((ea & ?) & ?) & ?), b as (((eb & ?) & ?) & ?). cbn in *. lra.
Qed.

Lemma shipped_sorted : StronglySorted (fun r s => row_energy r < row_energy s) shipped.
Proof. apply rising_sorted. exact data_rising. Qed.

Lemma none_energy : row_energy none_row = 1.1. Proof. cbn. lra. Qed.
Lemma edge_energy : row_energy edge_row = 1.15. Proof. cbn. lra. Qed.
Lemma first_energy : row_energy first_row = 1.2. Proof. cbn. lra. Qed.

Lemma shipped_good : good_table shipped.
Proof.
  split; [exact shipped_sorted|]. rewrite shipped_head. change (num_electron (none_row :: edge_row :: first_row :: rest_rows)) with 20%nat.
  apply List.Forall_forall. intros r [<-|[<-|I]].
  - rewrite none_energy. split; [lra|]. repeat split.
  - rewrite edge_energy. split; [lra|]. repeat split.
  - destruct (rows_good r I) as [E [L0] [L1] [L3]]. split; [lra|]. repeat split; assumption.
Qed.

Lemma photon_energy_defined w : 0 < w -> Rabs (photon_energy w - energy_of w) <= 1 / 10 ^ 12 / w.
Proof.
  intros W. unfold photon_energy, hc, energy_of, planck, light, charge.
  match goal with |- Rabs (?a / w - ?b / (w / ?t) / ?c) <= _ => replace (a / w - b / (w / t) / c) with ((a - b * t / c) / w) by (field; lra) end.
  unfold Rdiv at 1. rewrite Rabs_mult, (Rabs_pos_eq (/ w)) by (apply Rlt_le, Rinv_0_lt_compat, W).
  apply Rmult_le_compat_r; [apply Rlt_le, Rinv_0_lt_compat, W|]. apply Rabs_le. split; lra.
Qed.
