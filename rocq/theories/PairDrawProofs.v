(** The Monte Carlo method with the tables that the package contains (C103). *)
From Coq Require Import Reals Lra Psatz List Bool ZArith Lia Sorting.Sorted.
From Verif Require Import Num NumLemmas ExtNum MaterialModel RamanathanModel PairData PairTableModel PairTableSpec SiliconSpec SiliconProofs
  MonteCarloMeanSpec MonteCarloMeanProofs PairTableProofs PairYieldProofs.
Import ListNotations.
Open Scope R_scope.
Open Scope opt_scope.

(** ** Linear interpolation is a mean of two of the values, the same for all functions on the nodes *)
Lemma interp_from_mean : forall {A} (key : A -> R) x l a0, StronglySorted (fun a b => key a < key b) (a0 :: l) -> key a0 < x ->
  exists a b c, In a (a0 :: l) /\ In b (a0 :: l) /\ 0 <= c <= 1 /\
    (c = 0 \/ (key a < key b /\ x = key a + c * (key b - key a))) /\
    forall f, interp_from x (key a0) (f a0) (map (fun a => (key a, f a)) l) = Some ((1 - c) * f a + c * f b).
Proof.
  intros A key x l. induction l as [|a1 l IH]; intros a0 S X.
  - exists a0, a0, 0. split; [left; reflexivity|]. split; [left; reflexivity|]. split; [lra|]. split; [left; reflexivity|].
    intros f. cbn. f_equal. ring.
  - assert (S' := StronglySorted_inv S). destruct S' as [S' F]. inversion F as [|? ? K _]; subst.
    destruct (Rle_dec x (key a1)) as [L|L].
    + exists a0, a1, ((x - key a0) / (key a1 - key a0)). split; [left; reflexivity|]. split; [right; left; reflexivity|].
      assert (D : 0 < key a1 - key a0) by lra. split.
      { split; [apply Rlt_le, Rdiv_lt_0_compat; lra|]. apply Rmult_le_reg_r with (key a1 - key a0); [exact D|].
        replace ((x - key a0) / (key a1 - key a0) * (key a1 - key a0)) with (x - key a0) by (field; lra). lra. }
      split; [right; split; [exact K|field; lra]|].
      intros f. cbn [map interp_from]. destruct (Rle_dec x (key a1)); [|contradiction].
      rewrite odiv_nz by lra. cbn [obind]. f_equal. field. lra.
    + destruct (IH a1 S' ltac:(lra)) as (a & b & c & IA & IB & C & CC & E).
      exists a, b, c. split; [right; exact IA|]. split; [right; exact IB|]. split; [exact C|]. split; [exact CC|].
      intros f. cbn [map interp_from]. destruct (Rle_dec x (key a1)); [contradiction|]. apply E.
Qed.

Lemma interp_mean : forall {A} (key : A -> R) x l a0, StronglySorted (fun a b => key a < key b) (a0 :: l) ->
  exists a b c, In a (a0 :: l) /\ In b (a0 :: l) /\ 0 <= c <= 1 /\
    forall f, interp x (map (fun a => (key a, f a)) (a0 :: l)) = Some ((1 - c) * f a + c * f b).
Proof.
  intros A key x l a0 S. destruct (Rle_dec x (key a0)) as [L|L].
  - exists a0, a0, 0. split; [left; reflexivity|]. split; [left; reflexivity|]. split; [lra|].
    intros f. cbn [map interp]. destruct (Rle_dec x (key a0)); [f_equal; ring|contradiction].
  - destruct (interp_from_mean key x l a0 S ltac:(lra)) as (a & b & c & IA & IB & C & _ & E).
    exists a, b, c. split; [exact IA|]. split; [exact IB|]. split; [exact C|].
    intros f. cbn [map interp]. destruct (Rle_dec x (key a0)); [contradiction|]. apply E.
Qed.

(** ** The probabilities at a temperature *)
Definition temperatures : list (R * (pair_row -> list R)) := [(0, row_0K); (100, row_100K); (300, row_300K)].

Lemma temperature_mean : forall T, exists g h c, In g (map snd temperatures) /\ In h (map snd temperatures) /\ 0 <= c <= 1 /\
  forall k r, interp T [(0, nth k (row_0K r) 0); (100, nth k (row_100K r) 0); (300, nth k (row_300K r) 0)] =
    Some ((1 - c) * nth k (g r) 0 + c * nth k (h r) 0).
Proof.
  intros T. destruct (interp_mean fst T [(100, row_100K); (300, row_300K)] (0, row_0K)) as (a & b & c & IA & IB & C & E).
  - repeat constructor; cbn; lra.
  - exists (snd a), (snd b), c. split; [apply in_map, IA|]. split; [apply in_map, IB|]. split; [exact C|].
    intros k r. apply (E (fun a => nth k (snd a r) 0)).
Qed.

Lemma probability_rows : forall tb x T k v, (forall r, interp T [(0, nth k (row_0K r) 0); (100, nth k (row_100K r) 0); (300, nth k (row_300K r) 0)] = Some (v r)) ->
  probability_of_pairs tb x T k = interp x (map (fun r => (row_energy r, v r)) tb).
Proof.
  intros tb x T k v AT. unfold probability_of_pairs.
  set (at_T := fun r => interp T [(0, nth k (row_0K r) 0); (100, nth k (row_100K r) 0); (300, nth k (row_300K r) 0)]) in *.
  set (rows := fix rows tb := match tb with [] => Some [] | r :: rest => let* v := at_T r in let* l := rows rest in Some ((row_energy r, v) :: l) end).
  assert (RW : forall t, rows t = Some (map (fun r => (row_energy r, v r)) t)).
  { induction t as [|s t IH]; [reflexivity|]. cbn [map]. change (rows (s :: t)) with (let* v := at_T s in let* l := rows t in Some ((row_energy s, v) :: l)).
    change (at_T s) with (interp T [(0, nth k (row_0K s) 0); (100, nth k (row_100K s) 0); (300, nth k (row_300K s) 0)]). rewrite AT. cbn [obind]. rewrite IH. reflexivity. }
  rewrite RW. reflexivity.
Qed.

Lemma shipped_electrons : num_electron shipped = 20%nat.
Proof. rewrite shipped_head. reflexivity. Qed.

(** ** A mean of distributions is a distribution *)
Definition mix (c : R) (p q : nat -> R) (k : nat) : R := (1 - c) * p k + c * q k.
Definition values (p : nat -> R) : list R := map p (seq 0 20).

Lemma values_nth : forall p, length p = 20%nat -> values (fun k => nth k p 0) = p.
Proof.
  intros p L. unfold values. rewrite <- L. apply nth_ext with (d := 0) (d' := 0); [rewrite map_length, seq_length; reflexivity|].
  intros k K. rewrite map_length, seq_length in K. rewrite (nth_indep _ 0 (nth 0 p 0)) by (rewrite map_length, seq_length; exact K).
  rewrite (map_nth (fun k => nth k p 0)). rewrite seq_nth by exact K. reflexivity.
Qed.

Lemma mix_distribution : forall c p q, 0 <= c <= 1 -> distribution (values p) -> distribution (values q) -> distribution (values (mix c p q)).
Proof.
  intros c p q C [P SP] [Q SQ]. split.
  - unfold values in *. rewrite List.Forall_map in *. rewrite List.Forall_forall in *. intros k I. specialize (P k I). specialize (Q k I).
    unfold mix. nra.
  - unfold values, mix in *. rewrite rsum_map_plus, !rsum_map_scale, SP, SQ. ring.
Qed.

Lemma mix_moment : forall c p q, moment1 (values (mix c p q)) = (1 - c) * moment1 (values p) + c * moment1 (values q).
Proof. intros c p q. unfold moment1, values, mix, pair_numbers. cbn [map seq length combine fst snd rsum fold_right]. ring. Qed.

(** ** Photons from 1.2 eV on *)
Lemma interp_skip : forall x (n0 n1 n2 : R * R) nodes, fst n0 < fst n1 -> fst n1 < fst n2 -> fst n2 < x ->
  interp x (n0 :: n1 :: n2 :: nodes) = interp_from x (fst n2) (snd n2) nodes.
Proof.
  intros x [x0 y0] [x1 y1] [x2 y2] nodes A B C. cbn [fst snd] in *. cbn [interp interp_from].
  destruct (Rle_dec x x0); [lra|]. destruct (Rle_dec x x1); [lra|]. destruct (Rle_dec x x2); [lra|]. reflexivity.
Qed.

Lemma good_sorted : StronglySorted (fun r s => row_energy r < row_energy s) (first_row :: rest_rows).
Proof. assert (S := shipped_sorted). rewrite shipped_head in S. apply StronglySorted_inv in S. destruct S as [S _]. apply StronglySorted_inv in S. apply S. Qed.

Lemma shipped_mean : forall x, 1.2 <= x ->
  exists r s c, In r (first_row :: rest_rows) /\ In s (first_row :: rest_rows) /\ 0 <= c <= 1 /\
    (c = 0 \/ (row_energy r < row_energy s /\ x = row_energy r + c * (row_energy s - row_energy r))) /\
    forall v, interp x (map (fun r => (row_energy r, v r)) shipped) = Some ((1 - c) * v r + c * v s).
Proof.
  intros x X. destruct (Req_EM_T x 1.2) as [E|N].
  - exists first_row, first_row, 0. split; [left; reflexivity|]. split; [left; reflexivity|]. split; [lra|]. split; [left; reflexivity|].
    intros v. rewrite (interp_node x (v first_row)); [f_equal; ring| |].
    + apply in_map_iff. exists first_row. split; [rewrite first_energy, E; reflexivity|]. rewrite shipped_head. right; right; left; reflexivity.
    + apply (map_sorted v), shipped_sorted.
  - destruct (interp_from_mean row_energy x rest_rows first_row good_sorted ltac:(rewrite first_energy; lra)) as (r & s & c & IR & IS & C & CC & E).
    exists r, s, c. split; [exact IR|]. split; [exact IS|]. split; [exact C|]. split; [exact CC|].
    intros v. rewrite shipped_head. cbn [map].
    rewrite interp_skip by (cbn [fst]; rewrite ?none_energy, ?edge_energy, ?first_energy; lra). apply (E v).
Qed.

Lemma get_good : forall g r, In g (map snd temperatures) -> In r (first_row :: rest_rows) -> good_probabilities (row_energy r) (g r).
Proof.
  intros g r G I. destruct (rows_good r I) as [_ G0 G1 G3]. destruct G as [<-|[<-|[<-|[]]]]; assumption.
Qed.

Lemma shipped_distribution : forall w T, 1.2 <= hc / w ->
  exists p, osequence (map (probability_of_pairs shipped (photon_energy w) T) (seq 0 (num_electron shipped))) = Some p /\
    length p = 20%nat /\ distribution p.
Proof.
  intros w T X. destruct (temperature_mean T) as (g & h & c & G & H & C & E).
  destruct (shipped_mean (hc / w) X) as (r & s & d & IR & IS & D & _ & M).
  set (v := fun r k => (1 - c) * nth k (g r) 0 + c * nth k (h r) 0).
  exists (values (mix d (v r) (v s))). rewrite shipped_electrons. split; [|split].
  - rewrite (map_ext _ (fun k => Some (mix d (v r) (v s) k))).
    + rewrite <- (map_map (mix d (v r) (v s)) Some). apply osequence_some.
    + intros k. rewrite (probability_rows shipped _ T k (fun r => v r k)) by (intros; apply E). apply (M (fun r => v r k)).
  - unfold values. rewrite map_length, seq_length. reflexivity.
  - assert (V : forall r, In r (first_row :: rest_rows) -> distribution (values (v r))).
    { intros q IQ. destruct (get_good g q G IQ) as [LG DG _ _ _]. destruct (get_good h q H IQ) as [LH DH _ _ _].
      change (v q) with (mix c (fun k => nth k (g q) 0) (fun k => nth k (h q) 0)).
      apply mix_distribution; [exact C| |]; rewrite values_nth; assumption. }
    apply mix_distribution; [exact D| |]; apply V; assumption.
Qed.

(** ** Photons of less energy than the first row *)
Lemma nothing_real : map probability nothing = repeat 0 20.
Proof. assert (Z : probability 0 = 0) by (unfold probability; lra). cbn. rewrite Z. reflexivity. Qed.
Lemma shipped_nothing : forall w T, hc / w <= 1.1 ->
  osequence (map (probability_of_pairs shipped (photon_energy w) T) (seq 0 (num_electron shipped))) = Some (map probability nothing).
Proof.
  intros w T X. destruct (temperature_mean T) as (g & h & c & G & H & C & E). rewrite shipped_electrons.
  rewrite (map_ext _ (fun k => Some 0)).
  - rewrite <- (map_map (fun _ => 0) Some), osequence_some. rewrite nothing_real. reflexivity.
  - intros k. rewrite (probability_rows shipped _ T k (fun r => (1 - c) * nth k (g r) 0 + c * nth k (h r) 0)) by (intros; apply E).
    rewrite shipped_head. cbn [map interp]. rewrite none_energy. unfold photon_energy. destruct (Rle_dec (hc / w) 1.1); [|contradiction].
    assert (Z : forall g, In g (map snd temperatures) -> nth k (g none_row) 0 = 0).
    { intros q Q. assert (P : q none_row = map probability nothing) by (destruct Q as [<-|[<-|[<-|[]]]]; reflexivity). rewrite P.
      rewrite nothing_real. destruct (Nat.lt_ge_cases k 20) as [L|L]; [apply nth_repeat|]. apply nth_overflow. rewrite repeat_length. exact L. }
    rewrite (Z g G), (Z h H). f_equal. ring.
Qed.

Lemma select_none : forall x p n, 0 <= x -> List.Forall (fun q => q = 0) p -> p <> [] -> length n = length p ->
  select_pairs x (cumsum 0 p) n = Some (last n 0%Z).
Proof.
  intros x p. induction p as [|q p IH]; intros n X F N L; [contradiction|]. inversion F as [|? ? Q F']; subst.
  destruct n as [|m n]; [discriminate|]. destruct p as [|q' p].
  - destruct n; [reflexivity|discriminate].
  - cbn [cumsum]. rewrite select_cons by (cbn; discriminate). rewrite Rplus_0_r. destruct (Rlt_dec x 0); [lra|].
    destruct n as [|m' n]; [discriminate|]. cbn [cumsum] in IH. 
    replace (last (m :: m' :: n) 0%Z) with (last (m' :: n) 0%Z) by reflexivity. apply IH; try assumption; [discriminate|].
    cbn in L |- *. lia.
Qed.

Lemma keV_above : above_table shipped (hc / 1000).
Proof.
  split; [rewrite shipped_head; discriminate|]. apply List.Forall_forall. intros r I.
  replace (hc / (hc / 1000)) with 1000 by (assert (hc <> 0) by (unfold hc; lra); field; assumption).
  assert (G := shipped_good). destruct G as [_ G]. rewrite List.Forall_forall in G. specialize (G r I). lra.
Qed.

(** The arguments of a pixel, whatever the probabilities. *)
Lemma shipped_pixel : forall photons w a W Dp D wx wy h0 T p, 0 <= T <= 300 ->
  osequence (map (probability_of_pairs shipped (photon_energy w) T) (seq 0 (num_electron shipped))) = Some p ->
  exists e f, measured_pixel shipped photons w a W Dp D wx wy h0 T =
    Some (mkPixel photons (hc / w) a W Dp D wx wy h0 p (pair_numbers p) e f) /\ 3.645 < e < 3.725 /\ 0.115 < f < 0.1164.
Proof.
  intros photons w a W Dp D wx wy h0 T p H P. unfold measured_pixel. rewrite P. cbn [obind].
  destruct (yield_above shipped (hc / 1000) T H keV_above) as (e & _ & _ & E & Y). rewrite Y. cbn [obind].
  destruct (fano_rises shipped (hc / 1000) T T keV_above ltac:(lra) ltac:(lra) ltac:(lra)) as (f & f' & F & F' & _ & L & U).
  rewrite F in F'. injection F' as <-.
  assert (HC : hc <> 0) by (unfold hc; lra).
  assert (Z : hc / (hc / 1000) / e <> 0).
  { replace (hc / (hc / 1000) / e) with (1000 / e) by (field; repeat split; (exact HC || lra)). apply Rgt_not_eq, Rdiv_lt_0_compat; lra. }
  rewrite odiv_nz by exact Z. cbn [obind]. rewrite F. cbn [obind].
  exists (1000 / (hc / (hc / 1000) / e)), f. split; [reflexivity|].
  replace (1000 / (hc / (hc / 1000) / e)) with e by (field; repeat split; (exact HC || lra)). split; [exact E|]. lra.
Qed.

Lemma infrared : forall photons w a W Dp D wx wy h0 T d, 0 < w -> 0 <= T <= 300 -> hc / w <= 1.1 -> 0 <= dr_pair d ->
  exists px, measured_pixel shipped photons w a W Dp D wx wy h0 T = Some px /\ pair_count px d = Some 20%Z.
Proof.
  intros photons w a W Dp D wx wy h0 T d W0 H X U.
  destruct (shipped_pixel photons w a W Dp D wx wy h0 T _ H (shipped_nothing w T X)) as (e & f & E & EB & FB).
  eexists. split; [exact E|]. unfold pair_count. cbn [px_energy px_energy_pair_inf px_fano_inf px_p px_n].
  assert (P : 0 < hc / w) by (apply Rdiv_lt_0_compat; [unfold hc; lra|exact W0]).
  rewrite odiv_nz by lra. cbn [obind]. rewrite osqrt_nonneg.
  - cbn [obind]. destruct (Rle_dec (hc / w) 50); [|lra].
    rewrite select_none; [reflexivity|exact U| |discriminate|reflexivity].
    apply List.Forall_map, List.Forall_forall. intros z I. unfold nothing in I. apply repeat_spec in I. subst z. unfold probability. lra.
  - apply Rmult_le_pos; [lra|]. apply Rlt_le, Rdiv_lt_0_compat; lra.
Qed.

Lemma infrared_yield : forall w T, 0 <= T <= 300 -> hc / w <= 1.1 -> quantum_yield_ideal shipped w T = Some 0.
Proof.
  intros w T H X. unfold quantum_yield_ideal, energy_pair. rewrite shipped_head. cbn [map]. unfold row_energy_pair at 1.
  change (row_0K none_row) with (map probability nothing). change (row_100K none_row) with (map probability nothing).
  change (row_300K none_row) with (map probability nothing). rewrite !cost_nothing.
  assert (Z : along_temperature T (Inf false) (Inf false) (Inf false) = Inf false).
  { apply (temperature_keeps (fun y => y = Inf false)); try reflexivity. intros x0 x1 y0 y1 B -> ->. apply segment_inf_inf; exact B. }
  rewrite Z. cbn [einterp]. rewrite none_energy. unfold photon_energy. destruct (Rlt_dec (hc / w) 1.1); [reflexivity|].
  cbn [einterp_from]. destruct (Req_EM_T (hc / w) 1.1); [reflexivity|lra].
Qed.
