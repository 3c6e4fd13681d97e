(** The closed form and the Monte Carlo method with the tables that the package contains (C103). *)
From Coq Require Import Reals Lra Psatz List Bool ZArith Lia Sorting.Sorted.
From Coquelicot Require Import Coquelicot.
From Verif Require Import Num NumLemmas ExtNum MaterialModel RamanathanModel PairData PairTableModel PairTableSpec SiliconSpec SiliconProofs
  SensorSpec DepthProofs MonteCarloMeanSpec MonteCarloMeanProofs PairTableProofs PairYieldProofs PairDrawProofs.
Import ListNotations.
Open Scope R_scope.
Open Scope opt_scope.

(** ** Neighbouring rows *)
Definition adjacent {A} (a b : A) (l : list A) : Prop := exists pre post, l = pre ++ a :: b :: post.

Fixpoint neighbours {A} (f : A -> A -> bool) (l : list A) : bool :=
  match l with a :: ((b :: _) as rest) => f a b && neighbours f rest | _ => true end.

Lemma neighbours_adjacent : forall {A} (f : A -> A -> bool) l a b, neighbours f l = true -> adjacent a b l -> f a b = true.
Proof.
  intros A f l a b H (pre & post & E). subst l. induction pre as [|c pre IH].
  - cbn [app neighbours] in H. apply andb_true_iff in H. apply H.
  - apply IH. destruct pre as [|d pre]; cbn [app neighbours] in H |- *; apply andb_true_iff in H; apply H.
Qed.

Lemma adjacent_map : forall {A B} (f : A -> B) l a b, adjacent a b (map f l) -> exists c d, adjacent c d l /\ a = f c /\ b = f d.
Proof.
  intros A B f l a b (pre & post & E). revert l E. induction pre as [|x pre IH]; intros l E.
  - destruct l as [|c [|d l]]; try discriminate. cbn in E. injection E as E1 E2 E3. exists c, d. split; [exists [], l; reflexivity|]. split; congruence.
  - destruct l as [|c l]; [discriminate|]. cbn in E. injection E as _ E. destruct (IH l E) as (u & v & (p & q & ->) & U & V).
    exists u, v. split; [exists (c :: p), q; reflexivity|]. split; assumption.
Qed.

Lemma adjacent_in : forall {A} (a b : A) l, adjacent a b l -> In a l /\ In b l.
Proof. intros A a b l (pre & post & ->). split; apply in_or_app; right; cbn; auto. Qed.

Lemma adjacent_cons : forall {A} (a b c : A) l, adjacent a b l -> adjacent a b (c :: l).
Proof. intros A a b c l (pre & post & ->). exists (c :: pre), post. reflexivity. Qed.

Lemma last_any : forall {A} (l : list A) a d d', last (a :: l) d = last (a :: l) d'.
Proof. intros A l. induction l as [|b l IH]; intros a d d'; [reflexivity|]. exact (IH b d d'). Qed.

(** Both interpolations give the same mean of two neighbours. *)
Lemma cell : forall {A} (key : A -> R) x l a0, StronglySorted (fun a b => key a < key b) (a0 :: l) -> key a0 < x -> x <= key (last l a0) ->
  exists a b c, adjacent a b (a0 :: l) /\ 0 <= c <= 1 /\ x = (1 - c) * key a + c * key b /\
    (forall f, interp_from x (key a0) (f a0) (map (fun a => (key a, f a)) l) = Some ((1 - c) * f a + c * f b)) /\
    (forall right f, einterp_from right x (key a0) (Fin (f a0)) (map (fun a => (key a, Fin (f a))) l) = Fin ((1 - c) * f a + c * f b)).
Proof.
  intros A key x l. induction l as [|a1 l IH]; intros a0 S X L; [cbn in L; lra|].
  assert (S' := StronglySorted_inv S). destruct S' as [S' F]. inversion F as [|? ? K _]; subst.
  destruct (Rle_dec x (key a1)) as [M|M].
  - exists a0, a1, ((x - key a0) / (key a1 - key a0)). split; [exists [], l; reflexivity|]. assert (D : 0 < key a1 - key a0) by lra. split.
    { split; [apply Rlt_le, Rdiv_lt_0_compat; lra|]. apply Rmult_le_reg_r with (key a1 - key a0); [exact D|].
      replace ((x - key a0) / (key a1 - key a0) * (key a1 - key a0)) with (x - key a0) by (field; lra). lra. }
    split; [field; lra|]. split.
    + intros f. cbn [map interp_from]. destruct (Rle_dec x (key a1)); [|contradiction]. rewrite odiv_nz by lra. cbn [obind]. f_equal. field. lra.
    + intros right f. cbn [map einterp_from]. destruct (Req_EM_T x (key a0)); [lra|]. destruct (Rlt_dec x (key a1)) as [N|N].
      * rewrite segment_real by lra. f_equal. field. lra.
      * replace x with (key a1) by lra. destruct l as [|a2 l]; cbn [map einterp_from]; (destruct (Req_EM_T (key a1) (key a1)); [|lra]); f_equal; field; lra.
  - assert (L' : x <= key (last l a1)). { destruct l as [|a2 l]; [cbn in L; lra|]. rewrite (last_any l a2 a1 a0). exact L. }
    destruct (IH a1 S' ltac:(lra) L') as (a & b & c & IA & C & XE & E1 & E2).
    exists a, b, c. split; [apply adjacent_cons; exact IA|]. split; [exact C|]. split; [exact XE|]. split.
    + intros f. cbn [map interp_from]. destruct (Rle_dec x (key a1)); [contradiction|]. apply E1.
    + intros right f. cbn [map einterp_from]. destruct (Req_EM_T x (key a0)); [lra|]. destruct (Rlt_dec x (key a1)); [lra|]. apply E2.
Qed.

(** ** Means of rates *)
(** Four nodes with numbers of pairs [m], costs [e] of a pair and weights [w]. *)
Definition close (d ma ea mb eb : R) : Prop := Rabs ((mb - ma) * (eb - ea)) <= d * (ea * mb + eb * ma).

Lemma mean_rate : forall d w1 w2 w3 w4 m1 m2 m3 m4 e1 e2 e3 e4,
  0 <= d -> 0 <= w1 -> 0 <= w2 -> 0 <= w3 -> 0 <= w4 -> w1 + w2 + w3 + w4 = 1 ->
  0 < m1 -> 0 < m2 -> 0 < m3 -> 0 < m4 -> 0 < e1 -> 0 < e2 -> 0 < e3 -> 0 < e4 ->
  close d m1 e1 m2 e2 -> close d m1 e1 m3 e3 -> close d m1 e1 m4 e4 ->
  close d m2 e2 m3 e3 -> close d m2 e2 m4 e4 -> close d m3 e3 m4 e4 ->
  let m := w1 * m1 + w2 * m2 + w3 * m3 + w4 * m4 in
  let e := w1 * e1 + w2 * e2 + w3 * e3 + w4 * e4 in
  let E := w1 * (m1 * e1) + w2 * (m2 * e2) + w3 * (m3 * e3) + w4 * (m4 * e4) in
  Rabs (E - m * e) <= d * (m * e).
Proof.
  intros d w1 w2 w3 w4 m1 m2 m3 m4 e1 e2 e3 e4 D W1 W2 W3 W4 S M1 M2 M3 M4 E1 E2 E3 E4 C12 C13 C14 C23 C24 C34 m e E.
  assert (T : forall wa wb ma ea mb eb, 0 <= wa -> 0 <= wb -> close d ma ea mb eb ->
    Rabs (wa * wb * ((mb - ma) * (eb - ea))) <= d * (wa * wb * (ea * mb + eb * ma))).
  { intros wa wb ma ea mb eb A B C. unfold close in C. assert (P : 0 <= wa * wb) by (apply Rmult_le_pos; assumption).
    rewrite Rabs_mult, (Rabs_pos_eq (wa * wb)) by exact P.
    apply Rle_trans with (wa * wb * (d * (ea * mb + eb * ma))); [apply Rmult_le_compat_l; assumption|right; ring]. }
  assert (T12 := T w1 w2 _ _ _ _ W1 W2 C12). assert (T13 := T w1 w3 _ _ _ _ W1 W3 C13). assert (T14 := T w1 w4 _ _ _ _ W1 W4 C14).
  assert (T23 := T w2 w3 _ _ _ _ W2 W3 C23). assert (T24 := T w2 w4 _ _ _ _ W2 W4 C24). assert (T34 := T w3 w4 _ _ _ _ W3 W4 C34).
  replace (E - m * e) with
    (w1 * w2 * ((m2 - m1) * (e2 - e1)) + (w1 * w3 * ((m3 - m1) * (e3 - e1)) + (w1 * w4 * ((m4 - m1) * (e4 - e1)) +
     (w2 * w3 * ((m3 - m2) * (e3 - e2)) + (w2 * w4 * ((m4 - m2) * (e4 - e2)) + w3 * w4 * ((m4 - m3) * (e4 - e3)))))))
    by (unfold E, m, e; replace w4 with (1 - w1 - w2 - w3) by lra; ring).
  assert (Q : forall w mm ee, 0 <= w -> 0 < mm -> 0 < ee -> 0 <= d * (w * w * (mm * ee))).
  { intros w mm ee A B C. apply Rmult_le_pos; [exact D|]. apply Rmult_le_pos; [apply Rmult_le_pos; exact A|]. apply Rlt_le, Rmult_lt_0_compat; assumption. }
  assert (Q1 := Q w1 m1 e1 W1 M1 E1). assert (Q2 := Q w2 m2 e2 W2 M2 E2). assert (Q3 := Q w3 m3 e3 W3 M3 E3). assert (Q4 := Q w4 m4 e4 W4 M4 E4).
  replace (d * (m * e)) with
    (d * (w1 * w1 * (m1 * e1)) + d * (w2 * w2 * (m2 * e2)) + d * (w3 * w3 * (m3 * e3)) + d * (w4 * w4 * (m4 * e4)) +
     (d * (w1 * w2 * (e1 * m2 + e2 * m1)) + (d * (w1 * w3 * (e1 * m3 + e3 * m1)) + (d * (w1 * w4 * (e1 * m4 + e4 * m1)) +
      (d * (w2 * w3 * (e2 * m3 + e3 * m2)) + (d * (w2 * w4 * (e2 * m4 + e4 * m2)) + d * (w3 * w4 * (e3 * m4 + e4 * m3)))))))) by (unfold m, e; ring).
  eapply Rle_trans; [apply Rabs_triang|].
  eapply Rle_trans; [apply Rplus_le_compat; [exact T12|]; eapply Rle_trans; [apply Rabs_triang|]; apply Rplus_le_compat; [exact T13|];
    eapply Rle_trans; [apply Rabs_triang|]; apply Rplus_le_compat; [exact T14|];
    eapply Rle_trans; [apply Rabs_triang|]; apply Rplus_le_compat; [exact T23|];
    eapply Rle_trans; [apply Rabs_triang|]; apply Rplus_le_compat; [exact T24|exact T34]|]. lra.
Qed.

(** ** The tables are fine enough *)
Definition znear (ea ma eb mb : Z) : bool :=
  (10000 * Z.abs ((mb - ma) * (eb * ma - ea * mb)) <=? 11 * (ea * (mb * mb) + eb * (ma * ma)))%Z.
Definition znears (e e' : Z) (p p' q q' : list Z) : bool :=
  let m1 := zm1 p in let m2 := zm1 p' in let m3 := zm1 q in let m4 := zm1 q' in
  znear e m1 e' m2 && znear e m1 e m3 && znear e m1 e' m4 && znear e' m2 e m3 && znear e' m2 e' m4 && znear e m3 e' m4.
Definition fine_cell (d d' : data_row) : bool :=
  let '(e, p0, p1, p3) := d in let '(e', p0', p1', p3') := d' in
  znears e e' p0 p0' p1 p1' && znears e e' p1 p1' p3 p3'.

Lemma data_fine : neighbours fine_cell ((120%Z, one_pair, one_pair, one_pair) :: rest_data) = true.
Proof. vm_compute. reflexivity. Qed.

Definition rate (e : R) (p : list R) : R := e / moment1 p.

Lemma near_close : forall ea ma eb mb, (0 < ma)%Z -> (0 < mb)%Z -> znear ea ma eb mb = true ->
  close 0.0011 (IZR ma / 100000) (IZR ea / 100 / (IZR ma / 100000)) (IZR mb / 100000) (IZR eb / 100 / (IZR mb / 100000)).
Proof.
  intros ea ma eb mb A B H. apply Z.leb_le in H. apply IZR_le in H. apply IZR_lt in A, B.
  rewrite !mult_IZR, abs_IZR, plus_IZR, !mult_IZR, !minus_IZR, !mult_IZR in H.
  set (a := IZR ma) in *. set (b := IZR mb) in *. set (x := IZR ea) in *. set (y := IZR eb) in *. unfold close.
  replace ((b / 100000 - a / 100000) * (y / 100 / (b / 100000) - x / 100 / (a / 100000)))
    with ((b - a) * (y * a - x * b) * / (100 * (a * b))) by (field; lra).
  assert (P : 0 < / (100 * (a * b))) by (apply Rinv_0_lt_compat; assert (0 < a * b) by (apply Rmult_lt_0_compat; assumption); lra).
  rewrite Rabs_mult, (Rabs_pos_eq (/ (100 * (a * b)))) by lra.
  replace (0.0011 * (x / 100 / (a / 100000) * (b / 100000) + y / 100 / (b / 100000) * (a / 100000)))
    with (0.0011 * (x * (b * b) + y * (a * a)) * / (100 * (a * b))) by (field; lra).
  apply Rmult_le_compat_r; [lra|]. lra.
Qed.

(** Two temperatures of the tables that follow each other. *)
Definition next_temperatures (g h : pair_row -> list R) : Prop := (g = row_0K /\ h = row_100K) \/ (g = row_100K /\ h = row_300K).

Lemma cell_close : forall r s g h, adjacent r s (first_row :: rest_rows) -> next_temperatures g h ->
  let c p e q f := close 0.0011 (moment1 p) (rate e p) (moment1 q) (rate f q) in
  let e := row_energy r in let f := row_energy s in
  c (g r) e (g s) f /\ c (g r) e (h r) e /\ c (g r) e (h s) f /\ c (g s) f (h r) e /\ c (g s) f (h s) f /\ c (h r) e (h s) f.
Proof.
  intros r s g h A N c e f. change (first_row :: rest_rows) with (map row_of_data ((120%Z, one_pair, one_pair, one_pair) :: rest_data)) in A.
  apply adjacent_map in A. destruct A as (d & d' & A & -> & ->). assert (F := neighbours_adjacent _ _ _ _ data_fine A).
  assert (G := data_good). rewrite forallb_forall in G. destruct (adjacent_in _ _ _ A) as [ID ID']. assert (G1 := G _ ID). assert (G2 := G _ ID').
  destruct d as (((ed & p0) & p1) & p3). destruct d' as (((ed' & p0') & p1') & p3'). unfold good_data in G1, G2. unfold fine_cell in F.
  repeat (apply andb_true_iff in G1; destruct G1 as [G1 ?]). repeat (apply andb_true_iff in G2; destruct G2 as [G2 ?]).
  assert (POS : forall e l, good_list e l = true -> (0 < zm1 l)%Z).
  { intros e0 l GL. destruct (good_list_real e0 l GL) as [_ _ O _ _]. rewrite moment1_real in O. apply lt_IZR. lra. }
  assert (Z : forall p p' q q', (0 < zm1 p)%Z -> (0 < zm1 p')%Z -> (0 < zm1 q)%Z -> (0 < zm1 q')%Z -> znears ed ed' p p' q q' = true ->
    let C l m := c (map probability (fst l)) (IZR (snd l) / 100) (map probability (fst m)) (IZR (snd m) / 100) in
    C (p, ed) (p', ed') /\ C (p, ed) (q, ed) /\ C (p, ed) (q', ed') /\ C (p', ed') (q, ed) /\ C (p', ed') (q', ed') /\ C (q, ed) (q', ed')).
  { intros p p' q q' P1 P2 P3 P4 ZN C. unfold znears in ZN. cbv zeta in ZN. repeat (apply andb_true_iff in ZN; destruct ZN as [ZN ?]).
    unfold C, c, rate. cbn [fst snd]. rewrite !moment1_real. repeat split; apply near_close; assumption. }
  apply andb_true_iff in F. destruct F as [F1 F2].
  destruct N as [[-> ->]|[-> ->]]; unfold row_of_data, e, f; cbn [row_energy row_0K row_100K row_300K].
  - apply (Z p0 p0' p1 p1'); try assumption; eapply POS; eassumption.
  - apply (Z p1 p1' p3 p3'); try assumption; eapply POS; eassumption.
Qed.

(** ** One photon by both methods *)
Lemma temperature_cell : forall T, 0 <= T <= 300 -> exists g h c, next_temperatures g h /\ 0 <= c <= 1 /\
  (forall k r, interp T [(0, nth k (row_0K r) 0); (100, nth k (row_100K r) 0); (300, nth k (row_300K r) 0)] =
    Some ((1 - c) * nth k (g r) 0 + c * nth k (h r) 0)) /\
  (forall (v : list R -> R) r, along_temperature T (Fin (v (row_0K r))) (Fin (v (row_100K r))) (Fin (v (row_300K r))) =
    Fin ((1 - c) * v (g r) + c * v (h r))).
Proof.
  intros T H. destruct (Req_EM_T T 0) as [->|N].
  - exists row_0K, row_100K, 0. split; [left; split; reflexivity|]. split; [lra|]. split.
    + intros k r. cbn [interp]. destruct (Rle_dec 0 0); [f_equal; ring|lra].
    + intros v r. unfold along_temperature. cbn [einterp einterp_from]. destruct (Rlt_dec 0 0); [lra|]. destruct (Req_EM_T 0 0); [f_equal; ring|lra].
  - assert (S : StronglySorted (fun a b : R * (pair_row -> list R) => fst a < fst b) ((0, row_0K) :: [(100, row_100K); (300, row_300K)])) by (repeat constructor; cbn; lra).
    destruct (cell fst T [(100, row_100K); (300, row_300K)] (0, row_0K) S) as (a & b & c & A & C & _ & E1 & E2); [cbn; lra|cbn; lra|].
    exists (snd a), (snd b), c. split; [|split; [exact C|split]].
    + destruct A as (pre & post & A). destruct pre as [|x [|y pre]]; cbn in A.
      * injection A as <- <- _. left; split; reflexivity.
      * injection A as _ <- <- _. right; split; reflexivity.
      * exfalso. injection A as _ _ A. destruct pre as [|z pre]; [discriminate|]. destruct pre; discriminate.
    + intros k r. assert (E := E1 (fun a => nth k (snd a r) 0)). cbn [map fst snd] in E. cbn [interp].
      destruct (Rle_dec T 0); [lra|]. exact E.
    + intros v r. assert (E := E2 None (fun a => v (snd a r))). cbn [map fst snd] in E. unfold along_temperature. cbn [einterp].
      destruct (Rlt_dec T 0); [lra|]. exact E.
Qed.

Definition second_row : pair_row := nth 0 rest_rows first_row.
Definition is_cons {A} (l : list A) : bool := match l with [] => false | _ => true end.
Lemma rest_cons : is_cons rest_data = true.
Proof. vm_compute. reflexivity. Qed.

Lemma first_adjacent : adjacent first_row second_row (first_row :: rest_rows).
Proof.
  unfold second_row, rest_rows. assert (N := rest_cons). revert N. generalize rest_data. intros [|d l] N; [discriminate|].
  exists [], (map row_of_data l). reflexivity.
Qed.

Lemma last_data : data_energy (last rest_data (0, [], [], [])%Z) = 5000%Z.
Proof. vm_compute. reflexivity. Qed.

Lemma last_row : forall l a d, row_energy (last (map row_of_data (a :: l)) d) = IZR (data_energy (last (a :: l) (0, [], [], [])%Z)) / 100.
Proof. induction l as [|b l IH]; intros a d; [destruct a as (((? & ?) & ?) & ?); reflexivity|]. exact (IH b d). Qed.

Lemma last_energy : row_energy (last rest_rows first_row) = 50.
Proof.
  unfold rest_rows. assert (N := rest_cons). assert (E := last_data). revert N E. generalize rest_data. intros [|a l] N E; [discriminate|].
  rewrite last_row, E. lra.
Qed.

Lemma energy_cell : forall x, 1.2 <= x <= 50 -> exists r s c, adjacent r s (first_row :: rest_rows) /\ 0 <= c <= 1 /\
  x = (1 - c) * row_energy r + c * row_energy s /\
  (forall v, interp x (map (fun r => (row_energy r, v r)) shipped) = Some ((1 - c) * v r + c * v s)) /\
  (forall right (u : pair_row -> ext) v, (forall r, In r (first_row :: rest_rows) -> u r = Fin (v r)) ->
    einterp right x (map (fun r => (row_energy r, u r)) shipped) = Fin ((1 - c) * v r + c * v s)).
Proof.
  intros x X. destruct (Req_EM_T x 1.2) as [E|N].
  - exists first_row, second_row, 0. split; [exact first_adjacent|]. split; [lra|]. split; [rewrite first_energy; lra|].
    assert (I : In first_row shipped) by (rewrite shipped_head; right; right; left; reflexivity). split.
    + intros v. rewrite (interp_node x (v first_row)); [f_equal; ring| |].
      * apply in_map_iff. exists first_row. split; [rewrite first_energy, E; reflexivity|exact I].
      * apply (map_sorted v), shipped_sorted.
    + intros right u v U. rewrite (einterp_node right x (u first_row)).
      * rewrite U by (left; reflexivity). f_equal. ring.
      * apply in_map_iff. exists first_row. split; [rewrite first_energy, E; reflexivity|exact I].
      * apply (map_sorted u), shipped_sorted.
  - destruct (cell row_energy x rest_rows first_row good_sorted ltac:(rewrite first_energy; lra) ltac:(rewrite last_energy; lra))
      as (r & s & c & A & C & XE & E1 & E2).
    exists r, s, c. split; [exact A|]. split; [exact C|]. split; [exact XE|]. split.
    + intros v. rewrite shipped_head. cbn [map].
      rewrite interp_skip by (cbn [fst]; rewrite ?none_energy, ?edge_energy, ?first_energy; lra). apply (E1 v).
    + intros right u v U. rewrite shipped_head. cbn [map].
      rewrite einterp_skip by (cbn [fst]; rewrite ?none_energy, ?edge_energy, ?first_energy; lra). cbn [fst snd].
      rewrite <- (E2 right v). rewrite (U first_row) by (left; reflexivity). f_equal. apply map_ext_in. intros q I.
      rewrite (U q) by (right; exact I). reflexivity.
Qed.

Lemma cost_is_rate : forall e p, good_probabilities e p -> pair_cost e p = Fin (rate e p).
Proof.
  intros e p [_ _ O _ _]. unfold pair_cost, ediv_pos, rate. destruct (Req_EM_T (moment1 p) 0); [lra|reflexivity].
Qed.

Lemma methods_agree : forall photons w a W Dp D wx wy h0 T, 0 <= T <= 300 -> 1.2 <= hc / w <= 50 -> 0 < a -> 0 < W <= D ->
  exists px y m c, measured_pixel shipped photons w a W Dp D wx wy h0 T = Some px /\ quantum_yield_ideal shipped w T = Some y /\
    is_truncated_mean a D (collection_probability h0 W) c /\ (forall v, is_photon_mean px v <-> v = m * c) /\
    1 <= m /\ Rabs (y - m) <= 0.0011 * m.
Proof.
  intros photons w a W Dp D wx wy h0 T H X A WD.
  destruct (temperature_cell T H) as (g & h & t & N & TC & EP & EA).
  destruct (energy_cell (hc / w) X) as (r & s & c & AD & C & XE & IP & IE).
  destruct (adjacent_in _ _ _ AD) as [IR IS].
  assert (GET : forall q, In q (first_row :: rest_rows) -> good_probabilities (row_energy q) (g q) /\ good_probabilities (row_energy q) (h q)).
  { intros q I. destruct (rows_good q I) as [_ G0 G1 G3]. destruct N as [[-> ->]|[-> ->]]; split; assumption. }
  destruct (GET r IR) as [GR HR]. destruct (GET s IS) as [GS HS].
  set (v := fun r k => (1 - t) * nth k (g r) 0 + t * nth k (h r) 0).
  set (p := values (mix c (v r) (v s))).
  assert (P : osequence (map (probability_of_pairs shipped (photon_energy w) T) (seq 0 (num_electron shipped))) = Some p).
  { rewrite shipped_electrons. rewrite (map_ext _ (fun k => Some (mix c (v r) (v s) k))).
    + rewrite <- (map_map (mix c (v r) (v s)) Some). apply osequence_some.
    + intros k. rewrite (probability_rows shipped _ T k (fun r => v r k)) by (intros; apply EP). apply (IP (fun r => v r k)). }
  assert (V : forall q, In q (first_row :: rest_rows) -> distribution (values (v q)) /\ moment1 (values (v q)) = (1 - t) * moment1 (g q) + t * moment1 (h q)).
  { intros q IQ. destruct (GET q IQ) as [[LG DG _ _ _] [LH DH _ _ _]].
    change (v q) with (mix t (fun k => nth k (g q) 0) (fun k => nth k (h q) 0)). split.
    - apply mix_distribution; [exact TC| |]; rewrite values_nth; assumption.
    - rewrite mix_moment, !values_nth by assumption. reflexivity. }
  destruct (V r IR) as [DR MR]. destruct (V s IS) as [DS MS].
  assert (DP : distribution p) by (apply mix_distribution; assumption).
  assert (MP : moment1 p = (1 - c) * (1 - t) * moment1 (g r) + c * (1 - t) * moment1 (g s) + (1 - c) * t * moment1 (h r) + c * t * moment1 (h s)).
  { unfold p. rewrite mix_moment, MR, MS. ring. }
  destruct (shipped_pixel photons w a W Dp D wx wy h0 T p H P) as (ei & fi & PX & EB & FB).
  set (e := (1 - c) * (1 - t) * rate (row_energy r) (g r) + c * (1 - t) * rate (row_energy s) (g s) +
            (1 - c) * t * rate (row_energy r) (h r) + c * t * rate (row_energy s) (h s)).
  assert (EE : energy_pair shipped w T = Fin e).
  { unfold energy_pair. unfold row_energy_pair, photon_energy.
    rewrite (IE (Some (Fin (energy_pair_inf T))) (fun r => along_temperature T (pair_cost (row_energy r) (row_0K r)) (pair_cost (row_energy r) (row_100K r)) (pair_cost (row_energy r) (row_300K r)))
      (fun r => (1 - t) * rate (row_energy r) (g r) + t * rate (row_energy r) (h r))).
    - f_equal. unfold e. ring.
    - intros q IQ. destruct (rows_good q IQ) as [_ G0 G1 G3]. rewrite !cost_is_rate by assumption. apply (EA (rate (row_energy q))). }
  assert (POS : forall q l, In q (first_row :: rest_rows) -> good_probabilities (row_energy q) l -> 1 <= moment1 l /\ 1.1692 <= rate (row_energy q) l /\
     moment1 l * rate (row_energy q) l = row_energy q).
  { intros q l IQ [_ _ O CC _]. split; [exact O|]. split; [exact CC|]. unfold rate. field. lra. }
  destruct (POS r _ IR GR) as (M1 & E1 & R1). destruct (POS s _ IS GS) as (M2 & E2 & R2).
  destruct (POS r _ IR HR) as (M3 & E3 & R3). destruct (POS s _ IS HS) as (M4 & E4 & R4).
  assert (W1 : 0 <= (1 - c) * (1 - t)) by (apply Rmult_le_pos; lra). assert (W2 : 0 <= c * (1 - t)) by (apply Rmult_le_pos; lra).
  assert (W3 : 0 <= (1 - c) * t) by (apply Rmult_le_pos; lra). assert (W4 : 0 <= c * t) by (apply Rmult_le_pos; lra).
  assert (WS : (1 - c) * (1 - t) + c * (1 - t) + (1 - c) * t + c * t = 1) by ring.
  destruct (cell_close r s g h AD N) as (C12 & C13 & C14 & C23 & C24 & C34).
  assert (B := mean_rate 0.0011 _ _ _ _ (moment1 (g r)) (moment1 (g s)) (moment1 (h r)) (moment1 (h s))
    (rate (row_energy r) (g r)) (rate (row_energy s) (g s)) (rate (row_energy r) (h r)) (rate (row_energy s) (h s))
    ltac:(lra) W1 W2 W3 W4 WS ltac:(lra) ltac:(lra) ltac:(lra) ltac:(lra) ltac:(lra) ltac:(lra) ltac:(lra) ltac:(lra) C12 C13 C14 C23 C24 C34).
  cbv zeta in B. rewrite <- MP in B. fold e in B.
  assert (SE : (1 - c) * (1 - t) * (moment1 (g r) * rate (row_energy r) (g r)) + c * (1 - t) * (moment1 (g s) * rate (row_energy s) (g s)) +
    (1 - c) * t * (moment1 (h r) * rate (row_energy r) (h r)) + c * t * (moment1 (h s) * rate (row_energy s) (h s)) = hc / w).
  { rewrite R1, R2, R3, R4, XE. ring. }
  rewrite SE in B.
  assert (MO : 1 <= moment1 p).
  { rewrite MP. clear - M1 M2 M3 M4 W1 W2 W3 W4 WS.
    assert (Q : forall u m, 0 <= u -> 1 <= m -> u <= u * m) by (intros u m U M; nra).
    assert (Q1 := Q _ _ W1 M1). assert (Q2 := Q _ _ W2 M2). assert (Q3 := Q _ _ W3 M3). assert (Q4 := Q _ _ W4 M4). lra. }
  assert (EO : 1.1692 <= e).
  { unfold e. clear - E1 E2 E3 E4 W1 W2 W3 W4 WS.
    assert (Q : forall u m, 0 <= u -> 1.1692 <= m -> 1.1692 * u <= u * m) by (intros u m U M; nra).
    assert (Q1 := Q _ _ W1 E1). assert (Q2 := Q _ _ W2 E2). assert (Q3 := Q _ _ W3 E3). assert (Q4 := Q _ _ W4 E4). lra. }
  exists (mkPixel photons (hc / w) a W Dp D wx wy h0 p (pair_numbers p) ei fi), (hc / w / e), (moment1 p), (truncated_cce a W D h0).
  split; [exact PX|]. split.
  { unfold quantum_yield_ideal. rewrite EE. cbn [ediv]. destruct (Req_EM_T e 0); [lra|reflexivity]. }
  split; [apply truncated_value; assumption|]. split; [|split; [exact MO|]].
  - assert (PM : is_photon_mean (mkPixel photons (hc / w) a W Dp D wx wy h0 p (pair_numbers p) ei fi) (moment1 p * truncated_cce a W D h0)).
    { assert (Q := photon_mean_value (mkPixel photons (hc / w) a W Dp D wx wy h0 p (pair_numbers p) ei fi) p (truncated_cce a W D h0)).
      destruct DP as [DP0 DP1]. rewrite DP1 in Q. replace (moment1 p + INR (length p) * (1 - 1)) with (moment1 p) in Q by ring. apply Q.
      - reflexivity.
      - reflexivity.
      - unfold p, values. cbn. discriminate.
      - exact DP0.
      - lra.
      - cbn. lra.
      - cbn. rewrite odiv_nz by lra. eexists. exists (sqrt (fi * (hc / w / ei))). split; [reflexivity|]. apply osqrt_nonneg.
        apply Rmult_le_pos; [lra|]. apply Rlt_le, Rdiv_lt_0_compat; lra.
      - cbn [px_eta0 px_implant px_absorption px_substrate]. 
        apply depth_law; [exact A | lra | intros z _; apply ramp_continuous; lra | apply truncated_value; assumption]. }
    intros u. split; [intros U; exact (photon_mean_unique _ _ _ U PM)|intros ->; exact PM].
  - generalize dependent (hc / w). intros x. intros. replace (x / e - moment1 p) with ((x - moment1 p * e) * / e) by (field; lra).
    rewrite Rabs_mult, (Rabs_pos_eq (/ e)) by (apply Rlt_le, Rinv_0_lt_compat; lra).
    apply Rmult_le_reg_r with e; [lra|]. rewrite Rmult_assoc, Rinv_l, Rmult_1_r by lra. lra.
Qed.
