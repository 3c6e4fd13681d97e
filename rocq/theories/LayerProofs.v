(** Snell's law along a stack, sequences, periodic sequences (C04, C32, C33). *)
From Coq Require Import Reals Lra Psatz List Bool ZArith Lia.
From Coquelicot Require Import Coquelicot.
From Verif Require Import Num NumLemmas ComplexModel ComplexLemmas ProfileModel LayerModel LayerSpec.
Import ListNotations.
Open Scope C_scope.
Open Scope opt_scope.

(** ** Snell's law *)
Definition cos_in (k n : C) : C := csqrt (1 - k / (n * n)).
Definition tangential2 (c n : C) : C := n * n * (1 - c * c).

Lemma snell_value : forall c n m : C, m <> 0 -> snells_law_scalar c n m = Some (cos_in (tangential2 c n) m).
Proof.
  intros c n m H. unfold snells_law_scalar. cbv zeta. rewrite cdiv_nz by exact H. cbn [obind].
  unfold cos_in, tangential2. f_equal. f_equal. assert (S := csqrt_sq (1 - c * c)).
  transitivity (1 - n * n * (csqrt (1 - c * c) * csqrt (1 - c * c)) / (m * m)); [field; exact H|].
  rewrite S. reflexivity.
Qed.

Lemma cos_in_sq : forall k n : C, n <> 0 -> n * n * (cos_in k n * cos_in k n) = n * n - k.
Proof. intros k n H. unfold cos_in. rewrite csqrt_sq. field; exact H. Qed.

Lemma tangential2_cos_in : forall k n : C, n <> 0 -> tangential2 (cos_in k n) n = k.
Proof.
  intros k n H. unfold tangential2.
  transitivity (n * n - n * n * (cos_in k n * cos_in k n)); [ring|]. rewrite cos_in_sq by exact H. ring.
Qed.

Lemma snell_same : forall k n : C, n <> 0 -> snells_law_scalar (cos_in k n) n n = Some (cos_in k n).
Proof. intros k n H. rewrite snell_value, tangential2_cos_in by exact H. reflexivity. Qed.

Lemma snell_law_holds : forall c n m c' : C, snells_law_scalar c n m = Some c' ->
  (m * m) * (1 - c' * c') = (n * n) * (1 - c * c) /\ (0 <= Re c')%R.
Proof.
  intros c n m c' H. assert (M : m <> 0).
  { intros ->. unfold snells_law_scalar in H. cbv zeta in H. rewrite cdiv_z in H. discriminate. }
  rewrite snell_value in H by exact M. injection H as <-. split.
  - apply (tangential2_cos_in _ _ M).
  - apply csqrt_Re.
Qed.

Lemma snell_chain_direct : forall ns c n m, List.Forall (fun x : C => x <> 0) (ns ++ [m]) ->
  snell_chain c n (ns ++ [m]) = snells_law_scalar c n m.
Proof.
  induction ns as [|a ns IH]; intros c n m H; cbn [app] in *.
  - cbn [snell_chain]. destruct (snells_law_scalar c n m); reflexivity.
  - inversion H as [|? ? A H']; subst. cbn [snell_chain]. rewrite snell_value by exact A. rewrite IH by exact H'.
    apply Forall_app in H'. destruct H' as [_ H']. inversion H'; subst.
    rewrite !snell_value by assumption. rewrite tangential2_cos_in by exact A. reflexivity.
Qed.

Lemma snell_identity : forall c n : C, n <> 0 -> (0 < Re c)%R -> snells_law_scalar c n n = Some c.
Proof.
  intros c n H R0. rewrite snell_value by exact H. f_equal. unfold cos_in, tangential2.
  replace (1 - n * n * (1 - c * c) / (n * n)) with (c * c) by (field; exact H).
  apply csqrt_of_sq, R0.
Qed.

(** ** Stacks *)
Lemma alayer_induction : forall P : alayer -> Prop,
  (forall l, P (ALayer l)) ->
  (forall ls, List.Forall P ls -> P (ASequence ls)) ->
  (forall ls n, List.Forall P ls -> P (APeriodic ls n)) ->
  forall l, P l.
Proof.
  intros P H1 H2 H3. fix IH 1. intros [l|ls|ls n].
  - apply H1.
  - apply H2. induction ls; constructor; auto.
  - apply H3. induction ls; constructor; auto.
Qed.

Section Transfer.
Variables (wavelength : R) (s : bool).

Fixpoint seq_transfer (ls : list alayer) (st : lstate) (result : option mat2) : lstate * option mat2 :=
  match ls with
  | [] => (st, result)
  | l :: ls => let x := transfer wavelength s l st in seq_transfer ls (fst x) (omul result (snd x))
  end.

Lemma transfer_sequence : forall ls st, transfer wavelength s (ASequence ls) st = seq_transfer ls st (Some mat_id).
Proof. reflexivity. Qed.

Lemma transfer_periodic : forall ls n st, transfer wavelength s (APeriodic ls n) st =
  let start := transfer wavelength s (ASequence ls) st in
  let periodic := transfer wavelength s (ASequence ls) (fst start) in
  (fst periodic, omul (snd start) (obind (snd periodic) (fun p => mat_power p (n - 1)))).
Proof. reflexivity. Qed.

Lemma seq_result : forall ls st m, seq_transfer ls st m =
  (fst (transfer wavelength s (ASequence ls) st), omul m (snd (transfer wavelength s (ASequence ls) st))).
Proof.
  induction ls as [|l ls IH]; intros st m; rewrite transfer_sequence.
  - cbn. rewrite omul_id_r. reflexivity.
  - cbn [seq_transfer]. cbv zeta. rewrite !(IH (fst (transfer wavelength s l st))). cbn [fst snd].
    rewrite omul_id_l, <- omul_assoc. reflexivity.
Qed.

Lemma transfer_nil : forall st, transfer wavelength s (ASequence []) st = (st, Some mat_id).
Proof. reflexivity. Qed.

Lemma transfer_cons : forall l ls st, transfer wavelength s (ASequence (l :: ls)) st =
  let x := transfer wavelength s l st in
  let y := transfer wavelength s (ASequence ls) (fst x) in
  (fst y, omul (snd x) (snd y)).
Proof.
  intros. rewrite transfer_sequence. cbn [seq_transfer]. cbv zeta. rewrite seq_result, omul_id_l. reflexivity.
Qed.

Lemma transfer_app : forall l1 l2 st, transfer wavelength s (ASequence (l1 ++ l2)) st =
  let x := transfer wavelength s (ASequence l1) st in
  let y := transfer wavelength s (ASequence l2) (fst x) in
  (fst y, omul (snd x) (snd y)).
Proof.
  induction l1 as [|l l1 IH]; intros l2 st; cbn [app].
  - cbv zeta. rewrite transfer_nil. cbn [fst snd]. rewrite omul_id_l. destruct (transfer _ _ _ st); reflexivity.
  - rewrite !transfer_cons. cbv zeta. cbn [fst snd]. rewrite IH. cbv zeta. cbn [fst snd].
    rewrite omul_assoc. reflexivity.
Qed.

Lemma transfer_single : forall l st, transfer wavelength s (ASequence [l]) st = transfer wavelength s l st.
Proof.
  intros. rewrite transfer_cons. cbv zeta. rewrite transfer_nil. cbn [fst snd]. rewrite omul_id_r.
  destruct (transfer wavelength s l st); reflexivity.
Qed.

(** *** The state: index, cosine and mask *)
Definition step (l : layer) (st : lstate) : lstate := fst (layer_transfer wavelength s l st).
Fixpoint visits (l : alayer) : list layer :=
  let all := fix all (ls : list alayer) :=
    match ls with [] => [] | l :: ls => visits l ++ all ls end in
  match l with
  | ALayer l => [l]
  | ASequence ls => all ls
  | APeriodic ls _ => all ls ++ all ls
  end.
Fixpoint visits_all (ls : list alayer) : list layer :=
  match ls with [] => [] | l :: ls => visits l ++ visits_all ls end.
Definition run (v : list layer) (st : lstate) : lstate := fold_left (fun st l => step l st) v st.

Lemma run_app : forall v w st, run (v ++ w) st = run w (run v st).
Proof. intros. unfold run. apply fold_left_app. Qed.

Lemma transfer_seq_state : forall ls st,
  List.Forall (fun l => forall st, fst (transfer wavelength s l st) = run (visits l) st) ls ->
  fst (transfer wavelength s (ASequence ls) st) = run (visits_all ls) st.
Proof.
  induction ls as [|l ls IH]; intros st H; [reflexivity|].
  inversion H as [|? ? A B]; subst. rewrite transfer_cons. cbv zeta. cbn [fst visits_all].
  rewrite run_app, <- A. apply IH, B.
Qed.

Lemma transfer_state : forall l st, fst (transfer wavelength s l st) = run (visits l) st.
Proof.
  induction l as [l|ls IH|ls n IH] using alayer_induction; intros st.
  - reflexivity.
  - exact (transfer_seq_state ls st IH).
  - rewrite transfer_periodic. cbv zeta. cbn [fst].
    rewrite !(transfer_seq_state ls _ IH). symmetry. exact (run_app (visits_all ls) (visits_all ls) st).
Qed.

Lemma visits_layers : forall l x, In x (visits l) -> In x (layers_of l).
Proof.
  induction l as [l|ls IH|ls n IH] using alayer_induction; intros x H; [exact H| |].
  - change (In x (visits_all ls)) in H.
    change (In x ((fix all ls := match ls with [] => [] | l :: ls => layers_of l ++ all ls end) ls)).
    induction IH as [|l ls A _ IH]; [exact H|]. cbn in *. apply in_app_iff in H. apply in_app_iff.
    destruct H as [H|H]; [left; apply A, H | right; apply IH, H].
  - assert (H' : In x (visits_all ls)).
    { change (In x (visits_all ls ++ visits_all ls)) in H. apply in_app_iff in H. destruct H; assumption. }
    clear H. change (In x ((fix all ls := match ls with [] => [] | l :: ls => layers_of l ++ all ls end) ls)).
    induction IH as [|l ls A _ IH]; [exact H'|]. cbn in *. apply in_app_iff in H'. apply in_app_iff.
    destruct H' as [H|H]; [left; apply A, H | right; apply IH, H].
Qed.

Definition nonzero (l : layer) : Prop := layer_n l wavelength <> 0.

(** Whether light gets through one layer, given the tangential component. *)
Definition open_layer (k : C) (l : layer) : bool :=
  where_propagation (propagation wavelength (cos_in k (layer_n l wavelength)) (ly_thickness l) (layer_n l wavelength)).

Lemma step_value : forall l st d, nonzero l -> st_direction st = Some d ->
  let k := tangential2 d (st_n st) in
  step l st = LState (layer_n l wavelength) (Some (cos_in k (layer_n l wavelength))) (st_where st && open_layer k l).
Proof.
  intros l st d N D k. unfold step, layer_transfer. cbv zeta. cbn [fst]. rewrite D. cbn [obind].
  rewrite snell_value by exact N. cbn [obind]. reflexivity.
Qed.

Lemma run_value : forall v l st d, List.Forall nonzero (v ++ [l]) -> st_direction st = Some d ->
  let k := tangential2 d (st_n st) in
  run (v ++ [l]) st = LState (layer_n l wavelength) (Some (cos_in k (layer_n l wavelength)))
                             (st_where st && forallb (open_layer k) (v ++ [l])).
Proof.
  induction v as [|a v IH]; intros l st d H D k; cbn [app] in *.
  - inversion H; subst. change (run [l] st) with (step l st). rewrite (step_value l st d) by assumption.
    cbn [forallb]. rewrite andb_true_r. reflexivity.
  - inversion H as [|? ? A H']; subst. change (run (a :: v ++ [l]) st) with (run (v ++ [l]) (step a st)).
    rewrite (step_value a st d A D). fold k.
    erewrite (IH l) by (exact H' || reflexivity). cbn [st_n st_where].
    rewrite tangential2_cos_in by exact A. cbn [forallb]. rewrite andb_assoc. reflexivity.
Qed.

Lemma run_idempotent : forall v st d, List.Forall nonzero v -> st_direction st = Some d ->
  run v (run v st) = run v st.
Proof.
  intros v st d H D. destruct v as [|a v] using rev_ind; [reflexivity|]. clear IHv.
  rewrite (run_value v a st d H D). erewrite (run_value v a) by (exact H || reflexivity). cbn [st_n st_where].
  apply Forall_app in H. destruct H as [_ H]. inversion H; subst.
  rewrite tangential2_cos_in by assumption. f_equal. rewrite <- andb_assoc, andb_diag. reflexivity.
Qed.

(** *** Periodic sequences *)
Lemma list_times_succ : forall {A} (l : list A) k, list_times l (Z.of_nat (S k)) = l ++ list_times l (Z.of_nat k).
Proof. intros. unfold list_times. rewrite !Nat2Z.id. reflexivity. Qed.

Lemma repeated_state : forall ls k st, fst (transfer wavelength s (ASequence ls) st) = st ->
  fst (transfer wavelength s (ASequence (list_times ls (Z.of_nat k))) st) = st.
Proof.
  intros ls k st H. induction k as [|k IH]; [reflexivity|].
  rewrite list_times_succ, transfer_app. cbv zeta. cbn [fst]. rewrite H. exact IH.
Qed.

Lemma repeated_matrix : forall ls k st, fst (transfer wavelength s (ASequence ls) st) = st ->
  forall p, snd (transfer wavelength s (ASequence ls) st) = Some p ->
  snd (transfer wavelength s (ASequence (list_times ls (Z.of_nat k))) st) = Some (mat_npower p k).
Proof.
  intros ls k st H p P. induction k as [|k IH]; [reflexivity|].
  rewrite list_times_succ, transfer_app. cbv zeta. cbn [snd]. rewrite H, P, IH. reflexivity.
Qed.

Lemma mat_power_nat : forall p k, mat_power p (Z.of_nat k) = Some (mat_npower p k).
Proof.
  intros p [|k]; [reflexivity|]. cbn [Z.of_nat mat_power]. rewrite SuccNat2Pos.id_succ. reflexivity.
Qed.

Lemma periodic_is_repetition : forall ls n st d, (1 <= n)%Z ->
  List.Forall nonzero (layers_of (ASequence ls)) -> st_direction st = Some d ->
  (n = 1%Z -> exists m, snd (transfer wavelength s (ASequence (ls ++ ls)) st) = Some m) ->
  transfer wavelength s (APeriodic ls n) st = transfer wavelength s (ASequence (list_times ls n)) st.
Proof.
  intros ls n st d N H D X.
  assert (V : List.Forall nonzero (visits (ASequence ls))).
  { rewrite Forall_forall in *. intros x I. apply H, visits_layers, I. }
  destruct (Z_of_nat_complete (n - 1) ltac:(lia)) as (k & K). replace n with (Z.of_nat (S k)) in * by lia.
  rewrite list_times_succ, transfer_app, transfer_periodic. cbv zeta.
  set (st1 := fst (transfer wavelength s (ASequence ls) st)) in *.
  assert (F : fst (transfer wavelength s (ASequence ls) st1) = st1).
  { unfold st1. rewrite !transfer_state. apply (run_idempotent _ st d V D). }
  rewrite F, repeated_state by exact F. f_equal.
  replace (Z.of_nat (S k) - 1)%Z with (Z.of_nat k) by lia.
  destruct (snd (transfer wavelength s (ASequence ls) st1)) as [p|] eqn:P.
  - rewrite (repeated_matrix ls k st1 F p P). cbn [obind]. rewrite mat_power_nat. reflexivity.
  - destruct k as [|k].
    + destruct (X ltac:(lia)) as (m & M). rewrite transfer_app in M. cbv zeta in M. cbn [snd] in M.
      fold st1 in M. rewrite P in M. destruct (snd (transfer wavelength s (ASequence ls) st)); discriminate.
    + rewrite list_times_succ, transfer_app. cbv zeta. cbn [snd]. rewrite P.
      destruct (snd (transfer wavelength s (ASequence ls) st)); reflexivity.
Qed.
End Transfer.

Lemma thickness_app : forall a b, thickness (ASequence (a ++ b)) = (thickness (ASequence a) + thickness (ASequence b))%R.
Proof. induction a as [|l a IH]; intros b; cbn in *; [ring|]. rewrite IH. ring. Qed.

Lemma periodic_thickness : forall ls n, (0 <= n)%Z -> thickness (APeriodic ls n) = thickness (ASequence (list_times ls n)).
Proof.
  intros ls n H. destruct (Z_of_nat_complete n H) as (k & ->). clear H.
  change (thickness (APeriodic ls (Z.of_nat k))) with (IZR (Z.of_nat k) * thickness (ASequence ls))%R.
  induction k as [|k IH]; [cbn; ring|]. rewrite list_times_succ, thickness_app, <- IH, Nat2Z.inj_succ, succ_IZR. ring.
Qed.

(** A refutation for zero periods. *)
Definition glass : layer := Layer (Some (fun _ => RtoC 2)) 1 None.
Lemma periodic_zero_index : 
  st_n (fst (transfer 1 true (APeriodic [ALayer glass] 0) (LState 1 (Some (RtoC 1)) true))) = RtoC 2 /\
  st_n (fst (transfer 1 true (ASequence (list_times [ALayer glass] 0)) (LState 1 (Some (RtoC 1)) true))) = RtoC 1.
Proof. split; reflexivity. Qed.
