(** The parallel loop gives the same result under every schedule. *)
From Coq Require Import List ZArith Bool Lia.
From Verif Require Import Num RamanathanModel ParallelModel.
Import ListNotations.
Open Scope opt_scope.

(** What a thread of slice [i] may look like: between increments, or between the load and the
    store of one, in which case its register holds the element. *)
Definition pending (g : Z -> Z -> Z) (i : nat) (t : thread) (rest : list (Z * Z)) : Prop :=
  let code := flat_map (fun w => [Load (i, w); StoreNext (i, w)]) in
  th_code t = code rest \/
  exists w rest', rest = w :: rest' /\ th_code t = StoreNext (i, w) :: code rest' /\ th_register t = g (fst w) (snd w).

Definition invariant (g : Z -> Z -> Z) (i : nat) (t : thread) (final : Z -> Z -> Z) : Prop :=
  exists rest, pending g i t rest /\ forall x y, fold_left increment rest g x y = final x y.

Lemma fold_ext : forall w g h, (forall x y, g x y = h x y) -> forall x y, fold_left increment w g x y = fold_left increment w h x y.
Proof.
  induction w as [|a w IH]; intros g h E x y; [apply E|]. cbn. apply IH. intros u v. unfold increment.
  destruct ((u =? fst a) && (v =? snd a))%Z; rewrite E; reflexivity.
Qed.

Lemma invariant_ext : forall g h i t f, (forall x y, g x y = h x y) -> invariant g i t f -> invariant h i t f.
Proof.
  intros g h i t f E (rest & P & F). exists rest. split.
  - destruct P as [P|(w & r & R & C & G)]; [left; exact P|]. right. exists w, r. split; [exact R|]. split; [exact C|]. rewrite G. apply E.
  - intros x y. rewrite <- F. apply fold_ext. intros; symmetry; apply E.
Qed.

Lemma execute_own : forall m i t f m' t', invariant (m i) i t f -> execute m t = (m', t') ->
  invariant (m' i) i t' f /\ forall k, k <> i -> forall x y, m' k x y = m k x y.
Proof.
  intros m i [code reg] f m' t' (rest & P & F) E. unfold pending in P. cbn [th_code th_register] in P. unfold execute in E. cbn [th_code th_register] in E.
  destruct P as [->|(w & r & -> & -> & G)].
  - destruct rest as [|w rest]; cbn [flat_map app] in E.
    + injection E as <- <-. split; [|reflexivity]. exists []. split; [left; reflexivity | exact F].
    + injection E as <- <-. split; [|reflexivity]. exists (w :: rest). split; [|exact F].
      right. exists w, rest. split; [reflexivity|]. split; reflexivity.
  - injection E as <- <-. split.
    + exists r. split; [left; reflexivity|]. intros x y. rewrite <- F. cbn [fold_left]. apply fold_ext. intros u v.
      unfold write, increment. cbn [fst snd]. rewrite Nat.eqb_refl. cbn [andb].
      destruct (Z.eqb_spec u (fst w)) as [->|]; [|reflexivity]. destruct (Z.eqb_spec v (snd w)) as [->|]; [|reflexivity].
      cbn [andb]. rewrite G. reflexivity.
    + intros k K x y. unfold write. cbn [fst snd]. rewrite (proj2 (Nat.eqb_neq k i) K). reflexivity.
Qed.

Lemma nth_set_same : forall {A} k (a b : A) l, nth_error l k = Some b -> nth_error (set_nth k a l) k = Some a.
Proof. intros A k. induction k as [|k IH]; intros a b [|c l] E; try discriminate; [reflexivity|]. exact (IH a b l E). Qed.
Lemma nth_set_other : forall {A} k j (a : A) l, j <> k -> nth_error (set_nth k a l) j = nth_error l j.
Proof.
  intros A k. induction k as [|k IH]; intros [|j] a [|c l] H; try reflexivity; try contradiction.
  cbn. apply IH. congruence.
Qed.
Lemma set_nth_length : forall {A} k (a : A) l, length (set_nth k a l) = length l.
Proof. intros A k. induction k as [|k IH]; intros a [|c l]; try reflexivity. cbn. f_equal. apply IH. Qed.

Definition all_invariant (finals : nat -> Z -> Z -> Z) (st : memory * list thread) : Prop :=
  forall i t, nth_error (snd st) i = Some t -> invariant (fst st i) i t (finals i).

Lemma step_invariant : forall finals st k, all_invariant finals st -> all_invariant finals (step st k).
Proof.
  intros finals [m ts] k H i t. unfold step. cbn [fst snd] in *. destruct (nth_error ts k) as [tk|] eqn:K; [|apply H].
  destruct (execute m tk) as [m' t'] eqn:E. cbn [fst snd]. destruct (execute_own m k tk (finals k) m' t' (H k tk K) E) as [I O].
  destruct (Nat.eq_dec i k) as [->|D].
  - rewrite (nth_set_same k t' tk ts K). intros X. injection X as <-. exact I.
  - rewrite nth_set_other by exact D. intros X. apply (invariant_ext (m i)); [intros; symmetry; apply O, D|]. apply H. exact X.
Qed.

Lemma schedule_invariant : forall finals ks st, all_invariant finals st -> all_invariant finals (schedule st ks).
Proof. intros finals ks. induction ks as [|k ks IH]; intros st H; [exact H|]. cbn. apply IH, step_invariant, H. Qed.

Lemma step_length : forall st k, length (snd (step st k)) = length (snd st).
Proof.
  intros [m ts] k. unfold step. cbn [fst snd]. destruct (nth_error ts k) as [t|]; [|reflexivity].
  destruct (execute m t) as [m' t']. cbn [snd]. apply set_nth_length.
Qed.
Lemma schedule_length : forall ks st, length (snd (schedule st ks)) = length (snd st).
Proof. induction ks as [|k ks IH]; intros st; [reflexivity|]. cbn. fold (schedule (step st k) ks). rewrite IH. apply step_length. Qed.

Lemma threads_nth : forall ws i, nth_error (threads ws) i = option_map (thread_of i) (nth_error ws i).
Proof.
  assert (G : forall ws j i, nth_error (map (fun iw : nat * list (Z * Z) => thread_of (fst iw) (snd iw)) (combine (seq j (length ws)) ws)) i
     = option_map (thread_of (j + i)) (nth_error ws i)).
  { induction ws as [|w ws IH]; intros j [|i]; cbn; try reflexivity.
    - rewrite Nat.add_0_r. reflexivity.
    - rewrite IH. f_equal. f_equal. lia. }
  intros ws i. exact (G ws 0%nat i).
Qed.

Lemma all_writes_nth : forall wrap nx ny ss ws, all_writes wrap nx ny ss = Some ws -> length ws = length ss /\
  forall i s, nth_error ss i = Some s -> exists w, nth_error ws i = Some w /\ slice_writes wrap nx ny s = Some w.
Proof.
  intros wrap nx ny ss. induction ss as [|s ss IH]; intros ws E; cbn in E.
  - injection E as <-. split; [reflexivity|]. intros [|i] s H; discriminate.
  - destruct (slice_writes wrap nx ny s) as [w|] eqn:S; [|discriminate]. cbn [obind] in E.
    destruct (all_writes wrap nx ny ss) as [v|] eqn:A; [|discriminate]. cbn [obind] in E. injection E as <-.
    destruct (IH v eq_refl) as [L N]. split; [cbn; rewrite L; reflexivity|].
    intros [|i] s' H; cbn in H; [injection H as <-; exists w; split; [reflexivity | exact S] | apply N, H].
Qed.

Lemma parallel_result : forall wrap nx ny ss ks m ts, run_parallel wrap nx ny ss ks = Some (m, ts) ->
  (forall t, In t ts -> th_code t = []) ->
  forall i s, nth_error ss i = Some s -> exists g, run_slice wrap nx ny s = Some g /\ forall x y, m i x y = g x y.
Proof.
  intros wrap nx ny ss ks m ts E D i s S. unfold run_parallel in E.
  destruct (all_writes wrap nx ny ss) as [ws|] eqn:A; [|discriminate]. cbn [obind] in E. injection E as E.
  destruct (all_writes_nth _ _ _ _ _ A) as [L N]. destruct (N i s S) as (w & W & SW).
  exists (fold_left increment w zeros). split; [unfold run_slice; rewrite SW; reflexivity|].
  set (finals := fun j => fold_left increment (match nth_error ws j with Some u => u | None => [] end) zeros).
  assert (I : all_invariant finals (schedule (fun _ => zeros, threads ws) ks)).
  { apply schedule_invariant. intros j t. cbn [fst snd]. rewrite threads_nth. unfold finals. destruct (nth_error ws j) as [u|]; [|discriminate].
    cbn [option_map]. intros X. injection X as <-. exists u. split; [left; reflexivity | reflexivity]. }
  rewrite E in I. assert (LT : length ts = length ss).
  { assert (X := schedule_length ks (fun _ => zeros, threads ws)). rewrite E in X. cbn [snd] in X. rewrite X.
    unfold threads. rewrite map_length, combine_length, seq_length. lia. }
  destruct (nth_error ts i) as [t|] eqn:T.
  - specialize (I i t T). cbn [fst] in I. destruct I as (rest & P & F). assert (C := D t (nth_error_In _ _ T)).
    destruct P as [P|(a & r & _ & P & _)]; rewrite C in P; [|discriminate].
    destruct rest as [|a rest]; [|discriminate]. intros x y. specialize (F x y). cbn [fold_left] in F. rewrite F. unfold finals. rewrite W. reflexivity.
  - exfalso. apply nth_error_None in T. assert (X : nth_error ss i <> None) by congruence. apply nth_error_Some in X. lia.
Qed.

(** Every schedule can be completed. *)
Definition work (ts : list thread) : nat := list_sum (map (fun t => length (th_code t)) ts).

Lemma work_set : forall k t' t ts, nth_error ts k = Some t -> (work (set_nth k t' ts) + length (th_code t) = work ts + length (th_code t'))%nat.
Proof.
  induction k as [|k IH]; intros t' t [|u ts] E; try discriminate; unfold work in *; cbn [set_nth map list_sum fold_right].
  - injection E as <-. fold (list_sum (map (fun t0 : thread => length (th_code t0)) ts)). lia.
  - cbn in E. specialize (IH t' t ts E). unfold list_sum in *. cbn in *. lia.
Qed.

Lemma work_0 : forall ts, work ts = 0%nat -> forall t, In t ts -> th_code t = [].
Proof.
  induction ts as [|u ts IH]; intros W t I; [destruct I|]. unfold work in *. cbn in W.
  destruct I as [<-|I]; [destruct (th_code u); [reflexivity | cbn in W; lia]|]. apply IH; [unfold list_sum; lia | exact I].
Qed.

Lemma work_pos : forall ts, (0 < work ts)%nat -> exists k t, nth_error ts k = Some t /\ th_code t <> [].
Proof.
  induction ts as [|u ts IH]; intros W; unfold work in *; cbn in W; [lia|].
  destruct (th_code u) as [|c l] eqn:C.
  - destruct IH as (k & t & K & T); [unfold list_sum; cbn in W; lia|]. exists (S k), t. split; assumption.
  - exists 0%nat, u. split; [reflexivity | rewrite C; discriminate].
Qed.

Lemma can_complete : forall st, exists ks, forall t, In t (snd (schedule st ks)) -> th_code t = [].
Proof.
  intros st. remember (work (snd st)) as n eqn:E. revert st E. induction n as [|n IH]; intros [m ts] E; cbn [snd] in E.
  - exists []. cbn. apply work_0. symmetry; exact E.
  - destruct (work_pos ts ltac:(lia)) as (k & t & K & T).
    destruct (IH (step (m, ts) k)) as [ks H].
    + unfold step. cbn [fst snd]. rewrite K. destruct (execute m t) as [m' t'] eqn:X. cbn [snd].
      assert (W := work_set k t' t ts K). unfold execute in X. destruct (th_code t) as [|c l] eqn:C; [contradiction|].
      cbn [length] in W. destruct c; injection X as <- <-; cbn [th_code] in W |- *; lia.
    + exists (k :: ks). exact H.
Qed.

Lemma parallel_exists : forall wrap nx ny ss, (forall s, In s ss -> exists g, run_slice wrap nx ny s = Some g) ->
  forall ks, exists ks' m ts, run_parallel wrap nx ny ss (ks ++ ks') = Some (m, ts) /\ forall t, In t ts -> th_code t = [].
Proof.
  intros wrap nx ny ss H ks. assert (A : exists ws, all_writes wrap nx ny ss = Some ws).
  { induction ss as [|s ss IH]; [exists []; reflexivity|]. destruct IH as [ws E]; [intros u I; apply H; right; exact I|].
    destruct (H s (or_introl eq_refl)) as [g G]. unfold run_slice in G. cbn. destruct (slice_writes wrap nx ny s) as [w|]; [|discriminate].
    cbn [obind]. rewrite E. exists (w :: ws). reflexivity. }
  destruct A as [ws A]. destruct (can_complete (schedule (fun _ => zeros, threads ws) ks)) as [ks' D].
  exists ks'. unfold run_parallel. rewrite A. cbn [obind]. unfold schedule in *. rewrite fold_left_app.
  destruct (fold_left step ks' _) as [m ts]. exists m, ts. split; [reflexivity | exact D].
Qed.
