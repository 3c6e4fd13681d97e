(** Proofs about sequential systems: stops, normalised grids, axes, averages. *)
From Coq Require Import String Reals List Bool Arith Permutation Lra Lia.
From Verif Require Import Vec Num NumLemmas RayModel SurfaceModel SystemModel SystemSpec.
Import ListNotations.
Open Scope R_scope.

(** * Indices *)

Lemma surfaces_all_given : forall sys,
  (existsb st_field (given_surfaces sys) = true /\ surfaces_all sys = given_surfaces sys) \/
  (existsb st_field (given_surfaces sys) = false /\
   surfaces_all sys = promote (sys_object sys) :: tl (given_surfaces sys)).
Proof.
  intros sys. unfold surfaces_all, given_surfaces.
  replace (match sys_sensor sys with Some s => ([sys_object sys] ++ sys_surfaces sys) ++ [s] | None => [sys_object sys] ++ sys_surfaces sys end)
    with (sys_object sys :: sys_surfaces sys ++ match sys_sensor sys with Some s => [s] | None => [] end).
  - cbv zeta. destruct (existsb st_field _) eqn:E; [left|right]; split; try reflexivity; exact E.
  - destruct (sys_sensor sys); cbn; [reflexivity|]. rewrite app_nil_r. reflexivity.
Qed.

Lemma existsb_false_all : forall (A : Type) (f : A -> bool) l, existsb f l = false -> forall x, In x l -> f x = false.
Proof.
  intros A f l H x I. destruct (f x) eqn:E; [|reflexivity].
  assert (existsb f l = true) by (apply existsb_exists; exists x; auto). congruence.
Qed.

Lemma surfaces_all_content : forall sys,
  map st_surface (surfaces_all sys) = map st_surface (given_surfaces sys) /\
  map st_pupil (surfaces_all sys) = map st_pupil (given_surfaces sys) /\
  ((exists s, In s (given_surfaces sys) /\ st_field s = true) ->
     map st_field (surfaces_all sys) = map st_field (given_surfaces sys)) /\
  ((forall s, In s (given_surfaces sys) -> st_field s = false) ->
     map st_field (surfaces_all sys) = true :: map (fun _ => false) (tl (given_surfaces sys))).
Proof.
  intros sys. destruct (surfaces_all_given sys) as [[E ->]|[E ->]].
  - repeat split; auto. intros H. apply existsb_exists in E. destruct E as (s & I & F). rewrite H in F by exact I. discriminate.
  - assert (N := existsb_false_all _ _ _ E). repeat split; auto.
    + intros (s & I & F). rewrite N in F by exact I. discriminate.
    + intros _. cbn. f_equal. apply map_ext_in. intros s I. apply N. right. exact I.
Qed.

Lemma surfaces_all_field : forall sys, exists s, In s (surfaces_all sys) /\ st_field s = true.
Proof.
  intros sys. destruct (surfaces_all_given sys) as [[E ->]|[E ->]].
  - apply existsb_exists in E. exact E.
  - exists (promote (sys_object sys)). split; [left; reflexivity|reflexivity].
Qed.

Lemma indices_from_in : forall (A : Type) (f : A -> bool) l i j,
  In j (indices_from f i l) <-> exists s, (i <= j)%nat /\ nth_error l (j - i) = Some s /\ f s = true.
Proof.
  intros A f l. induction l as [|a l IH]; intros i j; cbn [indices_from].
  - split; [intros []|]. intros (s & _ & H & _). destruct (j - i)%nat; discriminate.
  - assert (Step : In j (indices_from f (S i) l) <-> exists s, (i < j)%nat /\ nth_error (a :: l) (j - i) = Some s /\ f s = true).
    { rewrite IH. split; intros (s & H1 & H2 & H3); exists s; (split; [lia|]); split; auto.
      - replace (j - i)%nat with (S (j - S i)) by lia. exact H2.
      - replace (j - i)%nat with (S (j - S i)) in H2 by lia. exact H2. }
    destruct (f a) eqn:F; [cbn [In]|]; rewrite Step; split.
    + intros [<-|(s & H1 & H2 & H3)].
      * exists a. rewrite Nat.sub_diag. repeat split; auto.
      * exists s. repeat split; auto. lia.
    + intros (s & H1 & H2 & H3). destruct (Nat.eq_dec i j) as [E|E]; [left; exact E|right].
      exists s. repeat split; auto. lia.
    + intros (s & H1 & H2 & H3). exists s. repeat split; auto. lia.
    + intros (s & H1 & H2 & H3). destruct (Nat.eq_dec i j) as [E|E].
      * subst. rewrite Nat.sub_diag in H2. cbn in H2. congruence.
      * exists s. repeat split; auto. lia.
Qed.

Lemma indices_in : forall (A : Type) (f : A -> bool) l j,
  In j (indices_from f 0 l) <-> exists s, nth_error l j = Some s /\ f s = true.
Proof.
  intros. rewrite indices_from_in. rewrite Nat.sub_0_r. split; intros (s & H); exists s; [tauto|split; [lia|tauto]].
Qed.

(** Strictly increasing lists. *)
Fixpoint increasing (l : list nat) : Prop :=
  match l with [] => True | x :: l => (forall y, In y l -> (x < y)%nat) /\ increasing l end.

Lemma indices_increasing : forall (A : Type) (f : A -> bool) l i, increasing (indices_from f i l).
Proof.
  intros A f l. induction l as [|a l IH]; intros i; cbn; [exact I|].
  destruct (f a); [|apply IH]. split; [|apply IH].
  intros y Y. apply indices_from_in in Y. destruct Y as (s & H & _). lia.
Qed.

Lemma last_of_cons : forall (A : Type) (x : A) l, l <> [] -> last_of (x :: l) = last_of l.
Proof. intros A x [|y l] H; [congruence|reflexivity]. Qed.

Lemma last_of_in : forall (A : Type) (l : list A) x, last_of l = Some x -> In x l.
Proof.
  intros A l. induction l as [|a [|b l] IH]; intros x H; [discriminate| |].
  - injection H as <-. left; reflexivity.
  - right. apply IH. exact H.
Qed.

Lemma last_of_none : forall (A : Type) (l : list A), last_of l = None <-> l = [].
Proof.
  intros A l. induction l as [|a [|b l] IH]; split; intros H; try discriminate; try reflexivity.
  rewrite last_of_cons in H by discriminate. apply IH in H. discriminate.
Qed.

Lemma last_of_some : forall (A : Type) (l : list A), l <> [] -> exists x, last_of l = Some x.
Proof. intros A l H. destruct (last_of l) eqn:E; [eauto|]. apply last_of_none in E. congruence. Qed.

Lemma last_of_greatest : forall l x, increasing l -> last_of l = Some x -> forall y, In y l -> (y <= x)%nat.
Proof.
  intros l. induction l as [|a [|b l] IH]; intros x S H y Y; [discriminate| |].
  - injection H as <-. destruct Y as [<-|[]]. lia.
  - rewrite last_of_cons in H by discriminate. destruct S as [S1 S2].
    destruct Y as [<-|Y].
    + assert (In x (b :: l)) by (apply last_of_in; exact H). generalize (S1 x H0). lia.
    + apply (IH x S2 H y Y).
Qed.

Lemma index_largest : forall (A : Type) (f : A -> bool) l i,
  last_of (indices_from f 0 l) = Some i <-> largest_flagged f l i.
Proof.
  intros A f l i. split.
  - intros H. split.
    + apply indices_in, last_of_in. exact H.
    + intros j s J F. apply (last_of_greatest _ _ (indices_increasing A f l 0) H). apply indices_in. eauto.
  - intros [E G]. apply indices_in in E.
    destruct (last_of_some _ (indices_from f 0 l)) as [k K]. { intros N. rewrite N in E. destruct E. }
    rewrite K. f_equal.
    assert (i <= k)%nat by exact (last_of_greatest _ _ (indices_increasing A f l 0) K i E).
    apply last_of_in, indices_in in K. destruct K as (s & K1 & K2). specialize (G _ _ K1 K2). lia.
Qed.

Lemma index_none : forall (A : Type) (f : A -> bool) l,
  last_of (indices_from f 0 l) = None <-> forall s, In s l -> f s = false.
Proof.
  intros A f l. rewrite last_of_none. split.
  - intros H s I. destruct (f s) eqn:F; [|reflexivity]. apply In_nth_error in I. destruct I as [j J].
    assert (In j (indices_from f 0 l)) by (apply indices_in; eauto). rewrite H in H0. destruct H0.
  - intros H. destruct (indices_from f 0 l) as [|j r] eqn:E; [reflexivity|].
    assert (In j (indices_from f 0 l)) by (rewrite E; left; reflexivity). apply indices_in in H0.
    destruct H0 as (s & J & F). apply nth_error_In in J. rewrite H in F by exact J. discriminate.
Qed.

Lemma field_stop_exists : forall sys, exists i, index_field_stop sys = Some i /\
  largest_flagged st_field (surfaces_all sys) i.
Proof.
  intros sys. destruct (index_field_stop sys) as [i|] eqn:E.
  - exists i. split; [reflexivity|]. apply index_largest. exact E.
  - unfold index_field_stop, indices_field_stop in E. rewrite index_none in E.
    destruct (surfaces_all_field sys) as (s & I & F). rewrite E in F by exact I. discriminate.
Qed.

Lemma pupil_stop_iff : forall sys,
  (forall i, index_pupil_stop sys = Some i <-> largest_flagged st_pupil (surfaces_all sys) i) /\
  (index_pupil_stop sys = None <-> forall s, In s (given_surfaces sys) -> st_pupil s = false).
Proof.
  intros sys. split.
  - intros i. apply index_largest.
  - unfold index_pupil_stop, indices_pupil_stop. rewrite index_none.
    destruct (surfaces_all_content sys) as (_ & P & _).
    assert (Q : forall l : list stop_surface, (forall s, In s l -> st_pupil s = false) <-> List.Forall (fun b => b = false) (map st_pupil l)).
    { intros l. rewrite Forall_map, Forall_forall. reflexivity. }
    rewrite !Q, P. reflexivity.
Qed.

(** * The stop loop *)

Lemma stop_loop_enough : forall X (solve : nat -> nat -> bool -> option X) surfaces steps pupil field x,
  (length pupil + length field <= S steps)%nat \/ pupil = [] \/ field = [] ->
  stop_loop solve surfaces steps pupil field x <> Unfinished.
Proof.
  intros X solve surfaces steps. induction steps as [|steps IH]; intros pupil field x H.
  - destruct pupil as [|p P], field as [|f F]; cbn; try discriminate. cbn in H. destruct H as [H|[H|H]]; [lia|discriminate|discriminate].
  - destruct pupil as [|p P], field as [|f F]; cbn; try discriminate.
    destruct H as [H|[H|H]]; [|discriminate|discriminate].
    destruct (nth_error surfaces _) as [s|]; [|discriminate].
    destruct (solve _ _ _); [|discriminate].
    destruct (st_pupil s); apply IH; cbn [length] in *; left; lia.
Qed.

Lemma stop_loop_more : forall X (solve : nat -> nat -> bool -> option X) surfaces steps1 steps2 pupil field x,
  (steps1 <= steps2)%nat -> stop_loop solve surfaces steps1 pupil field x <> Unfinished ->
  stop_loop solve surfaces steps2 pupil field x = stop_loop solve surfaces steps1 pupil field x.
Proof.
  intros X solve surfaces steps1. induction steps1 as [|n IH]; intros steps2 pupil field x L H.
  - destruct pupil as [|p P], field as [|f F]; destruct steps2; try reflexivity; cbn in H; congruence.
  - destruct steps2 as [|m]; [lia|].
    destruct pupil as [|p P], field as [|f F]; try reflexivity. cbn in *.
    destruct (nth_error surfaces _) as [s|]; [|reflexivity].
    destruct (solve _ _ _); [|reflexivity].
    destruct (st_pupil s); apply IH; try lia; exact H.
Qed.

Lemma stops_terminate : forall X (solve : nat -> nat -> bool -> option X) sys start steps,
  (length (indices_pupil_stop sys) + length (indices_field_stop sys) <= S steps)%nat ->
  stops_only solve sys steps start <> Unfinished /\
  forall more, (steps <= more)%nat -> stops_only solve sys more start = stops_only solve sys steps start.
Proof.
  intros X solve sys start steps L.
  assert (N := stop_loop_enough X solve (surfaces_all sys) steps (indices_pupil_stop sys) (indices_field_stop sys) start (or_introl L)).
  unfold stops_only. destruct (indices_pupil_stop sys) as [|p P]; [split; [discriminate|reflexivity]|].
  destruct (indices_field_stop sys) as [|f F]; [split; [discriminate|reflexivity]|].
  split; [exact N|]. intros more M. apply stop_loop_more; assumption.
Qed.

(** The last pair solved, when no surface is both stops. *)
Lemma stop_loop_last : forall X (solve : nat -> nat -> bool -> option X) surfaces steps pupil field start x,
  increasing pupil -> increasing field -> pupil <> [] -> field <> [] ->
  (forall i, In i pupil -> exists s, nth_error surfaces i = Some s /\ st_pupil s = true) ->
  (forall i, In i field -> exists s, nth_error surfaces i = Some s /\ st_pupil s = false) ->
  stop_loop solve surfaces steps pupil field start = Done x ->
  exists p f, last_of pupil = Some p /\ last_of field = Some f /\
    ((p < f)%nat /\ (exists l, In l field /\ (p < l)%nat /\ (forall j, In j field -> (p < j)%nat -> (l <= j)%nat) /\ solve p l true = Some x) \/
     (f < p)%nat /\ (exists l, In l pupil /\ (f < l)%nat /\ (forall j, In j pupil -> (f < j)%nat -> (l <= j)%nat) /\ solve f l false = Some x)).
Proof.
  intros X solve surfaces steps. induction steps as [|steps IH]; intros pupil field start x SP SF NP NF HP HF H.
  { destruct pupil, field; cbn in H; congruence. }
  destruct pupil as [|p P]; [congruence|]. destruct field as [|f F]; [congruence|]. cbn in H.
  destruct (lt_eq_lt_dec p f) as [[L|E]|L].
  - replace (Nat.min p f) with p in H by lia. replace (Nat.max p f) with f in H by lia.
    destruct (HP p (or_introl eq_refl)) as (s & Es & Ps). rewrite Es, Ps in H.
    destruct (solve p f true) as [y|] eqn:Sy; [|discriminate].
    destruct P as [|p' P].
    + assert (y = x) by (destruct steps; cbn in H; congruence). subst y.
      destruct (last_of_some _ (f :: F) NF) as [m M].
      exists p, m. split; [reflexivity|]. split; [exact M|]. left.
      assert (f <= m)%nat by (apply (last_of_greatest _ _ SF M); left; reflexivity).
      split; [lia|]. exists f. repeat split; auto; [left; reflexivity|].
      intros j [<-|J] _; [lia|]. destruct SF as [SF _]. specialize (SF j J). lia.
    + destruct (IH (p' :: P) (f :: F) y x) as (p0 & f0 & L1 & L2 & D); auto; try discriminate.
      * destruct SP; assumption.
      * intros i I. apply HP. right; exact I.
      * exists p0, f0. split; [rewrite last_of_cons by discriminate; exact L1|]. split; [exact L2|].
        destruct D as [D|(D & l & I & Ll & Min & S)]; [left; exact D|right].
        split; [exact D|]. exists l. repeat split; auto; [right; exact I|].
        intros j [<-|J] K; [|apply Min; assumption].
        assert (f <= f0)%nat by (apply (last_of_greatest _ _ SF L2); left; reflexivity). lia.
  - subst f. destruct (HP p (or_introl eq_refl)) as (s & Es & Ps).
    destruct (HF p (or_introl eq_refl)) as (s' & Es' & Ps'). congruence.
  - replace (Nat.min p f) with f in H by lia. replace (Nat.max p f) with p in H by lia.
    destruct (HF f (or_introl eq_refl)) as (s & Es & Ps). rewrite Es, Ps in H.
    destruct (solve f p false) as [y|] eqn:Sy; [|discriminate].
    destruct F as [|f' F].
    + assert (y = x) by (destruct steps; cbn in H; congruence). subst y.
      destruct (last_of_some _ (p :: P) NP) as [m M].
      exists m, f. split; [exact M|]. split; [reflexivity|]. right.
      assert (p <= m)%nat by (apply (last_of_greatest _ _ SP M); left; reflexivity).
      split; [lia|]. exists p. repeat split; auto; [left; reflexivity|].
      intros j [<-|J] _; [lia|]. destruct SP as [SP _]. specialize (SP j J). lia.
    + destruct (IH (p :: P) (f' :: F) y x) as (p0 & f0 & L1 & L2 & D); auto; try discriminate.
      * destruct SF; assumption.
      * intros i I. apply HF. right; exact I.
      * exists p0, f0. split; [exact L1|]. split; [rewrite last_of_cons by discriminate; exact L2|].
        destruct D as [(D & l & I & Ll & Min & S)|D]; [left|right; exact D].
        split; [exact D|]. exists l. repeat split; auto; [right; exact I|].
        intros j [<-|J] K; [|apply Min; assumption].
        assert (p <= p0)%nat by (apply (last_of_greatest _ _ SP L1); left; reflexivity). lia.
Qed.

Lemma stops_last : forall X (solve : nat -> nat -> bool -> option X) sys steps start x,
  separate_stops (surfaces_all sys) -> stops_only solve sys steps start = Done x ->
  exists p f, index_pupil_stop sys = Some p /\ index_field_stop sys = Some f /\
    ((p < f)%nat /\ (exists l, first_flagged_after st_field (surfaces_all sys) p l /\ solve p l true = Some x) \/
     (f < p)%nat /\ (exists l, first_flagged_after st_pupil (surfaces_all sys) f l /\ solve f l false = Some x)).
Proof.
  intros X solve sys steps start x Sep H. unfold stops_only in H.
  assert (Loop : indices_pupil_stop sys <> [] /\ indices_field_stop sys <> [] /\
    stop_loop solve (surfaces_all sys) steps (indices_pupil_stop sys) (indices_field_stop sys) start = Done x).
  { destruct (indices_pupil_stop sys); [discriminate|]. destruct (indices_field_stop sys); [discriminate|].
    repeat split; try discriminate. exact H. }
  destruct Loop as (NP & NF & Lp). clear H.
  destruct (stop_loop_last X solve (surfaces_all sys) steps (indices_pupil_stop sys) (indices_field_stop sys) start x) as (p & f & L1 & L2 & D); auto.
  - apply indices_increasing.
  - apply indices_increasing.
  - intros i I. apply indices_in in I. exact I.
  - intros i I. apply indices_in in I. destruct I as (s & E & F). exists s. split; [exact E|].
    destruct (st_pupil s) eqn:P; [|reflexivity]. exfalso. apply (Sep s); auto. apply nth_error_In with i. exact E.
  - exists p, f. split; [exact L1|]. split; [exact L2|].
    destruct D as [(D & l & I & L & M & S)|(D & l & I & L & M & S)]; [left|right]; (split; [exact D|]); exists l; (split; [|exact S]);
      (split; [exact L|split; [apply indices_in; exact I|]]); intros j s J F K; apply M; auto; apply indices_in; eauto.
Qed.

(** The anchor. *)
Lemma find_from_spec : forall (A : Type) (f : A -> bool) l i,
  match find_from f i l with
  | Some k => exists s, (i <= k)%nat /\ nth_error l (k - i) = Some s /\ f s = true /\
                forall j s', (j < k - i)%nat -> nth_error l j = Some s' -> f s' = false
  | None => forall s, In s l -> f s = false
  end.
Proof.
  intros A f l. induction l as [|a l IH]; intros i; cbn.
  - intros s [].
  - destruct (f a) eqn:F.
    + exists a. rewrite Nat.sub_diag. repeat split; auto. intros j s' J. lia.
    + specialize (IH (S i)). destruct (find_from f (S i) l) as [k|].
      * destruct IH as (s & L & E & G & M). exists s. replace (k - i)%nat with (S (k - S i)) by lia.
        repeat split; auto; [lia|]. intros [|j] s' J E'; [cbn in E'; congruence|]. apply (M j); [lia|exact E'].
      * intros s [<-|I]; [exact F|apply IH; exact I].
Qed.

Lemma anchor_spec : forall (A : Type) (powered : A -> bool) l, (1 < length l)%nat ->
  let k := anchor_index powered l in
  (0 < k < length l)%nat /\
  (forall j s, (0 < j < k)%nat -> nth_error l j = Some s -> powered s = false) /\
  (forall s, nth_error l k = Some s -> powered s = false -> k = (length l - 1)%nat).
Proof.
  intros A powered [|a l] L; [cbn in L; lia|]. cbv zeta. unfold anchor_index. cbn [tl].
  assert (H := find_from_spec A powered l 1). destruct (find_from powered 1 l) as [k|].
  - destruct H as (s & K & E & P & M).
    assert (k - 1 < length l)%nat by (apply nth_error_Some; congruence).
    cbn [length]. split; [lia|]. split.
    + intros j s' J E'. destruct j as [|j]; [lia|]. cbn in E'. apply (M j); [lia|exact E'].
    + intros s' E' N. destruct k as [|k]; [lia|]. cbn in E'. replace (S k - 1)%nat with k in E by lia. congruence.
  - cbn [length] in *. split; [lia|]. split.
    + intros j s J E. destruct j as [|j]; [lia|]. cbn in E. apply H. apply nth_error_In with j. exact E.
    + intros; lia.
Qed.

(** * Normalised coordinates *)

Lemma fold_min : forall l x, (fold_left Rmin l x = x \/ In (fold_left Rmin l x) l) /\
  fold_left Rmin l x <= x /\ forall y, In y l -> fold_left Rmin l x <= y.
Proof.
  intros l. induction l as [|a l IH]; intros x; cbn.
  - repeat split; auto; [lra|intros y []].
  - destruct (IH (Rmin x a)) as (A & B & C). split; [|split].
    + destruct A as [A|A]; [|right; right; exact A]. rewrite A. unfold Rmin. destruct (Rle_dec x a); auto.
    + generalize (Rmin_l x a). lra.
    + intros y [<-|Y]; [generalize (Rmin_r x a); lra|apply C; exact Y].
Qed.

Lemma fold_max : forall l x, (fold_left Rmax l x = x \/ In (fold_left Rmax l x) l) /\
  x <= fold_left Rmax l x /\ forall y, In y l -> y <= fold_left Rmax l x.
Proof.
  intros l. induction l as [|a l IH]; intros x; cbn.
  - repeat split; auto; [lra|intros y []].
  - destruct (IH (Rmax x a)) as (A & B & C). split; [|split].
    + destruct A as [A|A]; [|right; right; exact A]. rewrite A. unfold Rmax. destruct (Rle_dec x a); auto.
    + generalize (Rmax_l x a). lra.
    + intros y [<-|Y]; [generalize (Rmax_r x a); lra|apply C; exact Y].
Qed.

Lemma list_min_spec : forall l, l <> [] -> exists m, list_min l = Some m /\ is_least l m.
Proof.
  intros [|x l] H; [congruence|]. exists (fold_left Rmin l x). split; [reflexivity|].
  destruct (fold_min l x) as (A & B & C). split; [destruct A as [A|A]; [left; auto|right; exact A]|].
  intros y [<-|Y]; auto.
Qed.
Lemma list_max_spec : forall l, l <> [] -> exists m, list_max l = Some m /\ is_greatest l m.
Proof.
  intros [|x l] H; [congruence|]. exists (fold_left Rmax l x). split; [reflexivity|].
  destruct (fold_max l x) as (A & B & C). split; [destruct A as [A|A]; [left; auto|right; exact A]|].
  intros y [<-|Y]; auto.
Qed.

Lemma least_unique : forall l a b, is_least l a -> is_least l b -> a = b.
Proof. intros l a b [A1 A2] [B1 B2]. apply Rle_antisym; auto. Qed.
Lemma greatest_unique : forall l a b, is_greatest l a -> is_greatest l b -> a = b.
Proof. intros l a b [A1 A2] [B1 B2]. apply Rle_antisym; auto. Qed.

Lemma denormalize_span : forall values mn mx, is_least values mn -> is_greatest values mx ->
  denormalize values (-1) = Some mn /\ denormalize values 1 = Some mx /\
  (forall g, exists v, denormalize values g = Some v /\ v = mn + (mx - mn) * (g + 1) / 2 /\
     (-1 <= g <= 1 -> mn <= v <= mx)) /\
  (forall g h v w, g <= h -> denormalize values g = Some v -> denormalize values h = Some w -> v <= w).
Proof.
  intros values mn mx A B.
  assert (N : values <> []) by (intros ->; destruct A as [[] _]).
  destruct (list_min_spec values N) as (m & E1 & M1). destruct (list_max_spec values N) as (m' & E2 & M2).
  assert (m = mn) by exact (least_unique _ _ _ M1 A). assert (m' = mx) by exact (greatest_unique _ _ _ M2 B). subst.
  assert (V : forall g, denormalize values g = Some ((mx - mn) * (g + 1) / 2 + mn)).
  { intros g. unfold denormalize. rewrite E1, E2. reflexivity. }
  assert (L : mn <= mx) by (destruct A as [A1 A2], B as [B1 B2]; auto).
  repeat split.
  - rewrite V. f_equal. field.
  - rewrite V. f_equal. field.
  - intros g. exists ((mx - mn) * (g + 1) / 2 + mn). rewrite V. split; [reflexivity|]. split; [ring|]. intros G. nra.
  - intros g h v w G. rewrite !V. intros Hv Hw. injection Hv as <-. injection Hw as <-. nra.
Qed.

Lemma denormalize_nothing : forall g, denormalize [] g = None.
Proof. reflexivity. Qed.

Lemma grid_physical : forall sys stops g, denormalize_grid sys stops g false false = Some g.
Proof. reflexivity. Qed.

Lemma grid_flags : forall sys stops g g' nf np, denormalize_grid sys stops g nf np = Some g' ->
  g_wavelength g' = g_wavelength g /\ (nf = false -> g_field g' = g_field g) /\ (np = false -> g_pupil g' = g_pupil g).
Proof.
  intros sys stops g g' nf np H. unfold denormalize_grid in H.
  destruct (negb nf && negb np) eqn:E. { injection H as <-. auto. }
  destruct (all_some (map ray_xy stops)) as [xy|]; [|discriminate].
  destruct (all_some (map ray_angles stops)) as [an|]; [|discriminate]. cbn in H.
  destruct (if nf then _ else _) as [f|] eqn:Ef; [|discriminate]. cbn in H.
  destruct (if np then _ else _) as [p|] eqn:Ep; [|discriminate]. cbn in H. injection H as <-. cbn.
  split; [reflexivity|]. split; intros ->; congruence.
Qed.

(** * Axes *)

Lemma mem_axis_in : forall a l, mem_axis a l = true <-> In a l.
Proof.
  intros a l. unfold mem_axis. rewrite existsb_exists. split.
  - intros (x & I & E). apply String.eqb_eq in E. subst. exact I.
  - intros I. exists a. split; [exact I|apply String.eqb_refl].
Qed.
Lemma minus_in : forall x a b, In x (minus_axes a b) <-> In x a /\ ~ In x b.
Proof.
  intros x a b. unfold minus_axes. rewrite filter_In. destruct (mem_axis x b) eqn:E; cbn.
  - apply mem_axis_in in E. intuition discriminate.
  - assert (~ In x b) by (rewrite <- mem_axis_in; congruence). intuition.
Qed.
Lemma minus_nodup : forall a b, NoDup a -> NoDup (minus_axes a b).
Proof. intros. apply NoDup_filter. assumption. Qed.

Section AxesProofs.
Variable order : list string -> list string.
Hypothesis order_perm : forall l, Permutation (order l) l.

Lemma wavelength_axes : forall shape_w shape_sys a,
  NoDup shape_w -> normalize_axis_wavelength order None shape_w shape_sys = Some a ->
  NoDup a /\ (length a <= 1)%nat /\ forall x, In x a <-> In x shape_w /\ ~ In x shape_sys.
Proof.
  intros sw ss a N H. unfold normalize_axis_wavelength in H. cbv zeta in H. set (l := order _) in H.
  destruct (1 <? length l)%nat eqn:E; [discriminate|]. injection H as <-. apply Nat.ltb_ge in E.
  assert (P := order_perm (minus_axes sw ss)). fold l in P.
  split; [apply (Permutation_NoDup (Permutation_sym P)), minus_nodup; exact N|]. split; [lia|].
  intros x. split; intros I.
  - apply minus_in. exact (Permutation_in _ P I).
  - apply (Permutation_in _ (Permutation_sym P)). apply minus_in. exact I.
Qed.
Lemma wavelength_error : forall shape_w shape_sys,
  normalize_axis_wavelength order None shape_w shape_sys = None <-> (1 < length (minus_axes shape_w shape_sys))%nat.
Proof.
  intros sw ss. unfold normalize_axis_wavelength. cbv zeta. rewrite (Permutation_length (order_perm (minus_axes sw ss))).
  destruct (1 <? _)%nat eqn:E; [apply Nat.ltb_lt in E|apply Nat.ltb_ge in E]; split; intros; try reflexivity; try discriminate; lia.
Qed.
Lemma field_axes : forall aw shape_f shape_sys a,
  NoDup shape_f -> normalize_axis_field order None aw shape_f shape_sys = Some a ->
  NoDup a /\ length a = 2%nat /\ forall x, In x a <-> In x shape_f /\ ~ In x shape_sys /\ ~ In x aw.
Proof.
  intros aw sf ss a N H. unfold normalize_axis_field in H. cbv zeta in H. set (l := order _) in H.
  destruct (length l =? 2)%nat eqn:E; [cbn in H|discriminate]. injection H as <-. apply Nat.eqb_eq in E.
  assert (P := order_perm (minus_axes (minus_axes sf ss) aw)). fold l in P.
  split; [apply (Permutation_NoDup (Permutation_sym P)), minus_nodup, minus_nodup; exact N|]. split; [exact E|].
  intros x. split; intros I.
  - apply (Permutation_in _ P) in I. rewrite !minus_in in I. tauto.
  - apply (Permutation_in _ (Permutation_sym P)). rewrite !minus_in. tauto.
Qed.
Lemma field_error : forall aw shape_f shape_sys,
  normalize_axis_field order None aw shape_f shape_sys = None <-> length (minus_axes (minus_axes shape_f shape_sys) aw) <> 2%nat.
Proof.
  intros aw sf ss. unfold normalize_axis_field. cbv zeta. rewrite (Permutation_length (order_perm (minus_axes (minus_axes sf ss) aw))).
  destruct (_ =? 2)%nat eqn:E; [apply Nat.eqb_eq in E|apply Nat.eqb_neq in E]; cbn; split; intros; try reflexivity; try discriminate; tauto.
Qed.
Lemma pupil_axes : forall af aw shape_p shape_sys a,
  NoDup shape_p -> normalize_axis_pupil order None af aw shape_p shape_sys = Some a ->
  NoDup a /\ length a = 2%nat /\ forall x, In x a <-> In x shape_p /\ ~ In x shape_sys /\ ~ In x aw /\ ~ In x af.
Proof.
  intros af aw sp ss a N H. unfold normalize_axis_pupil in H. cbv zeta in H. set (l := order _) in H.
  destruct (length l =? 2)%nat eqn:E; [cbn in H|discriminate]. injection H as <-. apply Nat.eqb_eq in E.
  assert (P := order_perm (minus_axes (minus_axes (minus_axes sp ss) aw) af)). fold l in P.
  split; [apply (Permutation_NoDup (Permutation_sym P)), minus_nodup, minus_nodup, minus_nodup; exact N|]. split; [exact E|].
  intros x. split; intros I.
  - apply (Permutation_in _ P) in I. rewrite !minus_in in I. tauto.
  - apply (Permutation_in _ (Permutation_sym P)). rewrite !minus_in. tauto.
Qed.
Lemma pupil_error : forall af aw shape_p shape_sys,
  normalize_axis_pupil order None af aw shape_p shape_sys = None <-> length (minus_axes (minus_axes (minus_axes shape_p shape_sys) aw) af) <> 2%nat.
Proof.
  intros af aw sp ss. unfold normalize_axis_pupil. cbv zeta. rewrite (Permutation_length (order_perm (minus_axes (minus_axes (minus_axes sp ss) aw) af))).
  destruct (_ =? 2)%nat eqn:E; [apply Nat.eqb_eq in E|apply Nat.eqb_neq in E]; cbn; split; intros; try reflexivity; try discriminate; tauto.
Qed.
End AxesProofs.

(** * The pair of stops that is solved last *)

Lemma stops_pair : forall X (solve : nat -> nat -> bool -> option X) sys steps start x p f,
  separate_stops (surfaces_all sys) -> stops_only solve sys steps start = Done x ->
  index_pupil_stop sys = Some p -> index_field_stop sys = Some f ->
  (forall j s, nth_error (surfaces_all sys) j = Some s -> (p < j < f)%nat -> st_field s = false) ->
  (forall j s, nth_error (surfaces_all sys) j = Some s -> (f < j < p)%nat -> st_pupil s = false) ->
  exists b, solve (Nat.min p f) (Nat.max p f) b = Some x.
Proof.
  intros X solve sys steps start x p f Sep D Ip If_ Hf Hp.
  destruct (stops_last X solve sys steps start x Sep D) as (p' & f' & E1 & E2 & H).
  rewrite Ip in E1. rewrite If_ in E2. injection E1 as <-. injection E2 as <-.
  apply index_largest in Ip. apply index_largest in If_.
  destruct Ip as [[sp [Np Fp]] Gp], If_ as [[sf [Nf Ff]] Gf].
  destruct H as [(L & l & (L1 & (s & N & F) & M) & S)|(L & l & (L1 & (s & N & F) & M) & S)].
  - exists true. replace (Nat.min p f) with p by lia. replace (Nat.max p f) with f by lia.
    assert (l = f).
    { assert (l <= f)%nat by (apply (M f sf); assumption).
      destruct (Nat.eq_dec l f) as [Q|Q]; [exact Q|]. rewrite (Hf l s N) in F by lia. discriminate. }
    subst l. exact S.
  - exists false. replace (Nat.min p f) with f by lia. replace (Nat.max p f) with p by lia.
    assert (l = p).
    { assert (l <= p)%nat by (apply (M p sp); assumption).
      destruct (Nat.eq_dec l p) as [Q|Q]; [exact Q|]. rewrite (Hp l s N) in F by lia. discriminate. }
    subst l. exact S.
Qed.

Lemma stops_first : forall X (solve : nat -> nat -> bool -> option X) sys steps start x,
  separate_stops (surfaces_all sys) -> stops_only solve sys steps start = Done x ->
  exists p f l b, index_pupil_stop sys = Some p /\ index_field_stop sys = Some f /\
    (Nat.min p f < l)%nat /\ solve (Nat.min p f) l b = Some x.
Proof.
  intros X solve sys steps start x Sep D.
  destruct (stops_last X solve sys steps start x Sep D) as (p & f & E1 & E2 & H). exists p, f.
  destruct H as [(L & l & (L1 & _) & S)|(L & l & (L1 & _) & S)].
  - exists l, true. replace (Nat.min p f) with p by lia. auto.
  - exists l, false. replace (Nat.min p f) with f by lia. auto.
Qed.

Lemma axes_inferred : forall order, (forall l, Permutation (order l) l) ->
  forall shape_w shape_f shape_p shape_sys aw af ap, NoDup shape_w -> NoDup shape_f -> NoDup shape_p ->
  normalize_axis_wavelength order None shape_w shape_sys = Some aw ->
  normalize_axis_field order None aw shape_f shape_sys = Some af ->
  normalize_axis_pupil order None af aw shape_p shape_sys = Some ap ->
  NoDup (aw ++ af ++ ap) /\ (length aw <= 1)%nat /\ length af = 2%nat /\ length ap = 2%nat /\
  (forall x, In x aw <-> In x shape_w /\ ~ In x shape_sys) /\
  (forall x, In x af <-> In x shape_f /\ ~ In x shape_sys /\ ~ In x aw) /\
  (forall x, In x ap <-> In x shape_p /\ ~ In x shape_sys /\ ~ In x aw /\ ~ In x af).
Proof.
  intros order O sw sf sp ss aw af ap Nw Nf Np Ew Ef Ep.
  destruct (wavelength_axes order O sw ss aw Nw Ew) as (Dw & Lw & Iw).
  destruct (field_axes order O aw sf ss af Nf Ef) as (Df & Lf & If_).
  destruct (pupil_axes order O af aw sp ss ap Np Ep) as (Dp & Lp & Ip).
  assert (App : forall l1 l2 : list string, NoDup l1 -> NoDup l2 -> (forall x, In x l1 -> In x l2 -> False) -> NoDup (l1 ++ l2)).
  { intros l1 l2. induction l1 as [|a l1 IH]; intros H1 H2 H; [exact H2|]. inversion H1; subst. cbn. constructor.
    - rewrite in_app_iff. intros [Q|Q]; [contradiction|]. apply (H a); [left; reflexivity|exact Q].
    - apply IH; auto. intros x X Y. apply (H x); [right; exact X|exact Y]. }
  split; [|split; [exact Lw|split; [exact Lf|split; [exact Lp|split; [exact Iw|split; [exact If_|exact Ip]]]]]].
  apply App; [exact Dw|apply App; [exact Df|exact Dp|]|].
  - intros x X Y. apply Ip in Y. tauto.
  - intros x X Y. apply in_app_iff in Y. destruct Y as [Y|Y]; [apply If_ in Y|apply Ip in Y]; tauto.
Qed.

Lemma length_two : forall l : list string, NoDup l ->
  (length l = 2%nat <-> exists x y, x <> y /\ forall z, In z l <-> z = x \/ z = y).
Proof.
  intros l N. split.
  - intros H. destruct l as [|x [|y [|z l]]]; try discriminate. exists x, y. split.
    + inversion N; subst. intros ->. apply H2. left. reflexivity.
    + intros z. cbn. split; intros; intuition.
  - intros (x & y & D & E).
    assert (P : Permutation l [x; y]).
    { apply NoDup_Permutation; [exact N| |].
      - constructor; [intros [H|[]]; congruence|]. constructor; [intros []|constructor].
      - intros z. rewrite E. cbn. split; intros; intuition. }
    rewrite (Permutation_length P). reflexivity.
Qed.

Lemma length_many : forall l : list string, NoDup l ->
  ((1 < length l)%nat <-> exists x y, x <> y /\ In x l /\ In y l).
Proof.
  intros l N. split.
  - intros H. destruct l as [|x [|y l]]; cbn in H; try lia. exists x, y. split.
    + inversion N; subst. intros ->. apply H2. left. reflexivity.
    + cbn; auto.
  - intros (x & y & D & I & J). destruct l as [|a [|b l]]; cbn in *; try lia; try tauto.
    destruct I as [<-|[]], J as [<-|[]]. congruence.
Qed.

Lemma axes_errors : forall order, (forall l, Permutation (order l) l) ->
  forall shape_w shape_f shape_p shape_sys aw af, NoDup shape_w -> NoDup shape_f -> NoDup shape_p ->
  (normalize_axis_wavelength order None shape_w shape_sys = None <->
     exists x y, x <> y /\ In x shape_w /\ ~ In x shape_sys /\ In y shape_w /\ ~ In y shape_sys) /\
  (normalize_axis_field order None aw shape_f shape_sys = None <->
     ~ exists x y, x <> y /\ forall z, In z shape_f /\ ~ In z shape_sys /\ ~ In z aw <-> z = x \/ z = y) /\
  (normalize_axis_pupil order None af aw shape_p shape_sys = None <->
     ~ exists x y, x <> y /\ forall z, In z shape_p /\ ~ In z shape_sys /\ ~ In z aw /\ ~ In z af <-> z = x \/ z = y).
Proof.
  intros order O sw sf sp ss aw af Nw Nf Np. repeat split.
  - rewrite (wavelength_error order O), length_many by (apply minus_nodup; exact Nw).
    intros (x & y & D & I & J). exists x, y. rewrite minus_in in I, J. tauto.
  - rewrite (wavelength_error order O), length_many by (apply minus_nodup; exact Nw).
    intros (x & y & D & I). exists x, y. rewrite !minus_in. tauto.
  - rewrite (field_error order O), length_two by (apply minus_nodup, minus_nodup; exact Nf).
    intros H (x & y & D & E). apply H. exists x, y. split; [exact D|]. intros z. rewrite <- E, !minus_in. tauto.
  - rewrite (field_error order O), length_two by (apply minus_nodup, minus_nodup; exact Nf).
    intros H (x & y & D & E). apply H. exists x, y. split; [exact D|]. intros z. rewrite <- E, !minus_in. tauto.
  - rewrite (pupil_error order O), length_two by (apply minus_nodup, minus_nodup, minus_nodup; exact Np).
    intros H (x & y & D & E). apply H. exists x, y. split; [exact D|]. intros z. rewrite <- E, !minus_in. tauto.
  - rewrite (pupil_error order O), length_two by (apply minus_nodup, minus_nodup, minus_nodup; exact Np).
    intros H (x & y & D & E). apply H. exists x, y. split; [exact D|]. intros z. rewrite <- E, !minus_in. tauto.
Qed.
