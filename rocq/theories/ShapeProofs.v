From Coq Require Import List String Bool Arith Lia.
From Verif Require Import Num ShapeModel ShapeSpec.
Import ListNotations.
Open Scope string_scope.
Open Scope opt_scope.

(** ** One axis *)
Definition join (a b : option nat) : option (option nat) :=
  match a, b with
  | None, b => Some b
  | a, None => Some a
  | Some m, Some n =>
      if Nat.eqb m n then Some (Some m) else if Nat.eqb n 1 then Some (Some m)
      else if Nat.eqb m 1 then Some (Some n) else None
  end.
Lemma join_fits a b c : join a b = Some c <-> fits a b c.
Proof.
  split.
  - destruct a as [m|], b as [n|]; cbn.
    + destruct (Nat.eqb_spec m n) as [<-|]; [intros [= <-]; constructor|].
      destruct (Nat.eqb_spec n 1) as [->|]; [intros [= <-]; constructor|].
      destruct (Nat.eqb_spec m 1) as [->|]; [intros [= <-]; constructor | discriminate].
    + intros [= <-]; constructor.
    + intros [= <-]; constructor.
    + intros [= <-]; constructor.
  - intros F; destruct F as [b|a|n|n|n]; cbn.
    + reflexivity.
    + destruct a; reflexivity.
    + rewrite Nat.eqb_refl; reflexivity.
    + destruct n as [|[|n]]; reflexivity.
    + destruct n as [|[|n]]; reflexivity.
Qed.

Lemma lookup_assign a n s x : lookup a s <> None ->
  lookup x (assign a n s) = if String.eqb x a then Some n else lookup x s.
Proof.
  induction s as [|[b m] s IH]; cbn; intros H; [congruence|].
  destruct (String.eqb_spec a b) as [->|N]; cbn.
  - destruct (String.eqb_spec x b); reflexivity.
  - rewrite IH by exact H; destruct (String.eqb_spec x b) as [->|]; [|reflexivity].
    destruct (String.eqb_spec b a) as [->|]; [congruence | reflexivity].
Qed.
Lemma assign_keys a n s : map fst (assign a n s) = map fst s.
Proof. induction s as [|[b m] s IH]; cbn; [reflexivity|]; destruct (String.eqb_spec a b); cbn; [reflexivity | rewrite IH; reflexivity]. Qed.
Lemma lookup_none a s : lookup a s = None <-> ~ In a (map fst s).
Proof.
  induction s as [|[b m] s IH]; cbn; [tauto|].
  destruct (String.eqb_spec a b) as [->|N]; [split; [discriminate | tauto]|].
  rewrite IH; split; intros H; [intros [E | E]; [congruence | tauto] | tauto].
Qed.
Lemma lookup_in a n s : dict s -> In (a, n) s -> lookup a s = Some n.
Proof.
  induction s as [|[b m] s IH]; intros D I; [destruct I|]; destruct I as [E | I]; cbn.
  - injection E as -> ->; rewrite String.eqb_refl; reflexivity.
  - inversion D; subst; destruct (String.eqb_spec a b) as [->|]; [|apply IH; assumption].
    exfalso; apply H1, (in_map fst _ _ I).
Qed.

Lemma merge_axis_spec r a n : dict r ->
  match merge_axis r (a, n) with
  | Some r' => dict r' /\ forall x, join (lookup x r) (if String.eqb x a then Some n else None) = Some (lookup x r')
  | None => join (lookup a r) (Some n) = None
  end.
Proof.
  intros D; cbn; destruct (lookup a r) as [m|] eqn:L.
  - cbn; destruct (Nat.eqb_spec m n) as [<-|NE].
    + split; [exact D|]; intros x; destruct (String.eqb_spec x a) as [->|].
      * rewrite L; cbn; rewrite Nat.eqb_refl; reflexivity.
      * destruct (lookup x r); reflexivity.
    + destruct (Nat.eqb_spec n 1) as [->|N1].
      * split; [exact D|]; intros x; destruct (String.eqb_spec x a) as [->|].
        -- rewrite L; cbn; destruct m as [|[|m]]; reflexivity.
        -- destruct (lookup x r); reflexivity.
      * destruct (Nat.eqb_spec m 1) as [->|M1].
        -- split; [unfold dict; rewrite assign_keys; exact D|]; intros x.
           rewrite lookup_assign by congruence; destruct (String.eqb_spec x a) as [->|].
           ++ rewrite L; cbn; destruct n as [|[|n]]; try reflexivity; congruence.
           ++ destruct (lookup x r); reflexivity.
        -- reflexivity.
  - split; [constructor; [apply lookup_none, L | exact D]|]; intros x; cbn.
    destruct (String.eqb_spec x a) as [->|]; [rewrite L; reflexivity | destruct (lookup x r); reflexivity].
Qed.

Lemma join_none_l b : join None b = Some b.
Proof. destruct b; reflexivity. Qed.
Lemma join_none_r a : join a None = Some a.
Proof. destruct a; reflexivity. Qed.

Lemma lookup_rev x s : dict s -> lookup x (rev s) = lookup x s.
Proof.
  intros D.
  assert (DR : dict (rev s)) by (unfold dict; rewrite map_rev; apply NoDup_rev, D).
  destruct (lookup x s) as [n|] eqn:L.
  - apply lookup_in; [exact DR|]; apply -> in_rev.
    revert L; clear; induction s as [|[b m] s IH]; cbn; [discriminate|].
    destruct (String.eqb_spec x b) as [->|]; [intros [= ->]; left; reflexivity | right; auto].
  - apply lookup_none in L; apply lookup_none; rewrite map_rev; intros H; apply L, in_rev, H.
Qed.

Lemma merge_spec l : forall r, dict r -> dict l ->
  match merge r l with
  | Some r' => dict r' /\ forall x, join (lookup x r) (lookup x l) = Some (lookup x r')
  | None => exists x, join (lookup x r) (lookup x l) = None
  end.
Proof.
  induction l as [|[a n] l IH]; intros r D DL; cbn [merge].
  - split; [exact D|]; intros x; cbn; apply join_none_r.
  - pose proof (merge_axis_spec r a n D) as M.
    destruct (merge_axis r (a, n)) as [r1|] eqn:E; cbn [obind].
    + destruct M as [D1 M]; inversion DL as [|? ? NI DL']; subst.
      specialize (IH r1 D1 DL'); apply lookup_none in NI.
      assert (H : forall x, join (lookup x r) (lookup x ((a, n) :: l)) = join (lookup x r1) (lookup x l)).
      { intros x; specialize (M x); cbn [lookup]; destruct (String.eqb x a) eqn:Q.
        - apply String.eqb_eq in Q; rewrite M, Q, NI, join_none_r; reflexivity.
        - rewrite join_none_r in M; injection M as ->; reflexivity. }
      destruct (merge r1 l) as [r'|].
      * destruct IH as [D' IH]; split; [exact D'|]; intros x; rewrite H; apply IH.
      * destruct IH as [x X]; exists x; rewrite H; exact X.
    + exists a; cbn; rewrite String.eqb_refl; exact M.
Qed.

Lemma broadcast2_spec a b : dict a -> dict b ->
  match broadcast2 a b with
  | Some r => dict r /\ forall x, join (lookup x a) (lookup x b) = Some (lookup x r)
  | None => exists x, join (lookup x a) (lookup x b) = None
  end.
Proof.
  intros A B; unfold broadcast2.
  pose proof (merge_spec (rev b) a A) as M.
  assert (DR : dict (rev b)) by (unfold dict; rewrite map_rev; apply NoDup_rev, B).
  specialize (M DR); destruct (merge a (rev b)).
  - destruct M as [D M]; split; [exact D|]; intros x; rewrite <- M, lookup_rev by exact B; reflexivity.
  - destruct M as [x X]; exists x; rewrite lookup_rev in X by exact B; exact X.
Qed.

Lemma join_comm a b : join a b = join b a.
Proof.
  destruct a as [m|], b as [n|]; try reflexivity; cbn.
  rewrite (Nat.eqb_sym n m); destruct (Nat.eqb_spec m n) as [->|NE]; [reflexivity|].
  destruct (Nat.eqb_spec n 1) as [->|]; destruct (Nat.eqb_spec m 1) as [->|]; try reflexivity; congruence.
Qed.
Lemma join_assoc a b c :
  (match join a b with Some ab => join ab c | None => None end)
  = (match join b c with Some bc => join a bc | None => None end).
Proof.
  destruct a as [m|]; [|rewrite join_none_l; destruct (join b c) as [bc|]; [rewrite join_none_l|]; reflexivity].
  destruct b as [n|]; [|rewrite join_none_l, join_none_r; reflexivity].
  destruct c as [k|]; [|rewrite join_none_r; destruct (join (Some m) (Some n)); [rewrite join_none_r|]; reflexivity].
  unfold join; repeat (match goal with |- context [Nat.eqb ?x ?y] => destruct (Nat.eqb_spec x y) end; try subst; cbv beta iota; try congruence; try lia).
Qed.
Lemma join_idem a : join a a = Some a.
Proof. destruct a; cbn; [rewrite Nat.eqb_refl|]; reflexivity. Qed.

(** ** The laws *)
Lemma broadcast_rule a b r : dict a -> dict b -> broadcast2 a b = Some r ->
  dict r /\ forall axis, fits (lookup axis a) (lookup axis b) (lookup axis r).
Proof.
  intros A B E; pose proof (broadcast2_spec a b A B) as H; rewrite E in H; destruct H as [D H].
  split; [exact D|]; intros x; apply join_fits, H.
Qed.
Lemma broadcast_error a b : dict a -> dict b ->
  (broadcast2 a b = None <-> exists axis, forall n, ~ fits (lookup axis a) (lookup axis b) n).
Proof.
  intros A B; pose proof (broadcast2_spec a b A B) as H; destruct (broadcast2 a b) as [r|].
  - split; [discriminate|]; intros [x X]; exfalso; apply (X (lookup x r)), join_fits, H.
  - split; [|reflexivity]; intros _; destruct H as [x X]; exists x; intros n N; apply join_fits in N; congruence.
Qed.
Lemma broadcast_comm a b : dict a -> dict b -> same_result (broadcast2 a b) (broadcast2 b a).
Proof.
  intros A B; pose proof (broadcast2_spec a b A B) as H; pose proof (broadcast2_spec b a B A) as K.
  destruct (broadcast2 a b) as [r|], (broadcast2 b a) as [q|]; cbn; auto.
  - intros x; destruct H as [_ H], K as [_ K]; specialize (H x); specialize (K x); rewrite join_comm in H; congruence.
  - destruct K as [x X], H as [_ H]; specialize (H x); rewrite join_comm in H; congruence.
  - destruct H as [x X], K as [_ K]; specialize (K x); rewrite join_comm in K; congruence.
Qed.
Lemma broadcast_assoc a b c : dict a -> dict b -> dict c ->
  same_result (let* ab := broadcast2 a b in broadcast2 ab c) (let* bc := broadcast2 b c in broadcast2 a bc).
Proof.
  intros A B C; pose proof (broadcast2_spec a b A B) as H; pose proof (broadcast2_spec b c B C) as K.
  destruct (broadcast2 a b) as [ab|], (broadcast2 b c) as [bc|]; cbn [obind].
  - destruct H as [D H], K as [E K].
    pose proof (broadcast2_spec ab c D C) as L; pose proof (broadcast2_spec a bc A E) as M.
    assert (J : forall x, join (lookup x ab) (lookup x c) = join (lookup x a) (lookup x bc)).
    { intros x; pose proof (join_assoc (lookup x a) (lookup x b) (lookup x c)) as J; rewrite H, K in J; exact J. }
    destruct (broadcast2 ab c) as [r|], (broadcast2 a bc) as [q|]; cbn; auto.
    + intros x; destruct L as [_ L], M as [_ M]; specialize (L x); specialize (M x); rewrite J in L; congruence.
    + destruct M as [x X], L as [_ L]; specialize (L x); rewrite J in L; congruence.
    + destruct L as [x X], M as [_ M]; specialize (M x); rewrite <- J in M; congruence.
  - destruct H as [D H], K as [x X]; pose proof (broadcast2_spec ab c D C) as L.
    destruct (broadcast2 ab c) as [r|]; cbn; auto.
    destruct L as [_ L]; specialize (L x).
    pose proof (join_assoc (lookup x a) (lookup x b) (lookup x c)) as J; rewrite H, X in J; congruence.
  - destruct K as [D K], H as [x X]; pose proof (broadcast2_spec a bc A D) as L.
    destruct (broadcast2 a bc) as [r|]; cbn; auto.
    destruct L as [_ L]; specialize (L x).
    pose proof (join_assoc (lookup x a) (lookup x b) (lookup x c)) as J; rewrite K, X in J; congruence.
  - exact I.
Qed.
Lemma broadcast_idem a : dict a -> exists r, broadcast2 a a = Some r /\ same r a.
Proof.
  intros A; pose proof (broadcast2_spec a a A A) as H; destruct (broadcast2 a a) as [r|].
  - exists r; split; [reflexivity|]; intros x; destruct H as [_ H]; specialize (H x); rewrite join_idem in H; congruence.
  - destruct H as [x X]; rewrite join_idem in X; discriminate.
Qed.

(** ** Many shapes *)
Lemma broadcast_from_dict l : forall r s, dict r -> Forall dict l -> broadcast_from r l = Some s -> dict s.
Proof.
  induction l as [|a l IH]; intros r s D F E; cbn in E; [injection E as <-; exact D|].
  inversion F; subst; pose proof (broadcast2_spec r a D H1) as B; destruct (broadcast2 r a) as [q|]; [|discriminate].
  eapply IH; [apply B | exact H2 | exact E].
Qed.
Definition grows (n : nat) (o : option nat) : Prop := exists m, o = Some m /\ (n = m \/ n = 1).
Lemma join_grows_l n a b c : join a b = Some c -> grows n a -> grows n c.
Proof.
  intros J (m & -> & N); apply join_fits in J; inversion J; subst; unfold grows; eauto; destruct N as [N|N]; subst; eauto.
Qed.
Lemma join_grows_r n a b c : join a b = Some c -> grows n b -> grows n c.
Proof. rewrite join_comm; apply join_grows_l. Qed.

Lemma broadcast_from_grows_l l : forall r s x n, dict r -> Forall dict l -> broadcast_from r l = Some s ->
  grows n (lookup x r) -> grows n (lookup x s).
Proof.
  induction l as [|a l IH]; intros r s x n D F E G; cbn in E; [injection E as <-; exact G|].
  inversion F; subst; pose proof (broadcast2_spec r a D H1) as B; destruct (broadcast2 r a) as [q|]; [|discriminate].
  destruct B as [DQ B]; eapply IH; [exact DQ | exact H2 | exact E | eapply join_grows_l; [apply B | exact G]].
Qed.
Lemma broadcast_from_grows l : forall r s x n a, dict r -> Forall dict l -> broadcast_from r l = Some s ->
  In a l -> grows n (lookup x a) -> grows n (lookup x s).
Proof.
  induction l as [|b l IH]; intros r s x n a D F E I G; cbn in E; [destruct I|].
  inversion F; subst; pose proof (broadcast2_spec r b D H1) as B; destruct (broadcast2 r b) as [q|]; [|discriminate].
  destruct B as [DQ B]; destruct I as [<- | I].
  - eapply broadcast_from_grows_l; [exact DQ | exact H2 | exact E | eapply join_grows_r; [apply B | exact G]].
  - eapply IH; [exact DQ | exact H2 | exact E | exact I | exact G].
Qed.
Lemma broadcast_shapes_contributes l s a : Forall dict l -> broadcast_shapes l = Some s -> In a l ->
  contributes (Shaped a) s.
Proof.
  intros F E I x n V; cbn in V.
  assert (G : grows n (lookup x a)) by (exists n; auto).
  exact (broadcast_from_grows l [] s x n a (NoDup_nil _) F E I G).
Qed.

(** ** Classes *)
Definition covers (g : argument) (a : string) (k : kind) : bool :=
  match g, k with
  | One b, Array => String.eqb a b
  | Each b, Seq => String.eqb a b
  | EachOrOne b, SeqOrArray => String.eqb a b
  | _, _ => false
  end.
Definition complete (fields : list (string * kind)) (gs : list argument) : bool :=
  forallb (fun ak => existsb (fun g => covers g (fst ak) (snd ak)) gs) fields.
Lemma optika_shape_dict v : is_array v -> dict (optika_shape v).
Proof. intros [-> | (s & -> & D)]; [constructor | exact D]. Qed.
Lemma pop_dict x s : dict s -> dict (pop x s).
Proof.
  unfold dict, pop; induction s as [|[a n] s IH]; cbn; intros D; [constructor|].
  inversion D; subst; destruct (negb (String.eqb x a)); cbn; [|auto].
  constructor; [|auto]; intros I; apply H1; apply in_map_iff in I as (p & <- & P).
  apply filter_In in P as [P _]; apply in_map, P.
Qed.
Lemma argument_dict o g l : (match g with
    | One a => is_array (o a)
    | Each a => has_kind (o a) Seq
    | EachOrOne a => has_kind (o a) SeqOrArray
    | Pop a _ | PopAxes a _ => is_array (o a) end) -> argument_shapes o g = Some l -> Forall dict l.
Proof.
  assert (FM : forall vs, Forall is_array vs -> Forall dict (map optika_shape vs)).
  { induction 1; cbn; constructor; auto using optika_shape_dict. }
  destruct g; cbn; intros T E.
  - injection E as <-; constructor; [apply optika_shape_dict, T | constructor].
  - destruct T as (vs & V & F); rewrite V in E; injection E as <-; apply FM, F.
  - destruct T as [T | (vs & V & F)].
    + destruct T as [V | (s & V & D)]; rewrite V in E; injection E as <-; constructor; auto; constructor.
    + rewrite V in E; injection E as <-; apply FM, F.
  - destruct (lookup axis (optika_shape (o a))); [|discriminate]; injection E as <-.
    constructor; [apply pop_dict, optika_shape_dict, T | constructor].
  - injection E as <-; constructor; [|constructor].
    apply optika_shape_dict in T; revert T; generalize (optika_shape (o a)); generalize (optika_shape (o b)); clear.
    induction s as [|[x n] s IH]; cbn; intros t T; [exact T | apply IH, pop_dict, T].
Qed.
Lemma arguments_dict o gs : forall l, (forall g, In g gs -> match g with
    | One a => is_array (o a)
    | Each a => has_kind (o a) Seq
    | EachOrOne a => has_kind (o a) SeqOrArray
    | Pop a _ | PopAxes a _ => is_array (o a) end) -> arguments_shapes o gs = Some l -> Forall dict l.
Proof.
  induction gs as [|g gs IH]; cbn; intros l T E; [injection E as <-; constructor|].
  destruct (argument_shapes o g) as [s|] eqn:G; [|discriminate]; cbn in E.
  destruct (arguments_shapes o gs) as [t|] eqn:H; [|discriminate]; cbn in E; injection E as <-.
  apply Forall_app; split; [eapply argument_dict; [|exact G]; apply T; left; reflexivity |].
  apply (IH t); [intros g' G'; apply T; right; exact G' | first [exact H | reflexivity]].
Qed.
Lemma arguments_in o gs l g s : arguments_shapes o gs = Some l -> In g gs -> argument_shapes o g = Some s ->
  forall x, In x s -> In x l.
Proof.
  revert l; induction gs as [|h gs IH]; cbn; intros l E I G x X; [destruct I|]; destruct I as [-> | I].
  - rewrite G in E; cbn in E; destruct (arguments_shapes o gs); [|discriminate]; injection E as <-.
    apply in_or_app; left; exact X.
  - destruct (argument_shapes o h); [|discriminate]; cbn in E.
    destruct (arguments_shapes o gs) as [t|]; [|discriminate]; injection E as <-.
    apply in_or_app; right; apply (IH t); auto.
Qed.

Lemma complete_contributes fields gs o s : complete fields gs = true -> instance fields o ->
  typed gs o -> object_shape gs o = Some s ->
  forall a k, In (a, k) fields -> contributes (o a) s.
Proof.
  intros C IN T E a k I; unfold complete in C; rewrite forallb_forall in C.
  specialize (C _ I); apply existsb_exists in C as (g & G & V); cbn in V.
  unfold object_shape in E; destruct (arguments_shapes o gs) as [l|] eqn:L; [|discriminate]; cbn in E.
  pose proof (arguments_dict o gs l T L) as F.
  pose proof (T g G) as TG.
  assert (SV : forall vs sh, o a = Sequence vs -> Forall is_array vs -> argument_shapes o g = Some sh -> sh = map optika_shape vs ->
     contributes (o a) s).
  { intros vs sh OA FA GS ->; rewrite OA; intros x n Vx; cbn in Vx.
    assert (W : exists w, In w vs /\ varies w x n).
    { clear -Vx; induction vs as [|w vs IH]; cbn in Vx; [destruct Vx|].
      destruct Vx as [Vx | Vx]; [exists w; split; [left; reflexivity | exact Vx]|].
      destruct (IH Vx) as (u & U & UV); exists u; split; [right; exact U | exact UV]. }
    destruct W as (w & W & WV); rewrite Forall_forall in FA; destruct (FA w W) as [-> | (q & -> & Dq)]; [destruct WV|].
    eapply (broadcast_shapes_contributes l s q F E); [|exact WV].
    eapply arguments_in; [exact L | exact G | exact GS|]; change q with (optika_shape (Shaped q)); apply in_map, W. }
  destruct g as [b|b|b|b ax|b c]; destruct k; try discriminate V; cbn in V; apply String.eqb_eq in V; subst b; cbn in TG.
  - destruct TG as [P | (q & P & D)]; rewrite P; [intros x n []|].
    eapply broadcast_shapes_contributes; [exact F | exact E|].
    eapply arguments_in; [exact L | exact G | reflexivity|]; cbn; rewrite P; left; reflexivity.
  - destruct TG as (vs & P & FA); eapply SV; [exact P | exact FA | cbn; rewrite P; reflexivity | reflexivity].
  - destruct TG as [[P | (q & P & D)] | (vs & P & FA)].
    + rewrite P; intros x n [].
    + rewrite P; eapply broadcast_shapes_contributes; [exact F | exact E|].
      eapply arguments_in; [exact L | exact G | cbn; rewrite P; reflexivity|]; left; reflexivity.
    + eapply SV; [exact P | exact FA | cbn; rewrite P; reflexivity | reflexivity].
Qed.

Lemma attributes_contribute class gs fields o s :
  In (class, gs) class_shape -> In (class, fields) class_fields -> ~ In class (map fst omitted) ->
  instance fields o -> typed gs o -> object_shape gs o = Some s ->
  forall a k, In (a, k) fields -> contributes (o a) s.
Proof.
  intros G F N.
  assert (C : complete fields gs = true).
  { assert (A : forallb (fun cg => forallb (fun cf => negb (String.eqb (fst cg) (fst cf))
        || existsb (String.eqb (fst cg)) (map fst omitted) || complete (snd cf) (snd cg)) class_fields) class_shape = true)
      by (vm_compute; reflexivity).
    rewrite forallb_forall in A; specialize (A _ G); cbn [fst snd] in A.
    rewrite forallb_forall in A; specialize (A _ F); cbn [fst snd] in A.
    rewrite String.eqb_refl in A; cbn [negb orb] in A; apply orb_prop in A as [A | A]; [|exact A].
    exfalso; apply N; apply existsb_exists in A as (c & I & E); apply String.eqb_eq in E; subst c; exact I. }
  intros IN T E; eapply complete_contributes; eassumption.
Qed.

Lemma in_pair {A B} (eqb : A -> A -> bool) (l : list (A * B)) x y :
  (forall a b, eqb a b = true -> a = b) -> find (fun p => eqb (fst p) x) l = Some (x, y) -> In (x, y) l.
Proof. intros H E; apply find_some in E; tauto. Qed.

(** The object with one attribute that varies. *)
Definition only (a : string) (v : value) : object :=
  fun b => if String.eqb b a then v
           else if existsb (String.eqb b) ["layers"; "surfaces"] then Sequence []
           else if String.eqb b "coefficients" then Mapping [] else Plain.

Lemma attributes_omitted class a : In (class, a) omitted ->
  exists gs fields k o s,
    In (class, gs) class_shape /\ In (class, fields) class_fields /\ In (a, k) fields /\
    instance fields o /\ object_shape gs o = Some s /\
    varies (o a) "axis" 2 /\ lookup "axis" s = None.
Proof.
  assert (DA : is_array (Shaped [("axis", 2)])).
  { right; exists [("axis", 2)]; split; [reflexivity | repeat constructor; intros []]. }
  intros I; unfold omitted in I; cbn [In] in I.
  do 14 (destruct I as [E | I];
    [ injection E as <- <-;
      match goal with |- exists gs fields k o s, In (?c, gs) _ /\ _ /\ In (?at_, k) _ /\ _ =>
        let g := eval vm_compute in (match find (fun p => String.eqb (fst p) c) class_shape with Some p => snd p | None => [] end) in
        let f := eval vm_compute in (match find (fun p => String.eqb (fst p) c) class_fields with Some p => snd p | None => [] end) in
        let k := eval vm_compute in (match find (fun p => String.eqb (fst p) at_) f with Some p => snd p | None => Array end) in
        let v := match k with Dict => constr:(Mapping [Shaped [("axis", 2)]]) | _ => constr:(Shaped [("axis", 2)]) end in
        exists g, f, k, (only at_ v), []
      end;
      split; [apply (in_pair String.eqb _ _ _ (fun a b => proj1 (String.eqb_eq a b))); vm_compute; reflexivity|];
      split; [apply (in_pair String.eqb _ _ _ (fun a b => proj1 (String.eqb_eq a b))); vm_compute; reflexivity|];
      split; [cbn; tauto|];
      split; [intros b k B; cbn [In] in B;
              repeat (destruct B as [B | B]; [injection B as <- <-; cbn; first [exact DA | left; reflexivity
                | eexists; split; [reflexivity | first [constructor; [exact DA | constructor] | constructor]]] |]); destruct B|];
      split; [vm_compute; reflexivity|];
      split; [cbn; tauto | reflexivity] |]).
  destruct I.
Qed.

Lemma lookup_pop x axis s : lookup axis (pop x s) = if String.eqb axis x then None else lookup axis s.
Proof.
  induction s as [|[a n] s IH]; cbn; [destruct (String.eqb axis x); reflexivity|].
  destruct (String.eqb_spec x a) as [->|N]; cbn.
  - unfold pop in IH; rewrite IH; destruct (String.eqb axis a); reflexivity.
  - unfold pop in IH; rewrite IH; destruct (String.eqb_spec axis a) as [->|]; [|reflexivity].
    destruct (String.eqb_spec a x); [congruence | reflexivity].
Qed.
Lemma lookup_pops t : forall s axis, ~ In axis (map fst t) ->
  lookup axis (fold_left (fun s (an : string * nat) => pop (fst an) s) t s) = lookup axis s.
Proof.
  induction t as [|[a n] t IH]; cbn; intros s axis N; [reflexivity|].
  rewrite IH by tauto; rewrite lookup_pop; destruct (String.eqb_spec axis a); [subst; tauto | reflexivity].
Qed.

(** Arrays of which some axes are consumed (the vertices of a polygon, the wavelengths of a
    measurement) contribute the other axes. *)
Lemma popped_contributes gs o s : typed gs o -> object_shape gs o = Some s ->
  (forall a x axis n, In (Pop a x) gs -> varies (o a) axis n -> axis <> x ->
    exists m, lookup axis s = Some m /\ (n = m \/ n = 1)) /\
  (forall a b axis n, In (PopAxes a b) gs -> varies (o a) axis n -> lookup axis (optika_shape (o b)) = None ->
    exists m, lookup axis s = Some m /\ (n = m \/ n = 1)).
Proof.
  intros T E; unfold object_shape in E.
  destruct (arguments_shapes o gs) as [l|] eqn:L; [|discriminate]; cbn in E.
  pose proof (arguments_dict o gs l T L) as F; split.
  - intros a x axis n G V N; pose proof (T _ G) as TG; cbn in TG.
    destruct TG as [P | (q & P & D)]; rewrite P in V; [destruct V|]; cbn in V.
    destruct (lookup x q) as [m|] eqn:X.
    + eapply (broadcast_shapes_contributes l s (pop x q) F E).
      * eapply arguments_in; [exact L | exact G | cbn; rewrite P; cbn; rewrite X; reflexivity | left; reflexivity].
      * cbn; rewrite lookup_pop; destruct (String.eqb_spec axis x); [congruence | exact V].
    + exfalso; revert L G P X; clear; revert l.
      induction gs as [|h gs IH]; cbn; intros l L G P X; [destruct G|]; destruct G as [-> | G].
      * cbn in L; rewrite P in L; cbn in L; rewrite X in L; discriminate.
      * destruct (argument_shapes o h); [|discriminate]; cbn in L.
        destruct (arguments_shapes o gs); [|discriminate]; eapply IH; eauto.
  - intros a b axis n G V N; pose proof (T _ G) as TG; cbn in TG.
    destruct TG as [P | (q & P & D)]; rewrite P in V; [destruct V|]; cbn in V.
    eapply (broadcast_shapes_contributes l s _ F E).
    + eapply arguments_in; [exact L | exact G | reflexivity | left; reflexivity].
    + cbn; rewrite P; cbn; rewrite lookup_pops; [exact V|]; apply lookup_none, N.
Qed.

Lemma surface_shape_example :
  let o a := if String.eqb a "sag" then Shaped [("radius", 3)]
             else if String.eqb a "aperture" then Shaped [("channel", 2); ("radius", 1)] else Plain in
  exists gs fields, In ("Surface", gs) class_shape /\ In ("Surface", fields) class_fields /\
    ~ In "Surface" (map fst omitted) /\ instance fields o /\ typed gs o /\
    object_shape gs o = Some [("channel", 2); ("radius", 3)] /\
    dict [("channel", 2); ("radius", 1)] /\ broadcast2 [("x", 2)] [("x", 3)] = None.
Proof.
  intros o.
  assert (A : forall a, is_array (o a)).
  { intros a; unfold o; destruct (String.eqb a "sag"); [|destruct (String.eqb a "aperture"); [|left; reflexivity]];
      right; eexists; split; try reflexivity; repeat constructor; cbn; intros H; repeat destruct H as [H | H]; discriminate || contradiction. }
  exists [One "name"; One "sag"; One "material"; One "aperture"; One "rulings"; One "transformation"].
  exists [("sag", Array); ("material", Array); ("aperture", Array); ("rulings", Array); ("transformation", Array)].
  split; [apply (in_pair String.eqb _ _ _ (fun a b => proj1 (String.eqb_eq a b))); vm_compute; reflexivity|].
  split; [apply (in_pair String.eqb _ _ _ (fun a b => proj1 (String.eqb_eq a b))); vm_compute; reflexivity|].
  split; [cbn; intros H; repeat destruct H as [H | H]; discriminate || contradiction|].
  split; [intros a k I; cbn in I; repeat (destruct I as [I | I]; [injection I as <- <-; apply A|]); destruct I|].
  split; [intros g G; cbn in G; repeat (destruct G as [<- | G]; [apply A|]); destruct G|].
  split; [reflexivity|]; split; [|reflexivity].
  repeat constructor; cbn; intros H; repeat destruct H as [H | H]; discriminate || contradiction.
Qed.

Lemma unshaped_shape : forall v, unshaped v -> optika_shape v = [].
Proof. intros [s|vs|vs|] H; try reflexivity. exfalso. exact (H s eq_refl). Qed.

Lemma members_unseen : forall gs o o',
  (forall a, o a = o' a \/ (unshaped (o a) /\ unshaped (o' a) /\ ~ In (Each a) gs /\ ~ In (EachOrOne a) gs)) ->
  object_shape gs o = object_shape gs o'.
Proof.
  intros gs o o' H. unfold object_shape.
  assert (S : forall a, optika_shape (o a) = optika_shape (o' a)).
  { intros a. destruct (H a) as [-> | (U & V & _)]; [reflexivity|]. rewrite !unshaped_shape by assumption. reflexivity. }
  assert (E : forall l, incl l gs -> arguments_shapes o l = arguments_shapes o' l).
  { induction l as [|g l IH]; intros I; [reflexivity|]. cbn [arguments_shapes].
    rewrite IH by (intros x X; apply I; right; exact X).
    assert (G : argument_shapes o g = argument_shapes o' g).
    { assert (IG : In g gs) by (apply I; left; reflexivity).
      destruct g as [a|a|a|a x|a b]; cbn [argument_shapes]; rewrite ?S; try reflexivity.
      - destruct (H a) as [-> | (_ & _ & N & _)]; [reflexivity | contradiction].
      - destruct (H a) as [-> | (_ & _ & _ & N)]; [reflexivity | contradiction]. }
    rewrite G. reflexivity. }
  rewrite E by (intros x X; exact X). reflexivity.
Qed.
