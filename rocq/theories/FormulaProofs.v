From Coq Require Import String Ascii List Bool Lia.
From Verif Require Import FormulaModel FormulaSpec.
Import ListNotations.
Open Scope string_scope.

Lemma is_digit_spec c : is_digit c = true <-> digit c.
Proof.
  split.
  - intros H; destruct c as [[] [] [] [] [] [] [] []]; try discriminate H; unfold digit; cbn; tauto.
  - unfold digit; cbn; intros H; repeat destruct H as [<- | H]; try reflexivity; destruct H.
Qed.
Lemma is_digit_false c : is_digit c = false <-> ~ digit c.
Proof. rewrite <- is_digit_spec; destruct (is_digit c); split; congruence. Qed.

Lemma app_assoc_s a b c : (a ++ b) ++ c = a ++ (b ++ c).
Proof. induction a as [|x a IH]; cbn; [reflexivity | rewrite IH; reflexivity]. Qed.
Lemma app_nil_s a : a ++ "" = a.
Proof. induction a as [|x a IH]; cbn; [reflexivity | rewrite IH; reflexivity]. Qed.
Lemma characters_app a b : characters (a ++ b) = (characters a ++ characters b)%list.
Proof. induction a as [|x a IH]; cbn; [reflexivity | rewrite IH; reflexivity]. Qed.
Lemma unmarked_app a b : unmarked (a ++ b) = unmarked a ++ unmarked b.
Proof. induction a as [|x a IH]; cbn; [reflexivity | destruct (_ || _); cbn; rewrite IH; reflexivity]. Qed.

Lemma unmarked_plain s : plain s -> unmarked s = s.
Proof.
  induction s as [|c s IH]; intros [D U]; cbn; [reflexivity|].
  destruct (Ascii.eqb_spec c "$") as [->|]; [exfalso; apply D; left; reflexivity|].
  destruct (Ascii.eqb_spec c "_") as [->|]; [exfalso; apply U; left; reflexivity|].
  cbn; rewrite IH; [reflexivity|]; split; intros H; [apply D | apply U]; right; exact H.
Qed.

Lemma unmarked_replaced r : unmarked (replaced r) = unmarked r.
Proof.
  destruct r as [|c r]; [reflexivity|].
  unfold replaced; rewrite !unmarked_app; cbn [unmarked]; cbn; rewrite app_nil_s; reflexivity.
Qed.
Lemma unmarked_sub s r : unmarked (sub_digits r s) = unmarked r ++ unmarked s.
Proof.
  revert r; induction s as [|c s IH]; intros r; cbn [sub_digits].
  - rewrite unmarked_replaced, app_nil_s; reflexivity.
  - destruct (is_digit c) eqn:D.
    + rewrite IH, unmarked_app, app_assoc_s; f_equal.
      change (String c s) with (String c "" ++ s); rewrite unmarked_app; reflexivity.
    + rewrite unmarked_app, unmarked_replaced; f_equal.
      change (String c (sub_digits "" s)) with (String c "" ++ sub_digits "" s).
      change (String c s) with (String c "" ++ s); rewrite !unmarked_app, IH; reflexivity.
Qed.
Lemma unmarked_latex s : plain s -> unmarked (formula_latex s) = s.
Proof. intros P; unfold formula_latex; rewrite unmarked_sub; apply unmarked_plain, P. Qed.

Lemma sub_run r d s : all_digits d -> sub_digits r (d ++ s) = sub_digits (r ++ d) s.
Proof.
  revert r; induction d as [|c d IH]; intros r A; cbn; [rewrite app_nil_s; reflexivity|].
  rewrite (proj2 (is_digit_spec c)) by (apply A; left; reflexivity).
  rewrite IH by (intros x X; apply A; right; exact X).
  rewrite app_assoc_s; reflexivity.
Qed.
Lemma sub_flush r s : ~ starts_with_digit s -> sub_digits r s = replaced r ++ sub_digits "" s.
Proof.
  destruct s as [|c s]; intros N; cbn; [rewrite app_nil_s; reflexivity|].
  destruct (is_digit c) eqn:D; [exfalso; apply N; exists c, s; split; [reflexivity | apply is_digit_spec, D]|].
  reflexivity.
Qed.
Lemma sub_app_text a r b : ~ ends_with_digit a -> a <> "" ->
  sub_digits r (a ++ b) = sub_digits r a ++ sub_digits "" b.
Proof.
  revert r; induction a as [|c a IH]; intros r N A; [congruence|]; cbn.
  assert (N' : a <> "" -> ~ ends_with_digit a).
  { intros _ (x & t & -> & X); apply N; exists x, (String c t); split; [reflexivity | exact X]. }
  destruct (is_digit c) eqn:D.
  - destruct a as [|x a].
    + exfalso; apply N; exists c, ""; split; [reflexivity | apply is_digit_spec, D].
    + apply IH; [apply N'; discriminate | discriminate].
  - rewrite app_assoc_s; f_equal; cbn; f_equal.
    destruct a as [|x a]; [reflexivity | apply IH; [apply N'; discriminate | discriminate]].
Qed.

Lemma latex_run a d b : ~ ends_with_digit a -> all_digits d -> d <> "" -> ~ starts_with_digit b ->
  formula_latex (a ++ d ++ b) = formula_latex a ++ ("$_" ++ d ++ "$") ++ formula_latex b.
Proof.
  intros A D DN B; unfold formula_latex.
  assert (E : sub_digits "" (d ++ b) = ("$_" ++ d ++ "$") ++ sub_digits "" b).
  { rewrite sub_run by exact D; cbn [append]; rewrite sub_flush by exact B; f_equal.
    destruct d; [congruence | reflexivity]. }
  destruct a as [|c a]; [cbn; exact E|].
  rewrite sub_app_text by (exact A || discriminate); rewrite E; reflexivity.
Qed.
Lemma latex_no_digits s : no_digits s -> formula_latex s = s.
Proof.
  unfold formula_latex; induction s as [|c s IH]; intros N; cbn; [reflexivity|].
  rewrite (proj2 (is_digit_false c)) by (apply N; left; reflexivity).
  cbn; f_equal; apply IH; intros x X; apply N; right; exact X.
Qed.

(** What is rendered: the first digit of each run is a subscript, the others are not. *)
Fixpoint first_digits (inside : bool) (s : string) : list (ascii * bool) :=
  match s with
  | EmptyString => []
  | String c t => (c, is_digit c && negb inside) :: first_digits (is_digit c) t
  end.

Lemma digit_not c d : is_digit c = true -> is_digit d = false -> Ascii.eqb c d = false.
Proof. intros H K; destruct (Ascii.eqb_spec c d) as [->|]; congruence. Qed.

Lemma render_math r u : (forall c, In c (characters r) -> is_digit c = true) ->
  render Math (r ++ String "$" u) = (map (fun c => (c, false)) (characters r) ++ render Text u)%list.
Proof.
  induction r as [|c r IH]; intros A; cbn; [reflexivity|].
  pose proof (A c (or_introl eq_refl)) as D.
  rewrite !digit_not by (exact D || reflexivity).
  f_equal; apply IH; intros x X; apply A; right; exact X.
Qed.
Lemma render_replaced c r u : is_digit c = true -> (forall x, In x (characters r) -> is_digit x = true) ->
  render Text (replaced (String c r) ++ u) =
    ((c, true) :: map (fun x => (x, false)) (characters r) ++ render Text u)%list.
Proof.
  intros D A; unfold replaced; rewrite !app_assoc_s.
  change ("$_" ++ String c r ++ "$" ++ u) with (String "$" (String "_" (String c (r ++ String "$" u)))).
  cbn [render]; cbn [Ascii.eqb Bool.eqb].
  change (Ascii.eqb "$" "$") with true; change (Ascii.eqb "_" "$") with false; change (Ascii.eqb "_" "_") with true.
  cbv iota; rewrite digit_not by (exact D || reflexivity).
  f_equal; apply render_math, A.
Qed.

Lemma render_latex_both s : plain s ->
  render Text (sub_digits "" s) = first_digits false s /\
  forall c r, is_digit c = true -> (forall x, In x (characters r) -> is_digit x = true) ->
    render Text (sub_digits (String c r) s) =
      ((c, true) :: map (fun x => (x, false)) (characters r) ++ first_digits true s)%list.
Proof.
  induction s as [|a s IH]; intros P.
  - split; [reflexivity|]; intros c r D A; cbn [sub_digits first_digits].
    rewrite <- (app_nil_s (replaced (String c r))); rewrite render_replaced by assumption; reflexivity.
  - assert (P' : plain s) by (destruct P as [P1 P2]; split; intros H; [apply P1 | apply P2]; right; exact H).
    destruct (IH P') as [IH1 IH2]; split.
    + cbn [sub_digits first_digits]; destruct (is_digit a) eqn:D; cbn [append].
      * rewrite IH2; [reflexivity | exact D | intros x []].
      * cbn [replaced append render].
        destruct (Ascii.eqb_spec a "$") as [->|]; [exfalso; apply (proj1 P); left; reflexivity|].
        rewrite IH1; reflexivity.
    + intros c r D A; cbn [sub_digits first_digits]; destruct (is_digit a) eqn:Da; cbn [append].
      * rewrite IH2; [| exact D |].
        -- rewrite characters_app, map_app, <- app_assoc; reflexivity.
        -- intros x X; rewrite characters_app in X; apply in_app_or in X as [X | [<- | []]]; auto.
      * rewrite render_replaced by assumption; cbn [render].
        destruct (Ascii.eqb_spec a "$") as [->|]; [exfalso; apply (proj1 P); left; reflexivity|].
        rewrite IH1; reflexivity.
Qed.
Lemma render_latex s : plain s -> render Text (formula_latex s) = first_digits false s.
Proof. intros P; apply render_latex_both, P. Qed.

Lemma first_digits_fst b s : map fst (first_digits b s) = characters s.
Proof. revert b; induction s as [|c s IH]; intros b; cbn; [reflexivity | rewrite IH; reflexivity]. Qed.

(** The rendered characters are those of the formula, in order, and no other character than
    a digit is a subscript. *)
Lemma latex_characters s : plain s ->
  map fst (render Text (formula_latex s)) = characters s /\
  forall c, In (c, true) (render Text (formula_latex s)) -> digit c.
Proof.
  intros P; rewrite render_latex by exact P; split; [apply first_digits_fst|].
  generalize false; clear P; induction s as [|x s IH]; intros b c; cbn; [tauto|].
  intros [E | H]; [|eapply IH; exact H].
  injection E as -> E; apply andb_prop in E as [E _]; apply is_digit_spec, E.
Qed.

(** Position by position: a digit is a subscript exactly if the character before is not one. *)
Lemma latex_first_digit a c b : plain (a ++ String c b) ->
  nth_error (render Text (formula_latex (a ++ String c b))) (String.length a) = Some (c, true) <->
  digit c /\ ~ ends_with_digit a.
Proof.
  intros P; rewrite render_latex by exact P; clear P.
  assert (G : forall i, nth_error (first_digits i (a ++ String c b)) (String.length a)
     = Some (c, is_digit c && negb (match a with EmptyString => i | _ =>
         match last (characters a) "x"%char with x => is_digit x end end))).
  { induction a as [|x a IH]; intros i; [reflexivity|]; cbn [append first_digits String.length nth_error].
    rewrite IH; destruct a as [|y a]; [reflexivity|]; reflexivity. }
  rewrite G.
  assert (E : ends_with_digit a <-> (match a with EmptyString => false | _ =>
         match last (characters a) "x"%char with x => is_digit x end end) = true).
  { clear G; induction a as [|x a IH].
    - split; [intros (d & t & E & _); destruct t; discriminate | discriminate].
    - destruct a as [|y a].
      + cbn; rewrite is_digit_spec; split.
        * intros (d & t & E & D); destruct t as [|z t]; cbn in E; [injection E as ->; exact D|].
          injection E as _ E; destruct t; discriminate.
        * intros D; exists x, ""; auto.
      + change (last (characters (String x (String y a))) "x"%char) with (last (characters (String y a)) "x"%char).
        rewrite <- IH; split.
        * intros (d & t & E & D); destruct t as [|z t]; [discriminate|]; cbn in E; injection E as -> E.
          exists d, t; split; [exact E | exact D].
        * intros (d & t & E & D); exists d, (String x t); rewrite E; auto. }
  rewrite E; destruct (is_digit c) eqn:D.
  - apply is_digit_spec in D; destruct (match a with EmptyString => false | _ => _ end); cbn; split; intros H;
      try (injection H as H); try tauto; try discriminate; try (destruct H; congruence); try reflexivity;
      try (split; [exact D | congruence]).
  - apply is_digit_false in D; cbn; split; [intros H; injection H as H; discriminate | intros [H _]; contradiction].
Qed.

(** Without two adjacent digits the formula is rendered as it should. *)
Lemma latex_single s : plain s ->
  (forall a c d b, s = a ++ String c (String d b) -> ~ (digit c /\ digit d)) ->
  subscripted s (render Text (formula_latex s)).
Proof.
  intros P H; rewrite render_latex by exact P; clear P; split; [apply first_digits_fst|].
  assert (G : forall s i, (i = true -> ~ starts_with_digit s) ->
    (forall a c d b, s = a ++ String c (String d b) -> ~ (digit c /\ digit d)) ->
    forall c b, In (c, b) (first_digits i s) -> (b = true <-> digit c)).
  { clear; induction s as [|x s IH]; intros i I H c b; cbn; [tauto|].
    intros [E | E].
    - injection E as -> <-; rewrite andb_true_iff, is_digit_spec, negb_true_iff.
      split; [tauto|]; intros D; split; [exact D|].
      destruct i; [exfalso; apply (I eq_refl); exists c, s; auto | reflexivity].
    - eapply IH; [| |exact E].
      + intros D (y & t & -> & Y); apply is_digit_spec in D; apply (H "" x y t); auto.
      + intros a u v w ->; apply (H (String x a) u v w); reflexivity. }
  intros c b; apply G; [discriminate | exact H].
Qed.

Lemma latex_double : ~ subscripted "C10H8O4" (render Text (formula_latex "C10H8O4")).
Proof.
  intros [_ H]; specialize (H "0"%char false); cbv in H.
  destruct H as [_ H]; [tauto|]; discriminate H; tauto.
Qed.

Lemma latex_refuted : exists s, plain s /\ ~ subscripted s (render Text (formula_latex s)).
Proof.
  exists "C10H8O4"; split; [|exact latex_double].
  split; cbn; intros H; repeat destruct H as [H | H]; discriminate || contradiction.
Qed.

Lemma formula_examples :
  plain "SiO2" /\ formula_latex "Al2O3" = "Al$_2$O$_3$" /\
  formula_latex "C10H8O4" = "C$_10$H$_8$O$_4$" /\
  render Text (formula_latex "C10") = [("C", false); ("1", true); ("0", false)]%char /\
  (forall a c d b, "SiO2" = a ++ String c (String d b) -> ~ (digit c /\ digit d)) /\
  ~ ends_with_digit "C" /\ all_digits "10" /\ ~ starts_with_digit "H8O4".
Proof.
  assert (ND : forall c, is_digit c = false -> ~ digit c) by (intros c; apply is_digit_false).
  split; [split; cbn; intros H; repeat destruct H as [H | H]; discriminate || contradiction|].
  split; [reflexivity|]. split; [reflexivity|]. split; [reflexivity|].
  split.
  { intros a c d b E [C D].
    destruct a as [|x [|y [|z a]]]; cbn in E; injection E; intros; subst;
      try (revert C; apply ND; reflexivity); try (revert D; apply ND; reflexivity).
    destruct a as [|? [|]]; discriminate. }
  split.
  { intros (c & t & E & D); destruct t as [|x t]; cbn in E; injection E; intros; subst;
      [revert D; apply ND; reflexivity | destruct t; discriminate]. }
  split; [intros c [<- | [<- | []]]; apply is_digit_spec; reflexivity|].
  intros (c & t & E & D); injection E as <- _; revert D; apply ND; reflexivity.
Qed.
