(** Printing. *)
From Coq Require Import String List Arith Lia.
From Verif Require Import PrintModel PrintSpec.
Import ListNotations.
Open Scope string_scope.

Lemma app_nil : forall s, s ++ "" = s.
Proof. induction s as [|c s IH]; [reflexivity|]. cbn. rewrite IH. reflexivity. Qed.
Lemma app_assoc_s : forall a b c, (a ++ b) ++ c = a ++ b ++ c.
Proof. induction a as [|x a IH]; intros b c; [reflexivity|]. cbn. rewrite IH. reflexivity. Qed.
Lemma length_app : forall a b, String.length (a ++ b) = String.length a + String.length b.
Proof. induction a as [|x a IH]; intros b; [reflexivity|]. cbn. rewrite IH. reflexivity. Qed.
Lemma length_spaces : forall n, String.length (spaces n) = n.
Proof. induction n; cbn; congruence. Qed.
Lemma spaces_add : forall a b, spaces a ++ spaces b = spaces (a + b).
Proof. induction a; intros b; [reflexivity|]. cbn. rewrite IHa. reflexivity. Qed.

Lemma concat_cons : forall s l, String.concat "" (s :: l) = s ++ String.concat "" l.
Proof. intros s [|t l]; cbn [String.concat]; [rewrite app_nil; reflexivity | reflexivity]. Qed.
Lemma concat_app : forall a b, String.concat "" (a ++ b)%list = String.concat "" a ++ String.concat "" b.
Proof. induction a as [|s a IH]; intros b; [reflexivity|]. cbn [app]. rewrite !concat_cons, IH, app_assoc_s. reflexivity. Qed.

(** The lines of a block. *)
Definition below (c : nat) (l : list (nat * string)) : string :=
  String.concat "" (map (fun l => newline ++ spaces (c + fst l) ++ snd l) l).
Lemma below_cons : forall c x l, below c (x :: l) = newline ++ spaces (c + fst x) ++ snd x ++ below c l.
Proof. intros. unfold below. cbn [map]. rewrite concat_cons, !app_assoc_s. reflexivity. Qed.
Lemma below_app : forall c a b, below c (a ++ b)%list = below c a ++ below c b.
Proof. intros. unfold below. rewrite map_app. apply concat_app. Qed.
Lemma new_line_spaces : forall c, new_line c = newline ++ spaces c.
Proof.
  intros c. unfold new_line, newline. change (String (Ascii.ascii_of_nat 10) "" ++ spaces c) with (String (Ascii.ascii_of_nat 10) (spaces c)).
  f_equal. induction c as [|c IH]; [reflexivity|]. cbn [repeat spaces]. rewrite concat_cons, IH. reflexivity.
Qed.
Lemma text_below : forall c b, text c b = fst b ++ below c (snd b).
Proof.
  intros c b. unfold text, below. f_equal. f_equal. apply map_ext. intros l. rewrite new_line_spaces. apply app_assoc_s.
Qed.

Lemma below_last : forall c l s, l <> [] -> below c (last_line l s) = below c l ++ s.
Proof.
  intros c l s H. induction l as [|[k t] l IH]; [contradiction|]. destruct l as [|y l].
  - cbn [last_line]. rewrite !below_cons. cbn [fst snd]. unfold below. cbn [map String.concat]. rewrite !app_nil, !app_assoc_s. reflexivity.
  - change (last_line ((k, t) :: y :: l) s) with ((k, t) :: last_line (y :: l) s). rewrite !(below_cons c (k, t)), IH by discriminate. rewrite !app_assoc_s. reflexivity.
Qed.
Lemma text_followed : forall c b s, text c (followed_by b s) = text c b ++ s.
Proof.
  intros c [f [|x l]] s; rewrite !text_below; unfold followed_by; cbn [fst snd].
  - unfold below. cbn [map String.concat]. rewrite !app_nil. reflexivity.
  - rewrite below_last by discriminate. rewrite app_assoc_s. reflexivity.
Qed.
Lemma below_lines_at : forall c k b, below c (lines_at k b) = newline ++ spaces (c + k) ++ text (c + k) b.
Proof.
  intros c k [f l]. unfold lines_at. rewrite below_cons, text_below. cbn [fst snd]. do 3 f_equal.
  induction l as [|x l IH]; [reflexivity|]. cbn [map]. rewrite !below_cons. cbn [fst snd]. rewrite IH, Nat.add_assoc. reflexivity.
Qed.
Lemma text_prepend : forall c s b, text c (s ++ fst b, snd b) = s ++ text c b.
Proof. intros c s [f l]. rewrite !text_below. cbn [fst snd]. apply app_assoc_s. Qed.

Lemma named_text : forall rest first p, named_string first rest p = text (String.length p) (first, rest).
Proof.
  intros rest. unfold named_string. induction rest as [|x rest IH]; intros first p; [symmetry; apply app_nil|].
  cbn [fold_left]. rewrite IH, !text_below. cbn [fst snd]. rewrite below_cons, !app_assoc_s. reflexivity.
Qed.
Lemma array_text : forall rest first p c hang, String.length p = c + hang ->
  array_string first rest p = text c (first, map (fun l => (hang, l)) rest).
Proof.
  intros rest. unfold array_string. induction rest as [|x rest IH]; intros first p c hang E; [symmetry; apply app_nil|].
  cbn [fold_left map]. rewrite (IH _ _ c hang E), !text_below. cbn [fst snd]. rewrite below_cons, !app_assoc_s, E. reflexivity.
Qed.
Lemma cut_one : forall s, one_line s -> cut s = (s, []).
Proof.
  induction s as [|c s IH]; intros H; [reflexivity|]. cbn [cut]. rewrite IH by (intros I; apply H; right; exact I).
  destruct (Ascii.eqb_spec c (Ascii.ascii_of_nat 10)) as [-> | _]; [exfalso; apply H; left; reflexivity | reflexivity].
Qed.

(** Induction over values. *)
Fixpoint value_induction (P : value -> Prop)
  (HO : forall n fs, Forall (fun f => P (snd f)) fs -> P (VObject n fs))
  (HN : forall f r, P (VNamed f r)) (HA : forall f r u, P (VArray f r u))
  (HL : forall l, Forall P l -> P (VList l)) (HT : forall s, P (VOther s)) (v : value) : P v :=
  match v with
  | VObject n fs => HO n fs ((fix each l : Forall (fun f => P (snd f)) l :=
      match l with [] => Forall_nil _ | f :: l => Forall_cons f (value_induction P HO HN HA HL HT (snd f)) (each l) end) fs)
  | VNamed f r => HN f r
  | VArray f r u => HA f r u
  | VList l => HL l ((fix each l : Forall P l :=
      match l with [] => Forall_nil _ | v :: l => Forall_cons v (value_induction P HO HN HA HL HT v) (each l) end) l)
  | VOther s => HT s
  end.

Definition fields_text (pre : string) (fields : list (string * value)) : string :=
  String.concat "" (map (fun f => (pre ++ tab ++ fst f ++ "=") ++ val_to_string (snd f) pre (pre ++ tab ++ fst f ++ "=") ++ "," ++ newline) fields).

Definition items_text (pre : string) (items : list value) : string :=
  String.concat "" (map (fun v => (pre ++ tab ++ tab) ++ val_to_string v (pre ++ tab) (pre ++ tab) ++ "," ++ newline) items).

Definition closed (pre body : string) : string := match body with EmptyString => "" | _ => newline ++ body ++ pre end.

Lemma object_string : forall name fields pre field_str,
  val_to_string (VObject name fields) pre field_str =
    name ++ "(" ++ closed (spaces (String.length (pre ++ tab))) (fields_text (spaces (String.length (pre ++ tab))) fields) ++ ")".
Proof.
  intros. cbn [val_to_string]. set (p := spaces (String.length (pre ++ tab))).
  match goal with |- context [match ?e with EmptyString => _ | _ => _ end] => assert (E : e = fields_text p fields) end.
  { unfold fields_text. induction fields as [|[f v] fields IH]; [reflexivity|]. cbn [map]. rewrite concat_cons, <- IH. cbn [fst snd]. reflexivity. }
  rewrite E. reflexivity.
Qed.
Lemma list_string : forall items pre field_str,
  val_to_string (VList items) pre field_str = "[" ++ newline ++ items_text pre items ++ pre ++ tab ++ "]".
Proof.
  intros. cbn [val_to_string].
  match goal with |- _ ++ _ ++ ?e ++ _ = _ => assert (E : e = items_text pre items) end.
  { unfold items_text. induction items as [|v items IH]; [reflexivity|]. cbn [map]. rewrite concat_cons, <- IH. reflexivity. }
  rewrite E. reflexivity.
Qed.
Lemma to_string_fields : forall name fields prefix,
  let pre := spaces (match prefix with Some p => String.length p | None => 0 end) in
  to_string name fields prefix = name ++ "(" ++ closed pre (fields_text pre fields) ++ ")".
Proof.
  intros name fields prefix. unfold to_string.
  replace (match prefix with Some p => spaces (String.length p) | None => "" end)
    with (spaces (match prefix with Some p => String.length p | None => 0 end)) by (destruct prefix; reflexivity).
  set (pre := spaces _). cbv zeta.
  match goal with |- context [fold_left ?g fields ""] => assert (E : forall acc, fold_left g fields acc = acc ++ fields_text pre fields) end.
  { unfold fields_text. induction fields as [|f fields IH]; intros acc; [symmetry; apply app_nil|]. cbn [map fold_left]. rewrite IH, concat_cons, !app_assoc_s. reflexivity. }
  rewrite E. reflexivity.
Qed.

(** Swapping the line break at the end of each part to its beginning. *)
Lemma rotate_lines : forall A (g : A -> string) l last,
  newline ++ String.concat "" (map (fun x => g x ++ newline) l) ++ last = String.concat "" (map (fun x => newline ++ g x) l) ++ newline ++ last.
Proof.
  intros A g l last. induction l as [|x l IH]; [reflexivity|]. cbn [map]. rewrite !concat_cons, !app_assoc_s, IH. reflexivity.
Qed.
Lemma below_flat : forall A c (g : A -> list (nat * string)) l, below c (flat_map g l) = String.concat "" (map (fun x => below c (g x)) l).
Proof.
  intros A c g l. induction l as [|x l IH]; [reflexivity|]. cbn [flat_map map]. rewrite below_app, concat_cons, IH. reflexivity.
Qed.

Definition laid (pre : string) (hang : nat) (v : value) (s : string) : Prop := s = text (String.length pre + 4) (layout hang v).

Lemma fold_right_forall : forall A (P : A -> Prop) l, fold_right (fun x Q => P x /\ Q) True l <-> Forall P l.
Proof.
  intros A P l. induction l as [|x l IH]; cbn [fold_right]; [split; [constructor | trivial]|].
  split; [intros [H K]; constructor; [exact H | apply IH, K] | intros H; inversion H; subst; split; [assumption | apply IH; assumption]].
Qed.

Lemma tab_length : String.length tab = 4.
Proof. reflexivity. Qed.

Lemma fields_laid : forall c name fields, fields <> [] ->
  Forall (fun f => val_to_string (snd f) (spaces c) (spaces c ++ tab ++ fst f ++ "=") = text (c + 4) (layout (String.length (fst f) + 1) (snd f))) fields ->
  name ++ "(" ++ closed (spaces c) (fields_text (spaces c) fields) ++ ")" = text c (layout 0 (VObject name fields)).
Proof.
  intros c name fields NE F. 
  assert (C : closed (spaces c) (fields_text (spaces c) fields) = newline ++ fields_text (spaces c) fields ++ spaces c).
  { unfold closed. destruct (fields_text (spaces c) fields) eqn:E; [|reflexivity]. exfalso. destruct fields as [|f fields]; [contradiction|].
    unfold fields_text in E. cbn [map] in E. rewrite concat_cons in E. apply (f_equal String.length) in E. rewrite !length_app in E. cbn in E. lia. }
  rewrite C. unfold fields_text.
  rewrite (map_ext_in _ (fun f => ((spaces c ++ tab ++ fst f ++ "=") ++ text (c + 4) (layout (String.length (fst f) + 1) (snd f)) ++ ",") ++ newline)).
  2:{ intros f I. rewrite Forall_forall in F. rewrite (F f I). rewrite !app_assoc_s. reflexivity. }
  destruct fields as [|f0 fs]; [contradiction|]. set (fields := f0 :: fs) in *.
  change (layout 0 (VObject name fields)) with (bracket (name ++ "(")
        (flat_map (fun f => let b := layout (String.length (fst f) + 1) (snd f) in
                            lines_at 4 (followed_by ((fst f ++ "=" ++ fst b), snd b) ",")) fields) ")").
  unfold bracket. rewrite text_below. cbn [fst snd]. rewrite below_app, below_flat, below_cons. cbn [fst snd]. rewrite Nat.add_0_r.
  replace (below c []) with "" by reflexivity. rewrite !app_assoc_s. f_equal. f_equal.
  rewrite (rotate_lines _ (fun f => (spaces c ++ tab ++ fst f ++ "=") ++ text (c + 4) (layout (String.length (fst f) + 1) (snd f)) ++ ",")).
  rewrite app_nil. f_equal. f_equal. apply map_ext. intros f. cbv zeta. rewrite below_lines_at, text_followed.
  rewrite <- (app_assoc_s (fst f) "="), text_prepend, !app_assoc_s. f_equal. unfold tab. rewrite <- (app_assoc_s (spaces c)), spaces_add. reflexivity.
Qed.

Lemma layout_object_hang : forall n fs h, layout h (VObject n fs) = layout 0 (VObject n fs).
Proof. intros n [|f fs] h; reflexivity. Qed.

Lemma value_laid : forall v listed c field_str hang, keeps_lines listed v ->
  (listed = false -> String.length field_str = c + 4 + hang) ->
  val_to_string v (spaces c) field_str = text (c + 4) (layout hang v).
Proof.
  induction v as [name fields IH | first rest | first rest unit | items IH | s] using value_induction;
    intros listed c field_str hang K H.
  - rewrite object_string, layout_object_hang, length_app, tab_length, length_spaces.
    destruct fields as [|f fs].
    + unfold fields_text, closed. cbn [map String.concat]. rewrite text_below. cbn [layout fst snd]. unfold below. cbn. rewrite app_nil. reflexivity.
    + apply fields_laid; [discriminate|]. cbn [keeps_lines] in K. destruct K as [_ K].
      apply (fold_right_forall _ (fun f => one_line (fst f) /\ keeps_lines false (snd f))) in K.
      rewrite Forall_forall in *. intros g I. apply (IH g I false); [apply K, I|].
      intros _. rewrite !length_app, length_spaces. cbn. lia.
  - cbn [val_to_string layout]. rewrite named_text, length_app, tab_length, length_spaces. reflexivity.
  - cbn [val_to_string layout]. destruct K as (_ & _ & L & _).
    assert (E : array_string first rest field_str = text (c + 4) (first, map (fun l => (hang, l)) rest)).
    { destruct listed.
      - rewrite (L eq_refl). symmetry. apply app_nil.
      - apply array_text, H. reflexivity. }
    rewrite E. destruct unit; [rewrite text_followed; reflexivity | apply app_nil].
  - rewrite list_string. cbn [layout]. unfold bracket. rewrite text_below. cbn [fst snd]. rewrite below_app, below_flat, below_cons. cbn [fst snd].
    rewrite Nat.add_0_r. replace (below (c + 4) []) with "" by reflexivity. f_equal. unfold items_text.
    cbn [keeps_lines] in K. apply (fold_right_forall _ (keeps_lines true)) in K. rewrite Forall_forall in *.
    assert (ST : spaces c ++ tab = spaces (c + 4)) by apply spaces_add.
    rewrite (map_ext_in _ (fun v => (spaces (c + 4 + 4) ++ text (c + 4 + 4) (layout 0 v) ++ ",") ++ newline)).
    2:{ intros v I. rewrite <- (app_assoc_s (spaces c)), !ST. rewrite (IH v I true (c + 4)%nat (spaces (c + 4)) 0%nat (K v I)) by discriminate.
        unfold tab. rewrite spaces_add, !app_assoc_s. reflexivity. }
    rewrite (rotate_lines _ (fun v => spaces (c + 4 + 4) ++ text (c + 4 + 4) (layout 0 v) ++ ",")).
    rewrite app_nil, <- (app_assoc_s (spaces c)), ST. f_equal. f_equal. apply map_ext. intros v. rewrite below_lines_at, text_followed. reflexivity.
  - cbn [val_to_string layout]. cbn [keeps_lines] in K. rewrite cut_one by exact K. symmetry. apply app_nil.
Qed.

Lemma printed : forall name fields prefix, keeps_lines false (VObject name fields) ->
  to_string name fields prefix = text (match prefix with Some p => String.length p | None => 0 end) (layout 0 (VObject name fields)).
Proof.
  intros name fields prefix K. rewrite to_string_fields. set (c := match prefix with Some p => String.length p | None => 0 end).
  destruct fields as [|f fs].
  - unfold fields_text, closed. cbn [map String.concat]. rewrite text_below. cbn [layout fst snd]. unfold below. cbn. rewrite app_nil. reflexivity.
  - apply fields_laid; [discriminate|]. cbn [keeps_lines] in K. destruct K as [_ K].
    apply (fold_right_forall _ (fun f => one_line (fst f) /\ keeps_lines false (snd f))) in K.
    rewrite Forall_forall in *. intros g I. apply (value_laid _ false); [apply K, I|].
    intros _. rewrite !length_app, length_spaces. cbn. lia.
Qed.

(** ** The parts of a layout are lines *)
Lemma one_line_app : forall a b, one_line a -> one_line b -> one_line (a ++ b).
Proof.
  intros a b A B I. induction a as [|c a IH]; [exact (B I)|]. cbn in I. destruct I as [I | I]; [apply A; left; exact I|].
  apply IH; [intros J; apply A; right; exact J | exact I].
Qed.
Ltac literal := intros I; cbn in I; intuition discriminate.

Definition block_lines (b : block) : Prop := one_line (fst b) /\ Forall (fun l => one_line (snd l)) (snd b).

Lemma last_lines : forall l s, one_line s -> Forall (fun l : nat * string => one_line (snd l)) l -> Forall (fun l => one_line (snd l)) (last_line l s).
Proof.
  intros l s S F. induction l as [|[k t] l IH]; [constructor|]. inversion F as [|? ? T F']; subst. destruct l as [|y l].
  - cbn [last_line]. constructor; [|constructor]. cbn in *. apply one_line_app; assumption.
  - change (last_line ((k, t) :: y :: l) s) with ((k, t) :: last_line (y :: l) s). constructor; [exact T | apply IH, F'].
Qed.
Lemma followed_lines : forall b s, one_line s -> block_lines b -> block_lines (followed_by b s).
Proof.
  intros [f [|x l]] s S [A B]; unfold followed_by; cbn [fst snd] in *; split; cbn [fst snd]; auto.
  - apply one_line_app; assumption.
  - apply last_lines; assumption.
Qed.
Lemma at_lines : forall k b, block_lines b -> Forall (fun l => one_line (snd l)) (lines_at k b).
Proof.
  intros k [f l] [A B]. unfold lines_at. cbn [fst snd] in *. constructor; [exact A|]. rewrite Forall_forall in *. intros x I.
  apply in_map_iff in I. destruct I as (y & <- & Y). exact (B y Y).
Qed.
Lemma bracket_lines : forall o i c, one_line o -> Forall (fun l => one_line (snd l)) i -> one_line c -> block_lines (bracket o i c).
Proof. intros o i c O I C. split; [exact O|]. cbn [snd bracket]. apply Forall_app. split; [exact I | constructor; [exact C | constructor]]. Qed.

Lemma layout_lines : forall v listed hang, keeps_lines listed v -> block_lines (layout hang v).
Proof.
  induction v as [name fields IH | first rest | first rest unit | items IH | s] using value_induction; intros listed hang K; cbn [keeps_lines] in K.
  - destruct K as [N K]. apply (fold_right_forall _ (fun f => one_line (fst f) /\ keeps_lines false (snd f))) in K.
    destruct fields as [|f fs]; [cbn [layout]; split; [apply one_line_app; [exact N | literal] | constructor]|].
    set (fields := f :: fs) in *.
    change (layout hang (VObject name fields)) with (bracket (name ++ "(")
        (flat_map (fun f => let b := layout (String.length (fst f) + 1) (snd f) in
                            lines_at 4 (followed_by ((fst f ++ "=" ++ fst b), snd b) ",")) fields) ")").
    apply bracket_lines; [apply one_line_app; [exact N | literal] | | literal]. rewrite Forall_forall in *. intros x I.
    apply in_flat_map in I. destruct I as (g & G & I). cbv zeta in I. destruct (K g G) as [K1 K2].
    assert (B := IH g G false (String.length (fst g) + 1) K2). revert I. revert x. apply Forall_forall. apply at_lines, followed_lines; [literal|].
    destruct B as [B1 B2]. split; [cbn [fst]; apply one_line_app; [exact K1 | apply one_line_app; [literal | exact B1]] | exact B2].
  - destruct K as [K1 K2]. apply (fold_right_forall _ (fun l => one_line (snd l))) in K2. split; assumption.
  - destruct K as (K1 & K2 & _ & U). apply (fold_right_forall _ one_line) in K2.
    assert (B : block_lines (first, map (fun l => (hang, l)) rest)).
    { split; [exact K1|]. cbn [snd]. rewrite Forall_forall in *. intros x I. apply in_map_iff in I. destruct I as (y & <- & Y). apply K2, Y. }
    cbn [layout]. destruct unit; [|exact B]. apply followed_lines; [|exact B]. apply one_line_app; [literal | exact U].
  - apply (fold_right_forall _ (keeps_lines true)) in K. cbn [layout]. apply bracket_lines; [literal | | literal]. rewrite Forall_forall in *. intros x I.
    apply in_flat_map in I. destruct I as (g & G & I). revert I. revert x. apply Forall_forall. apply at_lines, followed_lines; [literal|]. apply (IH g G true), K, G.
  - cbn [layout]. rewrite cut_one by exact K. split; [exact K | constructor].
Qed.

(** ** What is not laid out *)
Lemma array_in_list : exists name first rest, one_line first /\ Forall one_line rest /\
  let fields := [("x", VList [VArray first rest None])] in to_string name fields None <> text 0 (layout 0 (VObject name fields)).
Proof. exists "A", "[[1, 0],", [" [0, 1]]"]. repeat split; [literal | constructor; [literal | constructor] | discriminate]. Qed.

Lemma other_lines : exists name inner, keeps_lines false (VObject "B" inner) /\
  let pair := VOther ("(" ++ repr "B" inner ++ ",)") in
  to_string name [("x", pair)] None <> text 0 (layout 0 (VObject name [("x", pair)])).
Proof.
  exists "A", [("y", VOther "1")]. split; [|discriminate]. cbn [keeps_lines fold_right fst snd]. repeat split; literal.
Qed.

Lemma printed_repr : forall name fields, keeps_lines false (VObject name fields) ->
  repr name fields = text 0 (layout 0 (VObject name fields)).
Proof. intros name fields. exact (printed name fields None). Qed.
