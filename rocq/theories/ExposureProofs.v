(** Every pixel of an exposure has its own parameters. *)
From Coq Require Import Reals List String Bool Arith ZArith Lia.
From Verif Require Import Num ShapeModel RamanathanModel ExposureModel ShapeSpec ShapeProofs ExposureSpec.
Import ListNotations.
Open Scope string_scope.
Open Scope list_scope.
Open Scope nat_scope.
Open Scope opt_scope.

Definition size (s : shape) : nat := fold_right (fun an m => snd an * m) 1 s.

Lemma flat_map_nth {A B} (f : A -> list B) m l : (forall x, In x l -> List.length (f x) = m) -> forall i j x, nth_error l i = Some x -> j < m ->
  nth_error (flat_map f l) (i * m + j) = nth_error (f x) j.
Proof.
  induction l as [|y l IH]; intros L i j x N J; [destruct i; discriminate|]. cbn [flat_map]. assert (LY := L y (or_introl eq_refl)). destruct i as [|i]; cbn in N.
  - injection N as ->. rewrite nth_error_app1 by (rewrite LY; cbn; lia). reflexivity.
  - rewrite nth_error_app2 by (rewrite LY; lia). rewrite LY. replace (S i * m + j - m) with (i * m + j) by lia. apply IH; [intros; apply L; right; assumption | assumption | assumption].
Qed.
Lemma flat_map_len {A B} (f : A -> list B) m l : (forall x, In x l -> List.length (f x) = m) -> List.length (flat_map f l) = List.length l * m.
Proof.
  induction l as [|y l IH]; intros L; [reflexivity|]. cbn [flat_map List.length]. rewrite app_length, (L y (or_introl eq_refl)), IH by (intros; apply L; right; assumption). lia.
Qed.
Lemma seq_nth_error n : forall i s, i < n -> nth_error (seq s n) i = Some (s + i).
Proof.
  induction n as [|n IH]; intros i s L; [lia|]. destruct i as [|i]; cbn; [f_equal; lia|]. rewrite IH by lia. f_equal. lia.
Qed.

(** ** Numbers of places *)
Lemma number_app s t p : forall acc, number_from acc (s ++ t) p = number_from (number_from acc s p) t p.
Proof. induction s as [|[a n] s IH]; intros acc; [reflexivity|]. apply IH. Qed.
Lemma number_ext s p q : (forall a, In a (map fst s) -> p a = q a) -> forall acc, number_from acc s p = number_from acc s q.
Proof.
  induction s as [|[a n] s IH]; intros E acc; [reflexivity|]. cbn [number_from]. rewrite (E a (or_introl eq_refl)). apply IH. intros b B. apply E. right. exact B.
Qed.
Lemma number_acc s p : forall acc, number_from acc s p = acc * size s + number s p.
Proof.
  unfold number. induction s as [|[a n] s IH]; intros acc; cbn [number_from size fold_right snd]; [lia|]. fold (size s). rewrite IH, (IH (0 * n + _)). lia.
Qed.
Lemma inside_tail an s p : inside (an :: s) p -> inside s p.
Proof. intros I a n H. apply I. right. exact H. Qed.
Lemma stretched n (p : place) a : p a < n -> (if Nat.eqb n 1 then O else p a) = p a.
Proof. destruct (Nat.eqb_spec n 1); lia. Qed.
Lemma number_cons a n s p : p a < n -> number ((a, n) :: s) p = p a * size s + number s p.
Proof. intros L. unfold number at 1. cbn [number_from]. rewrite stretched by exact L. rewrite number_acc. lia. Qed.
Lemma number_lt s p : inside s p -> number s p < size s.
Proof.
  induction s as [|[a n] s IH]; intros I; [cbn; lia|]. assert (L := I a n (or_introl eq_refl)). rewrite number_cons by exact L.
  specialize (IH (inside_tail _ _ _ I)). cbn [size fold_right snd]. fold (size s). nia.
Qed.
Lemma number_injective s p q : inside s p -> inside s q -> (number s p = number s q <-> forall a, In a (map fst s) -> p a = q a).
Proof.
  intros P Q. split; [|intros E; unfold number; apply number_ext; exact E]. revert P Q.
  induction s as [|[a n] s IH]; intros P Q E b B; [destruct B|].
  assert (LP := P a n (or_introl eq_refl)). assert (LQ := Q a n (or_introl eq_refl)). rewrite !number_cons in E by assumption.
  assert (NP := number_lt s p (inside_tail _ _ _ P)). assert (NQ := number_lt s q (inside_tail _ _ _ Q)).
  assert (X : p a = q a) by nia. rewrite X in E. destruct B as [<- | B]; [exact X|]. apply IH; [exact (inside_tail _ _ _ P) | exact (inside_tail _ _ _ Q) | lia | exact B].
Qed.

Lemma places_len s : List.length (places s) = size s.
Proof.
  induction s as [|[a n] s IH]; [reflexivity|]. cbn [places size fold_right snd]. fold (size s).
  rewrite (flat_map_len _ (size s)); [rewrite seq_length; reflexivity|]. intros i _. rewrite map_length. exact IH.
Qed.
Lemma places_nth s p : NoDup (map fst s) -> inside s p -> exists q, nth_error (places s) (number s p) = Some q /\ forall a, In a (map fst s) -> q a = p a.
Proof.
  induction s as [|[a n] s IH]; intros D I; [exists (fun _ => O); split; [reflexivity | intros a []]|].
  cbn [map fst] in D. inversion D as [|x y NI D']; subst. destruct (IH D' (inside_tail _ _ _ I)) as (q & N & E).
  assert (L := I a n (or_introl eq_refl)). exists (move a (p a) q). split.
  - rewrite number_cons by exact L. cbn [places].
    rewrite (flat_map_nth _ (size s) _ (fun i _ => eq_trans (map_length _ _) (places_len s)) (p a) (number s p) (p a)).
    + rewrite nth_error_map, N. reflexivity.
    + rewrite seq_nth_error by exact L. reflexivity.
    + exact (number_lt s p (inside_tail _ _ _ I)).
  - intros b [<- | B]; unfold move; [rewrite String.eqb_refl; reflexivity|].
    destruct (String.eqb_spec b a) as [-> | _]; [contradiction | exact (E b B)].
Qed.

(** ** Broadcasting *)
Lemma osequence_nth {A} (l : list (option A)) : forall d k o, osequence l = Some d -> nth_error l k = Some o -> o = nth_error d k /\ o <> None.
Proof.
  induction l as [|a l IH]; intros d k o S N; [destruct k; discriminate|]. cbn in S. destruct a as [a|]; [|discriminate]. cbn in S.
  destruct (osequence l) as [r|] eqn:E; [|discriminate]. cbn in S. injection S as <-. destruct k as [|k]; cbn in N |- *; [injection N as <-; split; [reflexivity | discriminate] | exact (IH r k o eq_refl N)].
Qed.
Lemma osequence_len {A} (l : list (option A)) : forall d, osequence l = Some d -> List.length d = List.length l.
Proof.
  induction l as [|a l IH]; intros d S; cbn in S; [injection S as <-; reflexivity|]. destruct a as [a|]; [|discriminate]. cbn in S.
  destruct (osequence l) as [r|] eqn:E; [|discriminate]. cbn in S. injection S as <-. cbn. f_equal. apply IH. reflexivity.
Qed.
Lemma lookup_key a s n : lookup a s = Some n -> In a (map fst s).
Proof.
  induction s as [|[b m] s IH]; cbn; [discriminate|]. destruct (String.eqb_spec a b) as [-> | _]; [left; reflexivity | right; apply IH; assumption].
Qed.
Lemma broadcast_element {A} (a b : narray A) t p : NoDup (map fst t) -> inside t p -> broadcast_to a t = Some b ->
  exists v, nth_error (na_data b) (number t p) = Some v /\ element a p = Some v.
Proof.
  intros D I H. unfold broadcast_to in H. destruct (stretches (na_shape a) t) eqn:S; [|discriminate].
  destruct (osequence _) as [d|] eqn:O; [|discriminate]. cbn in H. injection H as <-. cbn [na_data].
  destruct (places_nth t p D I) as (q & N & E).
  assert (N' : nth_error (map (element a) (places t)) (number t p) = Some (element a q)) by (rewrite nth_error_map, N; reflexivity).
  destruct (osequence_nth _ _ _ _ O N') as [V NN].
  assert (X : element a p = element a q).
  { unfold element. f_equal. unfold number. apply number_ext. intros c C. symmetry. apply E.
    unfold stretches in S. rewrite forallb_forall in S. apply in_map_iff in C. destruct C as ([c' m] & <- & C). specialize (S _ C). cbn [fst snd] in S.
    destruct (lookup c' t) as [k|] eqn:LK; [|discriminate]. exact (lookup_key _ _ _ LK). }
  rewrite <- V, X. destruct (element a q) as [v|]; [|contradiction]. exists v. auto.
Qed.
Lemma broadcast_len {A} (a b : narray A) t : broadcast_to a t = Some b -> List.length (na_data b) = size t.
Proof.
  intros H. unfold broadcast_to in H. destruct (stretches (na_shape a) t); [|discriminate].
  destruct (osequence _) as [d|] eqn:O; [|discriminate]. cbn in H. injection H as <-. cbn [na_data]. rewrite (osequence_len _ _ O), map_length. apply places_len.
Qed.

(** ** Cells *)
Section Pixels.
Context (rest : shape) (ax ay : string) (nx ny : nat).
Let t := rest ++ [(ax, nx); (ay, ny)].
Context (D : NoDup (map fst t)).

Lemma pixel_axes : ax <> ay /\ ~ In ax (map fst rest) /\ ~ In ay (map fst rest) /\ NoDup (map fst rest).
Proof.
  unfold t in D. rewrite map_app in D. cbn [map fst] in D. assert (D1 := NoDup_remove_2 _ _ _ D). assert (D2 := NoDup_remove_1 _ _ _ D).
  assert (D3 := NoDup_remove_2 _ _ _ D2). assert (D4 := NoDup_remove_1 _ _ _ D2). rewrite app_nil_r in D3, D4.
  split; [intros ->; apply D1; apply in_or_app; right; left; reflexivity|]. split; [intros X; apply D1; apply in_or_app; left; exact X|]. split; assumption.
Qed.
Lemma pixel_inside p x y : inside t p -> x < nx -> y < ny -> inside t (move ay y (move ax x p)).
Proof.
  intros I X Y a n H. destruct pixel_axes as (N & N1 & N2 & _). unfold move. unfold t in H. apply in_app_or in H.
  destruct H as [H | [H | [H | []]]].
  - assert (K : In a (map fst rest)) by (apply in_map_iff; exists (a, n); auto).
    destruct (String.eqb_spec a ay) as [-> | _]; [contradiction|]. destruct (String.eqb_spec a ax) as [-> | _]; [contradiction|].
    apply I. unfold t. apply in_or_app. left. exact H.
  - injection H as <- <-. destruct (String.eqb_spec ax ay) as [E | _]; [contradiction|]. rewrite String.eqb_refl. exact X.
  - injection H as <- <-. rewrite String.eqb_refl. exact Y.
Qed.
Lemma pixel_number p x y : x < nx -> y < ny -> number t (move ay y (move ax x p)) = (number rest p * nx + x) * ny + y.
Proof.
  intros X Y. destruct pixel_axes as (N & N1 & N2 & _). unfold t, number. rewrite number_app. cbn [number_from].
  rewrite (number_ext rest _ p).
  - rewrite !stretched.
    + unfold move. rewrite String.eqb_refl. destruct (String.eqb_spec ax ay) as [E | _]; [contradiction|]. rewrite String.eqb_refl. reflexivity.
    + unfold move. rewrite String.eqb_refl. exact Y.
    + unfold move. destruct (String.eqb_spec ax ay) as [E | _]; [contradiction|]. rewrite String.eqb_refl. exact X.
  - intros a A. unfold move. destruct (String.eqb_spec a ay) as [-> | _]; [contradiction|]. destruct (String.eqb_spec a ax) as [-> | _]; [contradiction|]. reflexivity.
Qed.
Lemma cell_own {A} (g : A) (a b : narray A) p x y : inside t p -> x < nx -> y < ny -> broadcast_to a t = Some b ->
  element a (move ay y (move ax x p)) = Some (cell g nx ny b (number rest p) x y).
Proof.
  intros I X Y H. destruct (broadcast_element a b t _ D (pixel_inside p x y I X Y) H) as (v & V & E). rewrite E. f_equal.
  unfold cell. rewrite pixel_number in V by assumption. symmetry. apply nth_error_nth. exact V.
Qed.
Lemma row_own {A} (g : A) (a b : narray A) n p x y k : ~ In "num_electron" (map fst t) -> inside t p -> x < nx -> y < ny -> k < n ->
  broadcast_to a (shape_n t n) = Some b ->
  element a (move "num_electron" k (move ay y (move ax x p))) = nth_error (row g nx ny n b (number rest p) x y) k.
Proof.
  intros NE I X Y K H. set (q := move ay y (move ax x p)). assert (IQ := pixel_inside p x y I X Y). fold q in IQ.
  assert (DN : NoDup (map fst (shape_n t n))).
  { unfold shape_n. rewrite map_app. cbn [map fst]. apply NoDup_remove_2 with (l' := []) || idtac.
    rewrite <- (rev_involutive (map fst t ++ ["num_electron"])). apply NoDup_rev. rewrite rev_app_distr. cbn. constructor; [rewrite <- in_rev; exact NE | apply NoDup_rev; exact D]. }
  assert (IN : inside (shape_n t n) (move "num_electron" k q)).
  { intros c m C. unfold shape_n in C. apply in_app_or in C. unfold move. destruct C as [C | [C | []]].
    - assert (KC : In c (map fst t)) by (apply in_map_iff; exists (c, m); auto). destruct (String.eqb_spec c "num_electron") as [-> | _]; [contradiction|]. exact (IQ c m C).
    - injection C as <- <-. rewrite String.eqb_refl. exact K. }
  destruct (broadcast_element a b _ _ DN IN H) as (v & V & E). rewrite E.
  unfold row. rewrite nth_error_map, seq_nth_error by exact K. cbn [option_map]. f_equal. symmetry. apply nth_error_nth. rewrite Nat.add_0_l.
  rewrite <- V. f_equal. unfold number at 2. unfold shape_n. rewrite number_app. cbn [number_from]. rewrite stretched by (unfold move; rewrite String.eqb_refl; exact K).
  fold (number t (move "num_electron" k q)).
  assert (NT : number t (move "num_electron" k q) = (number rest p * nx + x) * ny + y).
  { rewrite <- (pixel_number p x y X Y). fold q. unfold number. apply number_ext. intros c C. unfold move. destruct (String.eqb_spec c "num_electron") as [-> | _]; [contradiction | reflexivity]. }
  rewrite NT. unfold move. rewrite String.eqb_refl. reflexivity.
Qed.
End Pixels.

Lemma run_slices_nth wrap nx ny ss : forall gs i s, run_slices wrap nx ny ss = Some gs -> nth_error ss i = Some s ->
  exists g, run_slice wrap nx ny s = Some g /\ nth_error gs i = Some g.
Proof.
  induction ss as [|s' ss IH]; intros gs i s H N; [destruct i; discriminate|]. cbn in H. destruct (run_slice wrap nx ny s') as [g|] eqn:G; [|discriminate]. cbn in H.
  destruct (run_slices wrap nx ny ss) as [r|] eqn:R; [|discriminate]. cbn in H. injection H as <-.
  destruct i as [|i]; cbn in N |- *; [injection N as <-; exists g; auto | exact (IH r i s eq_refl N)].
Qed.

(** ** The shape *)
Lemma pop_keys a s b : In b (map fst (pop a s)) <-> b <> a /\ In b (map fst s).
Proof.
  unfold pop. rewrite !in_map_iff. split.
  - intros ([c n] & <- & H). apply filter_In in H. destruct H as [H K]. cbn [fst] in *. destruct (String.eqb_spec a c) as [-> | N]; [discriminate|]. split; [congruence | exists (c, n); auto].
  - intros (N & [c n] & <- & H). cbn [fst] in *. exists (c, n). split; [reflexivity|]. apply filter_In. split; [exact H|]. cbn [fst]. destruct (String.eqb_spec a c) as [-> | _]; [contradiction | reflexivity].
Qed.
Lemma pop_in a s b n : In (b, n) (pop a s) -> In (b, n) s.
Proof. unfold pop. intros H. apply filter_In in H. exact (proj1 H). Qed.
Lemma pop_app a s s' : pop a (s ++ s') = pop a s ++ pop a s'.
Proof. unfold pop. apply filter_app. Qed.
Lemma pop_absent a s : ~ In a (map fst s) -> pop a s = s.
Proof.
  unfold pop. induction s as [|[b n] s IH]; intros N; [reflexivity|]. cbn [filter fst]. destruct (String.eqb_spec a b) as [-> | E]; [exfalso; apply N; left; reflexivity|].
  cbn [negb]. rewrite IH; [reflexivity|]. intros X. apply N. right. exact X.
Qed.
Lemma set_item_new a n s : ~ In a (map fst s) -> set_item a n s = s ++ [(a, n)].
Proof. intros N. unfold set_item. apply lookup_none in N. rewrite N. reflexivity. Qed.
Lemma pixels_shape s ax ay t xy : NoDup (map fst s) -> ax <> ay -> exposure_shape s (Some (ax, ay)) = Some (t, xy) ->
  exists nx ny, lookup ax s = Some nx /\ lookup ay s = Some ny /\ t = pop ay (pop ax s) ++ [(ax, nx); (ay, ny)] /\ NoDup (map fst t) /\
    (forall p, inside s p <-> inside t p) /\ (forall a, In a (map fst t) <-> In a (map fst s)) /\ (forall a, lookup a t = lookup a s).
Proof.
  intros D N H. cbn in H. destruct (lookup ax s) as [nx|] eqn:LX; [|discriminate]. cbn in H.
  assert (NX : ~ In ax (map fst (pop ax s))) by (intros X; apply pop_keys in X; tauto). rewrite (set_item_new _ _ _ NX) in H.
  destruct (lookup ay (pop ax s ++ [(ax, nx)])) as [ny|] eqn:LY; [|discriminate]. cbn in H.
  assert (NY : ~ In ay (map fst (pop ay (pop ax s ++ [(ax, nx)])))) by (intros X; apply pop_keys in X; tauto). rewrite (set_item_new _ _ _ NY) in H.
  rewrite pop_app in H. assert (PX : pop ay [(ax, nx)] = [(ax, nx)]) by (apply pop_absent; intros [X | []]; exact (N X)). rewrite PX in H.
  rewrite <- app_assoc in H. cbn [app] in H. injection H as <- <-.
  assert (DP : NoDup (map fst (pop ay (pop ax s)))) by (apply pop_dict, pop_dict; exact D).
  set (rest := pop ay (pop ax s)) in *.
  assert (R1 : ~ In ax (map fst rest)) by (unfold rest; intros X; apply pop_keys in X; destruct X as [_ X]; apply pop_keys in X; tauto).
  assert (R2 : ~ In ay (map fst rest)) by (unfold rest; intros X; apply pop_keys in X; tauto).
  assert (DT : NoDup (map fst (rest ++ [(ax, nx); (ay, ny)]))).
  { rewrite map_app. cbn [map fst]. apply NoDup_rev in DP. rewrite <- (rev_involutive (_ ++ _)). apply NoDup_rev. rewrite rev_app_distr. cbn.
    constructor; [intros [X | X]; [exact (N X) | apply in_rev in X; exact (R2 X)]|]. constructor; [intros X; apply in_rev in X; exact (R1 X) | exact DP]. }
  assert (LS : lookup ay s = Some ny).
  { rewrite <- LY. assert (IK : In ay (map fst (pop ax s ++ [(ax, nx)]))) by exact (lookup_key _ _ _ LY).
    rewrite map_app in IK. apply in_app_or in IK. destruct IK as [IK | [IK | []]]; [|cbn in IK; congruence].
    assert (DPX : dict (pop ax s)) by (apply pop_dict; exact D).
    apply in_map_iff in IK. destruct IK as ([c m] & EC & IC). cbn [fst] in EC. subst c.
    assert (L1 := lookup_in ay m s D (pop_in _ _ _ _ IC)). rewrite L1. symmetry.
    assert (D1 : dict (pop ax s ++ [(ax, nx)])).
    { unfold dict. rewrite map_app. cbn [map fst]. apply NoDup_rev in DPX. rewrite <- (rev_involutive (_ ++ _)). apply NoDup_rev. rewrite rev_app_distr. cbn.
      constructor; [intros X; apply in_rev in X; exact (NX X) | exact DPX]. }
    apply lookup_in; [exact D1 | apply in_or_app; left; exact IC]. }
  assert (INL : forall a s n, lookup a s = Some n -> In (a, n) s).
  { intros a l. induction l as [|[b m] l IH]; cbn; intros n; [discriminate|]. destruct (String.eqb_spec a b) as [-> | _]; [intros Y; injection Y as ->; left; reflexivity | intros Y; right; apply IH; exact Y]. }
  exists nx, ny. split; [reflexivity|]. split; [exact LS|]. split; [reflexivity|]. split; [exact DT|].
  assert (BOTH : forall a n, In (a, n) s <-> In (a, n) (rest ++ [(ax, nx); (ay, ny)])).
  { intros a n. split.
    - intros H. apply in_or_app. destruct (String.eqb_spec a ax) as [-> | A1].
      + right. left. assert (Y := lookup_in ax n s D H). rewrite LX in Y. injection Y as ->. reflexivity.
      + destruct (String.eqb_spec a ay) as [-> | A2].
        * right. right. left. assert (Y := lookup_in ay n s D H). rewrite LS in Y. injection Y as ->. reflexivity.
        * left. unfold rest, pop. apply filter_In. split; [apply filter_In; split; [exact H|]|]; cbn [fst]; destruct (String.eqb_spec ax a), (String.eqb_spec ay a); subst; try contradiction; reflexivity.
    - intros H. apply in_app_or in H. destruct H as [H | [H | [H | []]]]; [exact (pop_in _ _ _ _ (pop_in _ _ _ _ H)) | injection H as <- <-; apply INL; exact LX | injection H as <- <-; apply INL; exact LS]. }
  assert (KEYS : forall a, In a (map fst (rest ++ [(ax, nx); (ay, ny)])) <-> In a (map fst s)).
  { intros a. rewrite !in_map_iff. split; intros ([b n] & E & H); exists (b, n); (split; [exact E | apply BOTH; exact H]). }
  split; [intros p; unfold inside; split; intros I a n H; apply I; apply BOTH; exact H|]. split; [exact KEYS|].
  intros a. destruct (lookup a s) as [n|] eqn:L; [apply lookup_in; [exact DT | apply BOTH; apply INL; exact L]|].
  apply lookup_none. rewrite KEYS. apply lookup_none. exact L.
Qed.

(** ** All together *)
Lemma measured_core garbage junk wrap draws rest ax ay nx ny num_n e e' gs :
  let t := rest ++ [(ax, nx); (ay, ny)] in
  NoDup (map fst t) -> ~ In "num_electron" (map fst t) -> broadcast_exposure e t num_n = Some e' -> nx * ny * num_n <> 0 ->
  run_slices wrap (Z.of_nat nx) (Z.of_nat ny)
    (map (fun i => mkSlice (pixel_of garbage junk nx ny num_n e' i) (draws i)) (seq 0 (Nat.div (List.length (na_data (ex_p e'))) (nx * ny * num_n)))) = Some gs ->
  let data := flat_map (fun g : Z -> Z -> Z => flat_map (fun x => map (fun y => g (Z.of_nat x) (Z.of_nat y)) (seq 0 ny)) (seq 0 nx)) gs in
  forall p, inside t p -> exists pixels g,
    (forall x y, x < nx -> y < ny -> own_pixel e num_n (move ay y (move ax x p)) (pixels (Z.of_nat x) (Z.of_nat y))) /\
    run_slice wrap (Z.of_nat nx) (Z.of_nat ny) (mkSlice pixels (draws (number rest p))) = Some g /\
    nth_error data ((number rest p * nx + p ax) * ny + p ay) = Some (g (Z.of_nat (p ax)) (Z.of_nat (p ay))).
Proof.
  intros t D NE B NZ RS data p I.
  unfold broadcast_exposure in B.
  repeat match type of B with obind ?o _ = Some _ => let E := fresh "E" in destruct o eqn:E; cbn [obind] in B; [|discriminate] end.
  injection B as <-. cbn [ex_p] in RS.
  assert (LN : Nat.div (List.length (na_data n8)) (nx * ny * num_n) = size rest).
  { rewrite (broadcast_len _ _ _ E8). unfold shape_n, t. assert (SZ : forall a b, size (a ++ b) = size a * size b).
    { unfold size. induction a as [|[c m] a IH]; intros b; cbn [app fold_right snd]; [lia|]. rewrite IH. lia. }
    rewrite !SZ. cbn [size fold_right snd]. rewrite !Nat.mul_1_r. replace (size rest * (nx * ny) * num_n) with (size rest * (nx * ny * num_n)) by lia. apply Nat.div_mul. exact NZ. }
  rewrite LN in RS.
  assert (IR : inside rest p) by (intros a m H; apply I; unfold t; apply in_or_app; left; exact H).
  assert (LT := number_lt rest p IR).
  assert (PX : p ax < nx) by (apply I; unfold t; apply in_or_app; right; left; reflexivity).
  assert (PY : p ay < ny) by (apply I; unfold t; apply in_or_app; right; right; left; reflexivity).
  set (e' := mkExposure _ _ _ _ _ _ _ _ _ _ _ _ _) in RS.
  assert (NS : nth_error (map (fun i => mkSlice (pixel_of garbage junk nx ny num_n e' i) (draws i)) (seq 0 (size rest))) (number rest p)
    = Some (mkSlice (pixel_of garbage junk nx ny num_n e' (number rest p)) (draws (number rest p)))) by (rewrite nth_error_map, seq_nth_error by exact LT; reflexivity).
  destruct (run_slices_nth _ _ _ _ _ _ _ RS NS) as (g & G & NG).
  exists (pixel_of garbage junk nx ny num_n e' (number rest p)), g. split; [|split; [exact G|]].
  - intros x y X Y. unfold own_pixel, pixel_of. cbn [px_photons px_energy px_absorption px_implant px_depletion px_substrate px_width_x px_width_y px_eta0 px_p px_n px_energy_pair_inf px_fano_inf].
    rewrite !Nat2Z.id. unfold e'. cbn [ex_photons ex_energy ex_absorption ex_implant ex_depletion ex_substrate ex_width_x ex_width_y ex_eta0 ex_p ex_n ex_pair_inf ex_fano_inf].
    repeat (split; [first [apply (cell_own rest ax ay nx ny D garbage); assumption | unfold row; rewrite map_length, seq_length; reflexivity]|]).
    intros k K. split; apply (row_own rest ax ay nx ny D); assumption.
  - unfold data. replace ((number rest p * nx + p ax) * ny + p ay) with (number rest p * (nx * ny) + (p ax * ny + p ay)) by lia.
    rewrite (flat_map_nth _ (nx * ny) gs) with (x := g).
    + rewrite (flat_map_nth _ ny (seq 0 nx)) with (x := p ax).
      * rewrite nth_error_map, seq_nth_error by exact PY. reflexivity.
      * intros. rewrite map_length, seq_length. reflexivity.
      * rewrite seq_nth_error by exact PX. reflexivity.
      * exact PY.
    + intros g' _. rewrite (flat_map_len _ ny); [rewrite seq_length; reflexivity|]. intros. rewrite map_length, seq_length. reflexivity.
    + exact NG.
    + nia.
Qed.

Lemma run_slices_len wrap nx ny ss : forall gs, run_slices wrap nx ny ss = Some gs -> List.length gs = List.length ss.
Proof.
  induction ss as [|s ss IH]; intros gs H; cbn in H; [injection H as <-; reflexivity|]. destruct (run_slice wrap nx ny s) as [g|]; [|discriminate]. cbn in H.
  destruct (run_slices wrap nx ny ss) as [r|] eqn:R; [|discriminate]. cbn in H. injection H as <-. cbn. f_equal. apply IH. reflexivity.
Qed.
Lemma size_app a b : size (a ++ b) = size a * size b.
Proof. unfold size. induction a as [|[c m] a IH]; cbn [app fold_right snd]; [lia|]. rewrite IH. lia. Qed.
Lemma measured_len wrap f rest ax ay nx ny num_n e e' gs :
  let t := rest ++ [(ax, nx); (ay, ny)] in
  broadcast_exposure e t num_n = Some e' -> nx * ny * num_n <> 0 ->
  run_slices wrap (Z.of_nat nx) (Z.of_nat ny) (map f (seq 0 (Nat.div (List.length (na_data (ex_p e'))) (nx * ny * num_n)))) = Some gs ->
  List.length (flat_map (fun g : Z -> Z -> Z => flat_map (fun x => map (fun y => g (Z.of_nat x) (Z.of_nat y)) (seq 0 ny)) (seq 0 nx)) gs) = size t.
Proof.
  intros t B NZ RS. rewrite (flat_map_len _ (nx * ny)).
  - rewrite (run_slices_len _ _ _ _ _ RS), map_length, seq_length. unfold broadcast_exposure in B.
    repeat match type of B with obind ?o _ = Some _ => let E := fresh "E" in destruct o eqn:E; cbn [obind] in B; [|discriminate] end.
    injection B as <-. cbn [ex_p]. rewrite (broadcast_len _ _ _ E8). unfold shape_n, t. rewrite !size_app. cbn [size fold_right snd]. rewrite !Nat.mul_1_r.
    replace (size rest * (nx * ny) * num_n) with (size rest * (nx * ny * num_n)) by lia. rewrite Nat.div_mul by exact NZ. reflexivity.
  - intros g _. rewrite (flat_map_len _ ny); [rewrite seq_length; reflexivity|]. intros. rewrite map_length, seq_length. reflexivity.
Qed.

Lemma last_two rest a b nx ny : last_sizes (rest ++ [(a, nx); (b, ny)]) = Some (nx, ny).
Proof. unfold last_sizes. rewrite rev_app_distr. reflexivity. Qed.

Lemma pixels_own garbage junk wrap draws ax ay s num_n e result : NoDup (map fst s) -> ax <> ay -> ~ In "num_electron" (map fst s) ->
  measured_array garbage junk wrap draws (Some (ax, ay)) s num_n e = Some result ->
  (forall a, lookup a (na_shape result) = lookup a s) /\ List.length (na_data result) = elements (na_shape result) /\
  exists nx ny slice, lookup ax s = Some nx /\ lookup ay s = Some ny /\
    (forall p q, inside s p -> inside s q -> slice p = slice q <-> forall a, In a (map fst s) -> a <> ax -> a <> ay -> p a = q a) /\
    forall p, inside s p -> exists pixels g,
      (forall x y, x < nx -> y < ny -> own_pixel e num_n (move ay y (move ax x p)) (pixels (Z.of_nat x) (Z.of_nat y))) /\
      run_slice wrap (Z.of_nat nx) (Z.of_nat ny) (mkSlice pixels (draws (slice p))) = Some g /\
      element result p = Some (g (Z.of_nat (p ax)) (Z.of_nat (p ay))).
Proof.
  intros D N NE H. unfold measured_array in H. destruct (exposure_shape s (Some (ax, ay))) as [[t xy]|] eqn:ES; [|discriminate].
  destruct (pixels_shape s ax ay t xy D N ES) as (nx & ny & LX & LY & T & DT & IS & KS & LKS). cbn [obind] in H.
  destruct (broadcast_exposure e t num_n) as [e'|] eqn:B; [|discriminate]. cbn [obind] in H.
  rewrite T in H at 1. rewrite last_two in H. cbn [obind] in H.
  destruct (Nat.eqb_spec (nx * ny * num_n) 0) as [Z | NZ]; [discriminate|].
  destruct (run_slices _ _ _ _) as [gs|] eqn:RS; [|discriminate]. cbn [obind] in H. injection H as <-.
  set (rest := pop ay (pop ax s)) in *. split; [exact LKS|].
  split; [cbn [na_data na_shape]; rewrite T in B; rewrite T; exact (measured_len _ _ rest ax ay nx ny num_n e e' gs B NZ RS)|].
  exists nx, ny, (number rest). split; [exact LX|]. split; [exact LY|].
  assert (IR : forall p, inside s p -> inside rest p) by (intros p I a n A; apply I; exact (pop_in _ _ _ _ (pop_in _ _ _ _ A))).
  split.
  - intros p q P Q. rewrite (number_injective rest p q (IR p P) (IR q Q)). split.
    + intros E a A N1 N2. apply E. unfold rest. apply pop_keys. split; [exact N2|]. apply pop_keys. auto.
    + intros E a A. unfold rest in A. apply pop_keys in A. destruct A as [N2 A]. apply pop_keys in A. destruct A as [N1 A]. exact (E a A N1 N2).
  - intros p P. rewrite T in B, DT. assert (NT : ~ In "num_electron" (map fst (rest ++ [(ax, nx); (ay, ny)]))) by (rewrite <- T, KS; exact NE).
    assert (PT : inside (rest ++ [(ax, nx); (ay, ny)]) p) by (rewrite <- T; apply IS; exact P).
    destruct (measured_core garbage junk wrap draws rest ax ay nx ny num_n e e' gs DT NT B NZ RS p PT) as (pixels & g & OWN & G & NTH).
    exists pixels, g. split; [exact OWN|]. split; [exact G|]. unfold element. cbn [na_data na_shape]. rewrite T.
    replace (number (rest ++ [(ax, nx); (ay, ny)]) p) with ((number rest p * nx + p ax) * ny + p ay); [exact NTH|].
    assert (PX : p ax < nx) by (apply PT; apply in_or_app; right; left; reflexivity).
    assert (PY : p ay < ny) by (apply PT; apply in_or_app; right; right; left; reflexivity).
    unfold number at 2. rewrite number_app. cbn [number_from]. rewrite !stretched by assumption. reflexivity.
Qed.

Lemma single_own garbage junk wrap draws s num_n e result : NoDup (map fst s) -> ~ In "num_electron" (map fst s) ->
  ~ In "__dummy_x__" (map fst s) -> ~ In "__dummy_y__" (map fst s) ->
  measured_array garbage junk wrap draws None s num_n e = Some result ->
  na_shape result = s /\ List.length (na_data result) = elements s /\
  exists slice, (forall p q, inside s p -> inside s q -> slice p = slice q <-> forall a, In a (map fst s) -> p a = q a) /\
    forall p, inside s p -> exists px c, own_pixel e num_n (move "__dummy_y__" 0 (move "__dummy_x__" 0 p)) px /\
      measured_single wrap px (draws (slice p) 0%Z 0%Z) = Some c /\ element result p = Some c.
Proof.
  intros D NE NX NY H. unfold measured_array, exposure_shape in H.
  rewrite (set_item_new "__dummy_x__" 1 s NX) in H.
  rewrite set_item_new in H by (rewrite map_app; intros X; apply in_app_or in X; destruct X as [X | [X | []]]; [exact (NY X) | discriminate]).
  rewrite <- app_assoc in H. cbn [app obind] in H. set (t := s ++ [("__dummy_x__", 1); ("__dummy_y__", 1)]) in H.
  assert (DT : NoDup (map fst t)).
  { unfold t. rewrite map_app. cbn [map fst]. rewrite <- (rev_involutive (_ ++ _)). apply NoDup_rev. rewrite rev_app_distr. cbn.
    constructor; [intros [X | X]; [discriminate | apply in_rev in X; exact (NY X)]|]. constructor; [intros X; apply in_rev in X; exact (NX X) | apply NoDup_rev; exact D]. }
  assert (NT : ~ In "num_electron" (map fst t)).
  { unfold t. rewrite map_app. intros X. apply in_app_or in X. destruct X as [X | [X | [X | []]]]; [exact (NE X) | discriminate | discriminate]. }
  destruct (broadcast_exposure e t num_n) as [e'|] eqn:B; [|discriminate]. cbn [obind] in H.
  unfold t in H at 1. rewrite last_two in H. cbn [obind] in H.
  destruct (Nat.eqb_spec (1 * 1 * num_n) 0) as [Z | NZ]; [discriminate|].
  destruct (run_slices _ _ _ _) as [gs|] eqn:RS; [|discriminate]. cbn [obind] in H.
  assert (PS : pop "__dummy_y__" (pop "__dummy_x__" t) = s).
  { unfold t. rewrite !pop_app. rewrite (pop_absent _ s NX), (pop_absent _ s NY). cbn. apply app_nil_r. }
  rewrite PS in H. injection H as <-. split; [reflexivity|].
  split; [transitivity (size t); [exact (measured_len _ _ s "__dummy_x__" "__dummy_y__" 1 1 num_n e e' gs B NZ RS) | unfold t; rewrite size_app; unfold elements, size; cbn; lia]|].
  exists (number s). split; [intros p q P Q; apply number_injective; assumption|].
  intros p P. set (p' := move "__dummy_y__" 0 (move "__dummy_x__" 0 p)).
  assert (SAME : forall a, In a (map fst s) -> p' a = p a).
  { intros a A. unfold p', move. destruct (String.eqb_spec a "__dummy_y__") as [-> | _]; [contradiction|]. destruct (String.eqb_spec a "__dummy_x__") as [-> | _]; [contradiction | reflexivity]. }
  assert (PT : inside t p').
  { intros a n A. unfold t in A. apply in_app_or in A. destruct A as [A | [A | [A | []]]].
    - rewrite SAME by (apply in_map_iff; exists (a, n); auto). exact (P a n A).
    - injection A as <- <-. unfold p', move. cbn. lia.
    - injection A as <- <-. unfold p', move. cbn. lia. }
  destruct (measured_core garbage junk wrap draws s "__dummy_x__" "__dummy_y__" 1 1 num_n e e' gs DT NT B NZ RS p' PT) as (pixels & g & OWN & G & NTH).
  assert (NS : number s p' = number s p) by (unfold number; apply number_ext; exact SAME). rewrite NS in *.
  exists (pixels 0%Z 0%Z), (g 0%Z 0%Z). split; [|split].
  - assert (O := OWN 0 0 Nat.lt_0_1 Nat.lt_0_1). unfold own_pixel in *. 
    assert (EX : forall A (a : narray A) k, element a (move "__dummy_y__" 0 (move "__dummy_x__" 0 p')) = element a p' /\
      element a (move "num_electron" k (move "__dummy_y__" 0 (move "__dummy_x__" 0 p'))) = element a (move "num_electron" k p')).
    { intros A a k. split; unfold element, number; f_equal; apply number_ext; intros b _; unfold p', move; destruct (String.eqb b "num_electron"), (String.eqb b "__dummy_y__"), (String.eqb b "__dummy_x__"); reflexivity. }
    do 13 (destruct O as [O1 O]; split; [try (rewrite (proj1 (EX _ _ 0)) in O1); exact O1 | clear O1]).
    intros k K. destruct (O k K) as [Q1 Q2]. rewrite (proj2 (EX _ _ k)) in Q1. rewrite (proj2 (EX _ _ k)) in Q2. split; assumption.
  - unfold measured_single. change (Z.of_nat 1) with 1%Z in G.
    assert (X : run_slice wrap 1 1 (mkSlice (fun _ _ => pixels 0%Z 0%Z) (fun _ _ j => draws (number s p) 0%Z 0%Z j)) = Some g) by (rewrite <- G; reflexivity).
    rewrite X. reflexivity.
  - unfold element. cbn [na_data na_shape]. change (Some (g 0%Z 0%Z)) with (Some (g (Z.of_nat (p' "__dummy_x__")) (Z.of_nat (p' "__dummy_y__")))). rewrite <- NTH. f_equal. unfold p', move. cbn. lia.
Qed.

(** ** Arguments that fit are accepted *)
Lemma number_fits sa t p : (forall b n, In (b, n) sa -> exists m, In (b, m) t /\ (n = m \/ n = 1)) -> inside t p -> number sa p < size sa.
Proof.
  intros F I. induction sa as [|[a n] sa IH]; [cbn; lia|]. assert (H := IH (fun b m X => F b m (or_intror X))).
  unfold number. cbn [number_from]. rewrite number_acc. cbn [size fold_right snd]. fold (size sa).
  destruct (F a n (or_introl eq_refl)) as (m & M & [E | E]).
  - subst m. assert (L := I a n M). rewrite stretched by exact L. nia.
  - subst n. cbn [Nat.eqb]. lia.
Qed.
Lemma places_inside s : NoDup (map fst s) -> forall p, In p (places s) -> inside s p.
Proof.
  induction s as [|[a n] s IH]; intros D p P b m H; [destruct H|]. cbn [map fst] in D. inversion D as [|x y NI D']; subst.
  cbn [places] in P. apply in_flat_map in P. destruct P as (i & I & P). apply in_map_iff in P. destruct P as (q & <- & Q). apply in_seq in I.
  unfold move. destruct H as [H | H].
  - injection H as <- <-. rewrite String.eqb_refl. lia.
  - destruct (String.eqb_spec b a) as [-> | _]; [exfalso; apply NI; apply in_map_iff; exists (a, m); auto|]. exact (IH D' q Q b m H).
Qed.
Lemma osequence_some {A} (l : list (option A)) : (forall o, In o l -> o <> None) -> exists d, osequence l = Some d.
Proof.
  induction l as [|o l IH]; intros H; [exists []; reflexivity|]. destruct (IH (fun x X => H x (or_intror X))) as [d E].
  destruct o as [v|]; [|exfalso; exact (H None (or_introl eq_refl) eq_refl)]. exists (v :: d). cbn. rewrite E. reflexivity.
Qed.
Lemma broadcast_fits {A} (a : narray A) t : NoDup (map fst t) -> fits t a -> exists b, broadcast_to a t = Some b.
Proof.
  intros D [L F]. unfold broadcast_to.
  assert (S : stretches (na_shape a) t = true).
  { unfold stretches. apply forallb_forall. intros [b n] H. cbn [fst snd]. destruct (F b n H) as (m & M & E). rewrite (lookup_in b m t D M).
    apply orb_true_iff. rewrite !Nat.eqb_eq. exact E. }
  rewrite S. destruct (osequence_some (map (element a) (places t))) as [d E].
  { intros o O. apply in_map_iff in O. destruct O as (p & <- & P). unfold element. apply nth_error_Some. rewrite L. exact (number_fits _ t p F (places_inside t D p P)). }
  rewrite E. exists (mkNarray t d). reflexivity.
Qed.
Lemma fits_same {A} (s t : shape) (a : narray A) : (forall b m, In (b, m) s -> In (b, m) t) -> fits s a -> fits t a.
Proof. intros I [L F]. split; [exact L|]. intros b n H. destruct (F b n H) as (m & M & E). exists m. split; [exact (I b m M) | exact E]. Qed.
Lemma shape_n_keys t n : NoDup (map fst t) -> ~ In "num_electron" (map fst t) -> NoDup (map fst (shape_n t n)).
Proof.
  intros D NE. unfold shape_n. rewrite map_app. cbn [map fst]. rewrite <- (rev_involutive (map fst t ++ ["num_electron"])). apply NoDup_rev. rewrite rev_app_distr. cbn.
  constructor; [rewrite <- in_rev; exact NE | apply NoDup_rev; exact D].
Qed.
Lemma arguments_accepted s t n e : (forall b m, In (b, m) s -> In (b, m) t) -> NoDup (map fst t) -> ~ In "num_electron" (map fst t) ->
  arguments_fit s n e -> exists e', broadcast_exposure e t n = Some e'.
Proof.
  intros I D NE (F1 & F2 & F3 & F4 & F5 & F6 & F7 & F8 & F9 & F10 & F11 & F12 & F13).
  assert (J : forall b m, In (b, m) (("num_electron", n) :: s) -> In (b, m) (shape_n t n)).
  { intros b m [H | H]; apply in_or_app; [right; left; exact H | left; exact (I b m H)]. }
  assert (DN := shape_n_keys t n D NE). unfold broadcast_exposure.
  destruct (broadcast_fits _ t D (fits_same s t _ I F1)) as [b1 ->]. destruct (broadcast_fits _ t D (fits_same s t _ I F2)) as [b2 ->].
  destruct (broadcast_fits _ t D (fits_same s t _ I F3)) as [b3 ->]. destruct (broadcast_fits _ t D (fits_same s t _ I F4)) as [b4 ->].
  destruct (broadcast_fits _ t D (fits_same s t _ I F5)) as [b5 ->]. destruct (broadcast_fits _ t D (fits_same s t _ I F6)) as [b6 ->].
  destruct (broadcast_fits _ t D (fits_same s t _ I F7)) as [b7 ->]. destruct (broadcast_fits _ t D (fits_same s t _ I F8)) as [b8 ->].
  destruct (broadcast_fits _ t D (fits_same s t _ I F9)) as [b9 ->]. destruct (broadcast_fits _ _ DN (fits_same _ _ _ J F10)) as [b10 ->].
  destruct (broadcast_fits _ _ DN (fits_same _ _ _ J F11)) as [b11 ->]. destruct (broadcast_fits _ t D (fits_same s t _ I F12)) as [b12 ->].
  destruct (broadcast_fits _ t D (fits_same s t _ I F13)) as [b13 ->]. cbn [obind]. eexists. reflexivity.
Qed.

Lemma number_onto s : NoDup (map fst s) -> forall i, i < size s -> exists p, inside s p /\ number s p = i.
Proof.
  induction s as [|[a n] s IH]; intros D i L; [exists (fun _ => O); split; [intros b m [] | cbn in *; lia]|].
  cbn [map fst] in D. inversion D as [|x y NI D']; subst. cbn [size fold_right snd] in L. fold (size s) in L.
  assert (NZ : size s <> 0) by (intros Z; rewrite Z in L; lia).
  destruct (IH D' (i mod size s) (Nat.mod_upper_bound _ _ NZ)) as (q & IQ & NQ).
  assert (A : i / size s < n) by (apply Nat.div_lt_upper_bound; [exact NZ | lia]).
  exists (move a (i / size s) q). split.
  - intros b m H. unfold move. destruct H as [H | H]; [injection H as <- <-; rewrite String.eqb_refl; exact A|].
    destruct (String.eqb_spec b a) as [-> | _]; [exfalso; apply NI; apply in_map_iff; exists (a, m); auto | exact (IQ b m H)].
  - assert (MA : move a (i / size s) q a = i / size s) by (unfold move; rewrite String.eqb_refl; reflexivity).
    rewrite number_cons by (rewrite MA; exact A). rewrite MA.
    replace (number s (move a (i / size s) q)) with (number s q).
    + rewrite NQ. assert (X := Nat.div_mod i _ NZ). lia.
    + unfold number. apply number_ext. intros b B. unfold move. destruct (String.eqb_spec b a) as [-> | _]; [contradiction | reflexivity].
Qed.
Lemma run_slices_none wrap nx ny ss : run_slices wrap nx ny ss = None -> exists i s, nth_error ss i = Some s /\ run_slice wrap nx ny s = None.
Proof.
  induction ss as [|s ss IH]; cbn; [discriminate|]. destruct (run_slice wrap nx ny s) as [g|] eqn:G; [|intros _; exists 0, s; auto]. cbn [obind].
  destruct (run_slices wrap nx ny ss) as [r|]; [discriminate|]. intros _. destruct (IH eq_refl) as (i & s' & N & R). exists (S i), s'. auto.
Qed.
Lemma core_count e t' num_n e' rest ax ay nx ny : t' = rest ++ [(ax, nx); (ay, ny)] -> broadcast_exposure e t' num_n = Some e' -> nx * ny * num_n <> 0 ->
  Nat.div (List.length (na_data (ex_p e'))) (nx * ny * num_n) = size rest.
Proof.
  intros -> B NZ. unfold broadcast_exposure in B.
  repeat match type of B with obind ?o _ = Some _ => let E := fresh "E" in destruct o eqn:E; cbn [obind] in B; [|discriminate] end.
  injection B as <-. cbn [ex_p]. rewrite (broadcast_len _ _ _ E8). unfold shape_n. rewrite !size_app. cbn [size fold_right snd]. rewrite !Nat.mul_1_r.
  replace (size rest * (nx * ny) * num_n) with (size rest * (nx * ny * num_n)) by lia. apply Nat.div_mul. exact NZ.
Qed.
Lemma core_pixels garbage junk rest ax ay nx ny num_n e e' p x y : let t := rest ++ [(ax, nx); (ay, ny)] in
  NoDup (map fst t) -> ~ In "num_electron" (map fst t) -> broadcast_exposure e t num_n = Some e' -> inside t p -> x < nx -> y < ny ->
  own_pixel e num_n (move ay y (move ax x p)) (pixel_of garbage junk nx ny num_n e' (number rest p) (Z.of_nat x) (Z.of_nat y)).
Proof.
  intros t D NE B I X Y. unfold broadcast_exposure in B.
  repeat match type of B with obind ?o _ = Some _ => let E := fresh "E" in destruct o eqn:E; cbn [obind] in B; [|discriminate] end.
  injection B as <-. unfold own_pixel, pixel_of. cbn [px_photons px_energy px_absorption px_implant px_depletion px_substrate px_width_x px_width_y px_eta0 px_p px_n px_energy_pair_inf px_fano_inf].
  rewrite !Nat2Z.id. cbn [ex_photons ex_energy ex_absorption ex_implant ex_depletion ex_substrate ex_width_x ex_width_y ex_eta0 ex_p ex_n ex_pair_inf ex_fano_inf].
  repeat (split; [first [apply (cell_own rest ax ay nx ny D garbage); assumption | unfold row; rewrite map_length, seq_length; reflexivity]|]).
  intros k K. split; apply (row_own rest ax ay nx ny D); assumption.
Qed.
Lemma lookup_pair a s n : lookup a s = Some n -> In (a, n) s.
Proof.
  induction s as [|[b m] s IH]; cbn; [discriminate|]. destruct (String.eqb_spec a b) as [-> | _]; [intros H; injection H as ->; left; reflexivity | intros H; right; exact (IH H)].
Qed.
Lemma core_none garbage junk wrap (draws : nat -> Z -> Z -> nat -> photon_draws) rest ax ay nx ny num_n e e' : let t := rest ++ [(ax, nx); (ay, ny)] in
  NoDup (map fst t) -> ~ In "num_electron" (map fst t) -> broadcast_exposure e t num_n = Some e' -> nx * ny * num_n <> 0 ->
  run_slices wrap (Z.of_nat nx) (Z.of_nat ny)
    (map (fun i => mkSlice (pixel_of garbage junk nx ny num_n e' i) (draws i)) (seq 0 (Nat.div (List.length (na_data (ex_p e'))) (nx * ny * num_n)))) = None ->
  exists p i pixels, inside t p /\
    (forall x y, x < nx -> y < ny -> own_pixel e num_n (move ay y (move ax x p)) (pixels (Z.of_nat x) (Z.of_nat y))) /\
    run_slice wrap (Z.of_nat nx) (Z.of_nat ny) (mkSlice pixels (draws i)) = None.
Proof.
  intros t D NE B NZ RS. rewrite (core_count _ _ _ _ rest ax ay nx ny eq_refl B NZ) in RS.
  destruct (run_slices_none _ _ _ _ RS) as (i & s & N & R). rewrite nth_error_map in N.
  assert (L : i < size rest).
  { destruct (Nat.lt_ge_cases i (size rest)) as [L | L]; [exact L|]. rewrite (proj2 (nth_error_None _ _)) in N by (rewrite seq_length; exact L). discriminate. }
  rewrite seq_nth_error in N by exact L. cbn in N. injection N as <-.
  destruct (pixel_axes rest ax ay nx ny D) as (AX & N1 & N2 & DR). destruct (number_onto rest DR i L) as (q & IQ & NQ).
  assert (E : forall a, In a (map fst rest) -> move ay 0 (move ax 0 q) a = q a).
  { intros a A. unfold move. destruct (String.eqb_spec a ay) as [-> | _]; [contradiction|]. destruct (String.eqb_spec a ax) as [-> | _]; [contradiction | reflexivity]. }
  exists (move ay 0 (move ax 0 q)), i, (pixel_of garbage junk nx ny num_n e' i).
  assert (IT : inside t (move ay 0 (move ax 0 q))).
  { intros a m H. unfold t in H. apply in_app_or in H. destruct H as [H | [H | [H | []]]].
    - rewrite E by (apply in_map_iff; exists (a, m); auto). exact (IQ a m H).
    - injection H as <- <-. unfold move. destruct (String.eqb_spec ax ay) as [X | _]; [contradiction|]. rewrite String.eqb_refl. nia.
    - injection H as <- <-. unfold move. rewrite String.eqb_refl. nia. }
  split; [exact IT|]. split; [|exact R].
  intros x y X Y. assert (NI : number rest (move ay 0 (move ax 0 q)) = i) by (rewrite <- NQ; unfold number; apply number_ext; exact E).
  assert (P := core_pixels garbage junk rest ax ay nx ny num_n e e' _ x y D NE B IT X Y). rewrite NI in P. exact P.
Qed.
Lemma grid_fails garbage junk wrap draws ax ay s nx ny num_n e : NoDup (map fst s) -> ax <> ay -> ~ In "num_electron" (map fst s) ->
  lookup ax s = Some nx -> lookup ay s = Some ny -> 0 < nx -> 0 < ny -> 0 < num_n -> arguments_fit s num_n e ->
  measured_array garbage junk wrap draws (Some (ax, ay)) s num_n e = None ->
  exists p i pixels, inside s p /\
    (forall x y, x < nx -> y < ny -> own_pixel e num_n (move ay y (move ax x p)) (pixels (Z.of_nat x) (Z.of_nat y))) /\
    run_slice wrap (Z.of_nat nx) (Z.of_nat ny) (mkSlice pixels (draws i)) = None.
Proof.
  intros D N NE LX LY PX PY PN F H. unfold measured_array in H.
  assert (exists t xy, exposure_shape s (Some (ax, ay)) = Some (t, xy)) as (t & xy & ES).
  { cbn. rewrite LX. cbn [obind].
    assert (NX : ~ In ax (map fst (pop ax s))) by (intros X; apply pop_keys in X; tauto). rewrite (set_item_new _ _ _ NX).
    destruct (lookup ay (pop ax s ++ [(ax, nx)])) as [m|] eqn:L; [cbn [obind]; eexists; eexists; reflexivity|].
    exfalso. apply lookup_none in L. apply L. rewrite map_app. apply in_or_app. left. apply pop_keys. split; [congruence | exact (lookup_key _ _ _ LY)]. }
  destruct (pixels_shape s ax ay t xy D N ES) as (nx' & ny' & LX' & LY' & T & DT & IS & KS & LKS).
  rewrite LX in LX'. injection LX' as <-. rewrite LY in LY'. injection LY' as <-. rewrite ES in H. cbn [obind] in H.
  assert (NT : ~ In "num_electron" (map fst t)) by (rewrite KS; exact NE).
  assert (IT : forall b m, In (b, m) s -> In (b, m) t) by (intros b m X; apply lookup_pair; rewrite LKS; apply lookup_in; [exact D | exact X]).
  destruct (arguments_accepted s t num_n e IT DT NT F) as [e' B]. rewrite B in H. cbn [obind] in H.
  rewrite T in H at 1. rewrite last_two in H. cbn [obind] in H.
  destruct (Nat.eqb_spec (nx * ny * num_n) 0) as [Z | NZ]; [exfalso; nia|].
  destruct (run_slices _ _ _ _) as [gs|] eqn:RS; [discriminate|]. rewrite T in DT, NT, B.
  destruct (core_none garbage junk wrap draws _ ax ay nx ny num_n e e' DT NT B NZ RS) as (p & i & pixels & P & O & R).
  exists p, i, pixels. split; [apply IS; rewrite T; exact P|]. split; [exact O | exact R].
Qed.
Lemma grid_accepted garbage junk wrap draws ax ay s nx ny num_n e : NoDup (map fst s) -> ax <> ay -> ~ In "num_electron" (map fst s) ->
  lookup ax s = Some nx -> lookup ay s = Some ny -> 0 < nx -> 0 < ny -> 0 < num_n -> arguments_fit s num_n e ->
  (exists result, measured_array garbage junk wrap draws (Some (ax, ay)) s num_n e = Some result) \/
  exists p i pixels, inside s p /\
    (forall x y, x < nx -> y < ny -> own_pixel e num_n (move ay y (move ax x p)) (pixels (Z.of_nat x) (Z.of_nat y))) /\
    run_slice wrap (Z.of_nat nx) (Z.of_nat ny) (mkSlice pixels (draws i)) = None.
Proof.
  intros D N NE LX LY PX PY PN F. destruct (measured_array garbage junk wrap draws (Some (ax, ay)) s num_n e) as [r|] eqn:M; [left; exists r; reflexivity|].
  right. exact (grid_fails garbage junk wrap draws ax ay s nx ny num_n e D N NE LX LY PX PY PN F M).
Qed.
Lemma single_accepted garbage junk wrap draws s num_n e : NoDup (map fst s) -> ~ In "num_electron" (map fst s) ->
  ~ In "__dummy_x__" (map fst s) -> ~ In "__dummy_y__" (map fst s) -> 0 < num_n -> arguments_fit s num_n e ->
  (exists result, measured_array garbage junk wrap draws None s num_n e = Some result) \/
  exists p i px, inside s p /\ own_pixel e num_n (move "__dummy_y__" 0 (move "__dummy_x__" 0 p)) px /\ measured_single wrap px (draws i 0%Z 0%Z) = None.
Proof.
  intros D NE NX NY PN F. destruct (measured_array garbage junk wrap draws None s num_n e) as [r|] eqn:H; [left; exists r; reflexivity|]. right.
  unfold measured_array, exposure_shape in H. rewrite (set_item_new "__dummy_x__" 1 s NX) in H.
  rewrite set_item_new in H by (rewrite map_app; intros X; apply in_app_or in X; destruct X as [X | [X | []]]; [exact (NY X) | discriminate]).
  rewrite <- app_assoc in H. cbn [app obind] in H. set (t := s ++ [("__dummy_x__", 1); ("__dummy_y__", 1)]) in H.
  assert (DT : NoDup (map fst t)).
  { unfold t. rewrite map_app. cbn [map fst]. rewrite <- (rev_involutive (_ ++ _)). apply NoDup_rev. rewrite rev_app_distr. cbn.
    constructor; [intros [X | X]; [discriminate | apply in_rev in X; exact (NY X)]|]. constructor; [intros X; apply in_rev in X; exact (NX X) | apply NoDup_rev; exact D]. }
  assert (NT : ~ In "num_electron" (map fst t)).
  { unfold t. rewrite map_app. intros X. apply in_app_or in X. destruct X as [X | [X | [X | []]]]; [exact (NE X) | discriminate | discriminate]. }
  destruct (arguments_accepted s t num_n e (fun b m X => in_or_app _ _ _ (or_introl X)) DT NT F) as [e' B]. rewrite B in H. cbn [obind] in H.
  unfold t in H at 1. rewrite last_two in H. cbn [obind] in H.
  destruct (Nat.eqb_spec (1 * 1 * num_n) 0) as [Z | NZ]; [exfalso; lia|].
  destruct (run_slices _ _ _ _) as [gs|] eqn:RS; [discriminate|].
  destruct (core_none garbage junk wrap draws s "__dummy_x__" "__dummy_y__" 1 1 num_n e e' DT NT B NZ RS) as (p & i & pixels & P & O & R).
  exists p, i, (pixels 0%Z 0%Z). split; [intros a n A; apply P; apply in_or_app; left; exact A|]. split; [exact (O 0 0 Nat.lt_0_1 Nat.lt_0_1)|].
  unfold measured_single. change (Z.of_nat 1) with 1%Z in R.
  assert (X : run_slice wrap 1 1 (mkSlice (fun _ _ => pixels 0%Z 0%Z) (fun _ _ j => draws i 0%Z 0%Z j)) = None) by (rewrite <- R; reflexivity).
  rewrite X. reflexivity.
Qed.
