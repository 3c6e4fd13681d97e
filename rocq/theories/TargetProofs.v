From Coq Require Import Reals Lra Lia String List.
From Verif Require Import Num NumLemmas TargetModel TargetSpec.
Import ListNotations.
Open Scope R_scope.

(** ** Values *)

Lemma fold_max l : forall x, let m := fold_left Rmax l x in (m = x \/ In m l) /\ x <= m /\ forall y, In y l -> y <= m.
Proof.
  induction l as [| a l IH]; intros x; cbn.
  - split; [left; reflexivity |]. split; [lra | intros ? []].
  - destruct (IH (Rmax x a)) as (A & B & C). pose proof (Rmax_l x a). pose proof (Rmax_r x a). split; [| split; [lra |]].
    + destruct A as [A | A]; [| right; right; exact A]. rewrite A. unfold Rmax. destruct (Rle_dec x a); [right; left; reflexivity | left; reflexivity].
    + intros y [<- | I]; [lra | exact (C y I)].
Qed.

Lemma list_max_spec l m : list_max l = Some m <-> In m l /\ forall y, In y l -> y <= m.
Proof.
  destruct l as [| x l]; cbn.
  - split; [discriminate | intros [[] _]].
  - destruct (fold_max l x) as (A & B & C). split.
    + intros E. injection E as <-. split; [destruct A as [A | A]; [left; symmetry; exact A | right; exact A] |].
      intros y [<- | I]; [exact B | exact (C y I)].
    + intros [I U]. f_equal. apply Rle_antisym; [| destruct I as [<- | I]; [exact B | exact (C _ I)]].
      destruct A as [-> | A]; [apply U; left; reflexivity | apply U; right; exact A].
Qed.

Lemma pixel_map {A B} (f : A -> B) img x y : pixel (map (map f) img) x y = option_map f (pixel img x y).
Proof. unfold pixel. rewrite nth_error_map. destruct (nth_error img y) as [row |]; [cbn; apply nth_error_map | reflexivity]. Qed.

Lemma pixel_in {A} (img : list (list A)) v : In v (concat img) <-> exists x y, pixel img x y = Some v.
Proof.
  rewrite in_concat. split.
  - intros (row & I & J). apply In_nth_error in I. apply In_nth_error in J. destruct I as (y & Y), J as (x & X). exists x, y. unfold pixel. rewrite Y. exact X.
  - intros (x & y & P). unfold pixel in P. destruct (nth_error img y) as [row |] eqn:Y; [| discriminate].
    exists row. split; [exact (nth_error_In _ _ Y) | exact (nth_error_In _ _ P)].
Qed.

Lemma nth_error_rev {A} (l : list A) k : (k < length l)%nat -> nth_error (rev l) k = nth_error l (length l - 1 - k).
Proof.
  intros K. induction l as [| a l IH]; [cbn in K; lia |]. cbn [rev length] in *.
  destruct (Nat.eq_dec k (length l)) as [-> | N].
  - rewrite nth_error_app2 by (rewrite rev_length; lia). rewrite rev_length, Nat.sub_diag.
    replace (S (length l) - 1 - length l)%nat with O by lia. reflexivity.
  - rewrite nth_error_app1 by (rewrite rev_length; lia). rewrite IH by lia.
    replace (S (length l) - 1 - k)%nat with (S (length l - 1 - k)) by lia. reflexivity.
Qed.

Lemma pixel_rev {A} (img : list (list A)) x y : (y < length img)%nat -> pixel (rev img) x y = pixel img x (length img - 1 - y).
Proof. intros Y. unfold pixel. rewrite nth_error_rev by exact Y. reflexivity. Qed.

Lemma pixel_beyond {A} (img : list (list A)) x y : (length img <= y)%nat -> pixel img x y = None.
Proof. intros Y. unfold pixel. rewrite (proj2 (nth_error_None img y) Y). reflexivity. Qed.

Lemma brightness_pixel img x y v : pixel (brightness img) x y = Some v <-> (y < length img)%nat /\ has_light img x (length img - 1 - y) v.
Proof.
  unfold brightness. rewrite pixel_map. split.
  - intros E. destruct (Nat.lt_ge_cases y (length img)) as [L | G].
    + split; [exact L |]. rewrite pixel_rev in E by exact L. unfold has_light. destruct (pixel img x (length img - 1 - y)) as [px |]; [| discriminate].
      exists px. split; [reflexivity |]. cbn in E. congruence.
    + rewrite pixel_beyond in E by (rewrite rev_length; exact G). discriminate.
  - intros (L & px & P & ->). rewrite pixel_rev, P by exact L. reflexivity.
Qed.

Lemma light_row img x y v : has_light img x y v -> (y < length img)%nat.
Proof. intros (px & P & _). apply nth_error_Some. unfold pixel in P. destruct (nth_error img y); [discriminate | discriminate]. Qed.

Lemma brightest_max img top : is_brightest img top <-> list_max (concat (brightness img)) = Some top.
Proof.
  rewrite list_max_spec, pixel_in. unfold is_brightest. split.
  - intros ((x & y & H) & U). split.
    + exists x, (length img - 1 - y)%nat. apply brightness_pixel. pose proof (light_row _ _ _ _ H). split; [lia |].
      replace (length img - 1 - (length img - 1 - y))%nat with y by lia. exact H.
    + intros v I. apply pixel_in in I. destruct I as (a & b & P). apply brightness_pixel in P. exact (U _ _ _ (proj2 P)).
  - intros ((x & y & P) & U). apply brightness_pixel in P. split; [exists x, (length img - 1 - y)%nat; exact (proj2 P) |].
    intros a b v H. apply U. apply pixel_in. exists a, (length img - 1 - b)%nat. apply brightness_pixel.
    pose proof (light_row _ _ _ _ H). split; [lia |]. replace (length img - 1 - (length img - 1 - b))%nat with b by lia. exact H.
Qed.

Lemma rsum_nonneg_in l : (forall x, In x l -> 0 <= x) -> 0 <= rsum l.
Proof.
  induction l as [| a l IH]; intros H; [unfold rsum; cbn; lra |]. unfold rsum in *. cbn. pose proof (H a (or_introl eq_refl)).
  assert (0 <= fold_right Rplus 0 l) by (apply IH; intros; apply H; right; assumption). lra.
Qed.

Lemma light_nonneg nx ny img x y v : well_formed nx ny img -> has_light img x y v -> 0 <= v.
Proof.
  intros (_ & _ & P) (px & E & ->). apply rsum_nonneg_in. intros z I. unfold pixel in E. destruct (nth_error img y) as [row |] eqn:R; [| discriminate].
  exact (P row px z (nth_error_In _ _ R) (nth_error_In _ _ E) I).
Qed.

Lemma map_length_row {A B} (f : A -> B) (img : list (list A)) n :
  List.Forall (fun row => length row = n) img -> List.Forall (fun row => length row = n) (map (map f) img).
Proof. induction 1; cbn; constructor; [rewrite map_length; assumption | assumption]. Qed.

(** The target has the size of the picture and its values for every pixel. *)
Lemma target_values nx ny img top : well_formed nx ny img -> is_brightest img top -> 0 < top ->
  exists t, target_of img = Some t /\ length t = ny /\ List.Forall (fun row => length row = nx) t /\
    (forall x y v, has_light img x y v -> pixel t x (ny - 1 - y) = Some (Some (1 - v / top)) /\ 0 <= 1 - v / top <= 1) /\
    (exists x y, pixel t x y = Some (Some 0)) /\
    (forall x y, has_light img x y 0 -> pixel t x (ny - 1 - y) = Some (Some 1)).
Proof.
  intros W B P. unfold target_of, normalized. rewrite (proj1 (brightest_max img top) B). cbn [obind]. eexists. split; [reflexivity |].
  destruct W as (L & F & PO).
  assert (V : forall x y v, has_light img x y v ->
    pixel (map (map (fun x0 => obind (odiv x0 top) (fun q => Some (- q + 1)))) (brightness img)) x (ny - 1 - y) = Some (Some (1 - v / top)) /\ 0 <= 1 - v / top <= 1).
  { intros x y v H. assert (R := light_row _ _ _ _ H). split.
    - rewrite pixel_map. rewrite (proj2 (brightness_pixel img x (ny - 1 - y) v)).
      + cbn. rewrite odiv_nz by lra. cbn. do 2 f_equal. ring.
      + split; [lia |]. replace (length img - 1 - (ny - 1 - y))%nat with y by lia. exact H.
    - assert (0 <= v) by (exact (light_nonneg nx ny img x y v (conj L (conj F PO)) H)). pose proof (proj2 B x y v H).
      assert (0 <= v / top) by (apply Rmult_le_pos; [assumption | apply Rlt_le, Rinv_0_lt_compat; exact P]).
      assert (v / top <= 1) by (apply Rmult_le_reg_r with top; [exact P |]; unfold Rdiv; rewrite Rmult_assoc, Rinv_l by lra; lra). lra. }
  split; [unfold brightness; rewrite !map_length, rev_length; exact L |]. split.
  { apply map_length_row. unfold brightness. apply map_length_row. apply Forall_rev. exact F. }
  split; [exact V |]. split.
  - destruct B as ((x & y & H) & _). exists x, (ny - 1 - y)%nat. destruct (V x y top H) as [E _]. rewrite E. do 2 f_equal. field. lra.
  - intros x y H. destruct (V x y 0 H) as [E _]. rewrite E. do 2 f_equal. field. lra.
Qed.

(** Without light there are no values. *)
Lemma target_black img t : is_brightest img 0 -> target_of img = Some t -> forall x y v, pixel t x y = Some v -> v = None.
Proof.
  intros B. unfold target_of, normalized. rewrite (proj1 (brightest_max img 0) B). cbn [obind]. intros E x y v. injection E as <-.
  rewrite pixel_map. destruct (pixel (brightness img) x y); cbn; [| discriminate]. rewrite odiv_0. cbn. congruence.
Qed.

(** ** Files *)

Lemma airforce_alone render nx ny d : fst (airforce render nx ny d) = Some (target_of (render nx ny)) /\
  (forall name, name <> "tmp.png"%string -> snd (airforce render nx ny d) name = d name) /\
  snd (airforce render nx ny d) "tmp.png"%string = Some (render nx ny).
Proof.
  unfold airforce, write, fn. cbn [fst snd]. rewrite String.eqb_refl. split; [reflexivity |]. split; [| reflexivity].
  intros name N. destruct (String.eqb_spec name "tmp.png"); [contradiction | reflexivity].
Qed.

Definition size (p : process) : nat * nat := match p with Begin x y | Saved x y | Finished x y _ => (x, y) end.
Definition sizes (ps : list process) : list (nat * nat) := map size ps.

Lemma advance_size render p d : size (fst (advance render p d)) = size p.
Proof. destruct p; reflexivity. Qed.
Lemma advance_nth_sizes render ps : forall n d, sizes (fst (advance_nth render n ps d)) = sizes ps.
Proof.
  induction ps as [| p ps IH]; intros [| n] d; cbn; try reflexivity.
  - pose proof (advance_size render p d). destruct (advance render p d) as [p' d']. cbn in *. f_equal. assumption.
  - specialize (IH n d). destruct (advance_nth render n ps d) as [ps' d']. cbn in *. f_equal. exact IH.
Qed.

(** The file, once a program has saved, is the picture of one of them; so is every result. *)
Definition sound (render : renderer) (all : list (nat * nat)) (p : process) (d : directory) : Prop :=
  match p with
  | Begin _ _ => True
  | Saved _ _ => exists x y, In (x, y) all /\ d fn = Some (render x y)
  | Finished _ _ r => exists x y, In (x, y) all /\ r = Some (target_of (render x y))
  end.

Lemma sound_write render all p d x y : In (x, y) all -> sound render all p d -> sound render all p (write fn (render x y) d).
Proof.
  destruct p; cbn; intros I H; [exact Logic.I | | exact H].
  exists x, y. split; [exact I |]. unfold write; rewrite ?String.eqb_refl; reflexivity.
Qed.

Lemma advance_sound render all p d : In (size p) all -> sound render all p d -> sound render all (fst (advance render p d)) (snd (advance render p d)).
Proof.
  destruct p as [x y | x y | x y r]; cbn; intros I H.
  - exists x, y. split; [exact I |]. unfold write; rewrite ?String.eqb_refl; reflexivity.
  - destruct H as (a & b & A & E). exists a, b. split; [exact A |]. rewrite E. reflexivity.
  - exact H.
Qed.
Lemma advance_other render all p q d : In (size p) all -> sound render all q d -> sound render all q (snd (advance render p d)).
Proof. destruct p as [x y | x y | x y r]; cbn; intros I H; [apply sound_write; assumption | exact H | exact H]. Qed.

Lemma advance_nth_other render all q ps : forall n d, (forall p, In p ps -> In (size p) all) -> sound render all q d -> sound render all q (snd (advance_nth render n ps d)).
Proof.
  induction ps as [| p ps IH]; intros [| n] d A H; cbn; try exact H.
  - pose proof (advance_other render all p q d (A p (or_introl eq_refl)) H). destruct (advance render p d). exact H0.
  - specialize (IH n d (fun p I => A p (or_intror I)) H). destruct (advance_nth render n ps d). exact IH.
Qed.

Lemma advance_nth_sound render all ps : forall n d, (forall p, In p ps -> In (size p) all) -> (forall p, In p ps -> sound render all p d) ->
  forall p, In p (fst (advance_nth render n ps d)) -> sound render all p (snd (advance_nth render n ps d)).
Proof.
  induction ps as [| q ps IH]; intros [| n] d A H p; cbn.
  - intros [].
  - intros [].
  - pose proof (advance_sound render all q d (A q (or_introl eq_refl)) (H q (or_introl eq_refl))) as S.
    assert (O : forall p, sound render all p d -> sound render all p (snd (advance render q d))).
    { intros p' S'. apply advance_other; [exact (A q (or_introl eq_refl)) | exact S']. }
    destruct (advance render q d) as [q' d']. cbn in *. intros [<- | I]; [exact S | apply O, H; right; exact I].
  - specialize (IH n d (fun p I => A p (or_intror I)) (fun p I => H p (or_intror I))).
    pose proof (advance_nth_other render all q ps n d (fun p I => A p (or_intror I)) (H q (or_introl eq_refl))) as S.
    destruct (advance_nth render n ps d) as [ps' d']. cbn in *. intros [<- | I]; [exact S | exact (IH p I)].
Qed.

Lemma interleave_sound render all schedule : forall ps d, sizes ps = all -> (forall p, In p ps -> sound render all p d) ->
  sizes (fst (interleave render schedule ps d)) = all /\ forall p, In p (fst (interleave render schedule ps d)) -> sound render all p (snd (interleave render schedule ps d)).
Proof.
  induction schedule as [| n schedule IH]; intros ps d E H; cbn; [split; [exact E | exact H] |].
  assert (A : forall p, In p ps -> In (size p) all) by (intros p I; rewrite <- E; apply in_map; exact I).
  pose proof (advance_nth_sizes render ps n d) as L. pose proof (advance_nth_sound render all ps n d A H) as S.
  destruct (advance_nth render n ps d) as [ps' d']. cbn in *. apply IH; [rewrite <- E; exact L | exact S].
Qed.

Lemma begun_sound render all ps d : List.Forall begun ps -> forall p, In p ps -> sound render all p d.
Proof. intros F p I. rewrite Forall_forall in F. specialize (F p I). destruct p; [exact Logic.I | destruct F | destruct F]. Qed.

(** Every program that has finished has the picture of one of the programs. *)
Lemma together_some render schedule ps d x y result : List.Forall begun ps -> In (Finished x y result) (fst (interleave render schedule ps d)) ->
  exists x' y', In (Begin x' y') ps /\ result = Some (target_of (render x' y')).
Proof.
  intros F I. destruct (interleave_sound render (sizes ps) schedule ps d eq_refl (begun_sound render _ ps d F)) as (_ & S).
  destruct (S _ I) as (a & b & J & E). exists a, b. split; [| exact E].
  unfold sizes in J. rewrite in_map_iff in J. destruct J as (p & Q & IP). rewrite Forall_forall in F. specialize (F p IP). destruct p; [cbn in Q; congruence | destruct F | destruct F].
Qed.

(** One after the other, each gets its own picture. *)
Definition proper (render : renderer) (p : process) : Prop :=
  match p with Begin _ _ => True | Saved _ _ => False | Finished x y r => r = Some (target_of (render x y)) end.

Lemma twice_proper render ps : forall n d, List.Forall (proper render) ps ->
  let '(ps1, d1) := advance_nth render n ps d in List.Forall (proper render) (fst (advance_nth render n ps1 d1)).
Proof.
  induction ps as [| p ps IH]; intros [| n] d F; cbn; try constructor.
  - inversion F; subst. destruct p as [x y | x y | x y r]; cbn in *; [| contradiction |]; constructor; try assumption.
    cbn. unfold write; rewrite ?String.eqb_refl. reflexivity.
  - inversion F; subst. specialize (IH n d H2). destruct (advance_nth render n ps d) as [ps1 d1]. cbn. destruct (advance_nth render n ps1 d1) as [ps2 d2]. cbn in *.
    constructor; assumption.
Qed.

Lemma serial_proper render order : forall ps d, List.Forall (proper render) ps ->
  List.Forall (proper render) (fst (interleave render (flat_map (fun n => [n; n]) order) ps d)).
Proof.
  induction order as [| n order IH]; intros ps d F; [exact F |]. cbn. pose proof (twice_proper render ps n d F) as T.
  destruct (advance_nth render n ps d) as [ps1 d1]. destruct (advance_nth render n ps1 d1) as [ps2 d2]. cbn in T. apply IH. exact T.
Qed.

Lemma serial_own render order ps d x y result : List.Forall begun ps ->
  In (Finished x y result) (fst (interleave render (flat_map (fun n => [n; n]) order) ps d)) -> result = Some (target_of (render x y)).
Proof.
  intros B I. assert (F : List.Forall (proper render) ps).
  { eapply Forall_impl; [| exact B]. intros [] H; [exact Logic.I | destruct H | destruct H]. }
  pose proof (serial_proper render order ps d F) as S. rewrite Forall_forall in S. exact (S _ I).
Qed.

(** ** Examples *)

(** One white pixel above a black row, and a black pixel beside a grey one. *)
Definition drawing : renderer := fun nx ny =>
  match nx with
  | 1%nat => [[[1; 1; 1]]; [[0; 0; 0]]]
  | _ => [[[0; 0; 0]; [1 / 2; 1 / 2; 1 / 2]]]
  end.

Lemma drawing_formed : well_formed 1%nat 2%nat (drawing 1%nat 2%nat) /\ is_brightest (drawing 1%nat 2%nat) 3 /\ well_formed 2%nat 1%nat (drawing 2%nat 1%nat) /\ is_brightest (drawing 2%nat 1%nat) (3 / 2).
Proof.
  assert (A : well_formed 1%nat 2%nat (drawing 1%nat 2%nat)).
  { split; [reflexivity |]. split; [repeat constructor |]. cbn. intros row px l [<- | [<- | []]] [<- | []] I; cbn in I; intuition lra. }
  assert (B : well_formed 2%nat 1%nat (drawing 2%nat 1%nat)).
  { split; [reflexivity |]. split; [repeat constructor |]. cbn. intros row px l [<- | []] [<- | [<- | []]] I; cbn in I; intuition lra. }
  split; [exact A |]. split; [| split; [exact B |]].
  - apply brightest_max, list_max_spec. unfold rsum. cbn. split; [right; left; ring |]. intros y [<- | [<- | []]]; lra.
  - apply brightest_max, list_max_spec. unfold rsum. cbn. split; [right; left; field |]. intros y [<- | [<- | []]]; lra.
Qed.

Lemma drawing_targets : target_of (drawing 1%nat 2%nat) <> target_of (drawing 2%nat 1%nat).
Proof. cbn. unfold target_of, normalized, brightness. cbn. discriminate. Qed.

Lemma race : exists render schedule d r, In (Finished 1%nat 2%nat r) (fst (interleave render schedule [Begin 1%nat 2%nat; Begin 2%nat 1%nat] d)) /\
  r = Some (target_of (render 2%nat 1%nat)) /\ r <> Some (target_of (render 1%nat 2%nat)).
Proof.
  exists drawing, [0; 1; 0; 1]%nat, (fun _ => None). eexists. split; [left; reflexivity |]. split; [reflexivity |].
  intros E. apply drawing_targets.
  assert (H : Some (target_of (drawing 2%nat 1%nat)) = Some (target_of (drawing 1%nat 2%nat))) by exact E. injection H; intros; discriminate.
Qed.

Lemma overwrites : exists render d mine, d "tmp.png"%string = Some mine /\ snd (airforce render 1%nat 2%nat d) "tmp.png"%string <> Some mine.
Proof.
  exists drawing, (fun _ => Some []), []. split; [reflexivity |]. destruct (airforce_alone drawing 1%nat 2%nat (fun _ => Some [])) as (_ & _ & ->). discriminate.
Qed.
