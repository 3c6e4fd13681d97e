(** The axes of a grid of rays. *)
From Coq Require Import String List Bool Arith Lia Permutation.
From Verif Require Import Num SystemModel SystemProofs AxesModel AxesSpec.
Import ListNotations.
Open Scope opt_scope.

Lemma in_join : forall a b x, In x (join_axes a b) <-> In x a \/ In x b.
Proof.
  intros a b x. unfold join_axes. rewrite in_app_iff, minus_in.
  split; [tauto|]. intros [H|H]; [tauto|]. destruct (in_dec string_dec x a); tauto.
Qed.

Lemma nodup_join : forall a b, NoDup a -> NoDup b -> NoDup (join_axes a b).
Proof.
  intros a b Na Nb. unfold join_axes.
  assert (H : forall l, NoDup l -> (forall x, In x l -> ~ In x (minus_axes b a)) -> NoDup (l ++ minus_axes b a)).
  { induction l as [|y l IH]; intros Nl D; cbn; [apply minus_nodup; exact Nb|].
    inversion Nl; subst. constructor.
    - rewrite in_app_iff. intros [Q|Q]; [contradiction|]. apply (D y); [left; reflexivity|exact Q].
    - apply IH; [assumption|]. intros x X. apply D. right. exact X. }
  apply H; [exact Na|]. intros x X. rewrite minus_in. tauto.
Qed.

Lemma denormalize_shaped : forall c nf np g, stop_follows c -> well_shaped g -> well_shaped (denormalize_axes c nf np g).
Proof.
  intros c nf np g F (Nw & Nf & Np). destruct (F _ Nw) as [Ns _].
  unfold denormalize_axes, well_shaped. cbn. split; [exact Nw|].
  split; [destruct nf|destruct np]; try assumption; apply nodup_join; assumption.
Qed.

Lemma in_denormalized : forall c (b : bool) g l, stop_follows c -> well_shaped g ->
  forall x, In x (if b then join_axes (ax_stop c (sh_wavelength g)) l else l) ->
    In x l \/ In x (sh_wavelength g) \/ In x (ax_shape c).
Proof.
  intros c b g l F (Nw & _) x X. destruct b; [|tauto]. apply in_join in X. destruct X as [X|X]; [|tauto].
  right. apply (proj2 (F _ Nw)). exact X.
Qed.
Lemma in_normalized : forall c (b : bool) w l x, In x l -> In x (if b then join_axes (ax_stop c w) l else l).
Proof. intros c b w l x X. destruct b; [apply in_join; tauto|exact X]. Qed.

Lemma denormalized_axes : forall c nf np g w f p, stop_follows c -> well_shaped g ->
  (axes_of (ax_shape c) g w f p <-> axes_of (ax_shape c) (denormalize_axes c nf np g) w f p).
Proof.
  intros c nf np g w f p F W. unfold axes_of, denormalize_axes. cbn.
  assert (A : (forall x, In x w <-> In x (sh_wavelength g) /\ ~ In x (ax_shape c)) ->
     forall (b : bool) l x, ~ In x (ax_shape c) -> ~ In x w ->
       (In x (if b then join_axes (ax_stop c (sh_wavelength g)) l else l) <-> In x l)).
  { intros Hw b l x Xs Xw. split; [|apply in_normalized].
    intros X. destruct (in_denormalized c b g l F W x X) as [Q|[Q|Q]]; [exact Q| |contradiction].
    elim Xw. apply Hw. tauto. }
  split; intros (N & Lw & Lf & Lp & Hw & Hf & Hp); specialize (A Hw);
    (split; [exact N|]; split; [exact Lw|]; split; [exact Lf|]; split; [exact Lp|]; split; [exact Hw|]; split).
  - intros x. rewrite Hf. split; intros (X & Xs & Xw); (split; [|tauto]); [apply in_normalized; exact X|exact (proj1 (A nf _ x Xs Xw) X)].
  - intros x. rewrite Hp. split; intros (X & Xs & Xw & Xf); (split; [|tauto]); [apply in_normalized; exact X|exact (proj1 (A np _ x Xs Xw) X)].
  - intros x. rewrite Hf. split; intros (X & Xs & Xw); (split; [|tauto]); [exact (proj1 (A nf _ x Xs Xw) X)|apply in_normalized; exact X].
  - intros x. rewrite Hp. split; intros (X & Xs & Xw & Xf); (split; [|tauto]); [exact (proj1 (A np _ x Xs Xw) X)|apply in_normalized; exact X].
Qed.

Lemma axes_accounted : forall sys g w f p, axes_of sys g w f p -> accounted sys g w f p.
Proof.
  intros sys g w f p (N & _ & _ & _ & Hw & Hf & Hp) x X. rewrite !in_app_iff in *.
  destruct (in_dec string_dec x sys) as [|Xs]; [tauto|]. destruct (in_dec string_dec x w) as [|Xw]; [tauto|].
  destruct (in_dec string_dec x f) as [|Xf]; [tauto|].
  destruct X as [X|[X|X]]; [right; left; apply Hw; tauto|right; right; left; apply Hf; tauto|right; right; right; apply Hp; tauto].
Qed.

Lemma nodup_app_l : forall a b : list string, NoDup (a ++ b) -> NoDup a.
Proof.
  induction a as [|x a IH]; intros b N; [constructor|]. inversion N; subst. constructor; [|exact (IH b H2)].
  intros X. apply H1. apply in_app_iff. left. exact X.
Qed.
Lemma nodup_app_r : forall a b : list string, NoDup (a ++ b) -> NoDup b.
Proof. induction a as [|x a IH]; intros b N; [exact N|]. inversion N; subst. exact (IH b H2). Qed.

(** ** Inference succeeds exactly when there are such axes *)

Definition infer order (sys : list string) (g : shapes) :=
  let* w := normalize_axis_wavelength order None (sh_wavelength g) sys in
  let* f := normalize_axis_field order None w (sh_field g) sys in
  let* p := normalize_axis_pupil order None f w (sh_pupil g) sys in
  Some (w, f, p).

Section Infer.
Variable order : list string -> list string.
Hypothesis order_perm : forall l, Permutation (order l) l.

Lemma infer_some : forall sys g w f p, well_shaped g ->
  infer order sys g = Some (w, f, p) -> axes_of sys g w f p.
Proof.
  intros sys g w f p (Nw & Nf & Np) H. unfold infer, obind in H.
  destruct (normalize_axis_wavelength _ _ _ _) as [w'|] eqn:E1; [|discriminate H].
  destruct (normalize_axis_field _ _ _ _ _) as [f'|] eqn:E2; [|discriminate H].
  destruct (normalize_axis_pupil _ _ _ _ _ _) as [p'|] eqn:E3; [|discriminate H].
  injection H as -> -> ->.
  destruct (axes_inferred order order_perm _ _ _ sys w f p Nw Nf Np E1 E2 E3) as (A & B & C & D & E & F & G).
  exact (conj A (conj B (conj C (conj D (conj E (conj F G)))))).
Qed.

Lemma same_length : forall a b : list string, NoDup a -> NoDup b -> (forall x, In x a <-> In x b) -> length a = length b.
Proof. intros a b Na Nb H. apply Permutation_length, NoDup_Permutation; assumption. Qed.

Lemma infer_defined : forall sys g w f p, well_shaped g -> axes_of sys g w f p ->
  exists w' f' p', infer order sys g = Some (w', f', p').
Proof.
  intros sys g w f p (Nw & Nf & Np) (N & Lw & Lf & Lp & Hw & Hf & Hp).
  assert (Dw : NoDup w) by exact (nodup_app_l _ _ N).
  assert (Dfp : NoDup (f ++ p)) by exact (nodup_app_r _ _ N).
  assert (Df : NoDup f) by exact (nodup_app_l _ _ Dfp).
  assert (Dp : NoDup p) by exact (nodup_app_r _ _ Dfp).
  unfold infer, obind.
  destruct (normalize_axis_wavelength order None (sh_wavelength g) sys) as [w'|] eqn:E1.
  2:{ exfalso. apply (wavelength_error order order_perm) in E1.
      rewrite (same_length _ w) in E1; [lia|apply minus_nodup; exact Nw|exact Dw|].
      intros x. rewrite minus_in, Hw. tauto. }
  destruct (wavelength_axes order order_perm _ _ _ Nw E1) as (_ & _ & Iw).
  assert (Q : forall x, In x w' <-> In x w) by (intros x; rewrite Iw, Hw; tauto).
  destruct (normalize_axis_field order None w' (sh_field g) sys) as [f'|] eqn:E2.
  2:{ exfalso. apply (field_error order order_perm) in E2. apply E2.
      rewrite (same_length _ f); [exact Lf|apply minus_nodup, minus_nodup; exact Nf|exact Df|].
      intros x. rewrite !minus_in, Hf, Q. tauto. }
  destruct (field_axes order order_perm _ _ _ _ Nf E2) as (_ & _ & If_).
  assert (Q' : forall x, In x f' <-> In x f) by (intros x; rewrite If_, Hf, Q; tauto).
  destruct (normalize_axis_pupil order None f' w' (sh_pupil g) sys) as [p'|] eqn:E3.
  2:{ exfalso. apply (pupil_error order order_perm) in E3. apply E3.
      rewrite (same_length _ p); [exact Lp|apply minus_nodup, minus_nodup, minus_nodup; exact Np|exact Dp|].
      intros x. rewrite !minus_in, Hp, Q, Q'. tauto. }
  exists w', f', p'. reflexivity.
Qed.

(** ** Grids that are given *)

Lemma requested_spec : forall s a, asks_for (as_grid s) a (requested s a).
Proof.
  intros s a. unfold asks_for, requested. cbn.
  destruct (aa_wavelength a), (aa_field a), (aa_pupil a); cbn; repeat split; intros; try discriminate; congruence.
Qed.
Lemma requested_unique : forall s a g, asks_for (as_grid s) a g -> g = requested s a.
Proof.
  intros s a [w f p] (A & B & C & D & E & F). unfold requested. cbn in *.
  f_equal.
  - destruct (aa_wavelength a); cbn; auto.
  - destruct (aa_field a); cbn; auto.
  - destruct (aa_pupil a); cbn; auto.
Qed.

Lemma fit_given : forall c s a g, stop_follows c -> no_grids a = false -> asks_for (as_grid s) a g -> well_shaped g ->
  (forall s' rays w f p, rayfunction_and_axes order c s a = (s', Some (rays, (w, f, p))) ->
     s' = s /\ axes_of (ax_shape c) g w f p /\ axes_of (ax_shape c) rays w f p /\ accounted (ax_shape c) rays w f p) /\
  ((exists w f p, axes_of (ax_shape c) g w f p) ->
     exists rays w f p, rayfunction_and_axes order c s a = (s, Some (rays, (w, f, p)))).
Proof.
  intros c s a g F G A W. apply requested_unique in A. subst g.
  unfold rayfunction_and_axes. rewrite G. set (g := requested s a) in *.
  set (rays := denormalize_axes c (aa_normalized_field a) (aa_normalized_pupil a) g).
  assert (Wr : well_shaped rays) by (apply denormalize_shaped; assumption).
  assert (E : forall K : list string * list string * list string -> option (shapes * (list string * list string * list string)),
     (let* w := normalize_axis_wavelength order None (sh_wavelength rays) (ax_shape c) in
      let* f := normalize_axis_field order None w (sh_field rays) (ax_shape c) in
      let* p := normalize_axis_pupil order None f w (sh_pupil rays) (ax_shape c) in K (w, f, p)) =
     obind (infer order (ax_shape c) rays) K).
  { intros K. unfold infer, obind. destruct (normalize_axis_wavelength _ _ _ _); [|reflexivity].
    destruct (normalize_axis_field _ _ _ _ _); [|reflexivity]. destruct (normalize_axis_pupil _ _ _ _ _ _); reflexivity. }
  rewrite (E (fun x => Some (rays, x))). split.
  - intros s' r w f p H. injection H as <- H. split; [reflexivity|].
    destruct (infer order (ax_shape c) rays) as [[[w' f'] p']|] eqn:I; [|discriminate H].
    cbn in H. assert (r = rays /\ w' = w /\ f' = f /\ p' = p) as (-> & -> & -> & ->).
    { repeat split; congruence. }
    assert (X := infer_some _ _ _ _ _ Wr I).
    split; [apply (denormalized_axes c (aa_normalized_field a) (aa_normalized_pupil a) g); assumption|].
    split; [exact X|apply axes_accounted; exact X].
  - intros (w & f & p & X). apply (denormalized_axes c (aa_normalized_field a) (aa_normalized_pupil a) g) in X; [|assumption|assumption].
    destruct (infer_defined _ _ _ _ _ Wr X) as (w' & f' & p' & I). rewrite I. exists rays, w', f', p'. reflexivity.
Qed.

(** ** Without grids *)

Definition current (c : axis_config) (s : axis_state) : Prop :=
  (forall i, as_input s = Some i -> i = denormalize_axes c true true (as_grid s)) /\
  (forall i, as_default s = Some i -> i = denormalize_axes c true true (as_grid s)).

Lemma default_current : forall c s, current c s ->
  let (s', r) := default_axes c s in current c s' /\ as_grid s' = as_grid s /\ r = denormalize_axes c true true (as_grid s).
Proof.
  intros c s (A & B). unfold default_axes. destruct (as_default s) as [d|] eqn:D.
  - split; [|split; [reflexivity|apply B; reflexivity]]. split; [exact A|]. rewrite D. exact B.
  - destruct (as_input s) as [i|] eqn:I.
    + split; [|split; [reflexivity|apply A; reflexivity]]. split; cbn; intros j J; injection J as <-; apply A; reflexivity.
    + split; [|split; reflexivity]. split; cbn; intros j J; injection J as <-; reflexivity.
Qed.

Lemma fit_current : forall c s a, current c s ->
  current c (fst (rayfunction_and_axes order c s a)) /\ as_grid (fst (rayfunction_and_axes order c s a)) = as_grid s.
Proof.
  intros c s a H. unfold rayfunction_and_axes. destruct (no_grids a); [|split; [exact H|reflexivity]].
  assert (X := default_current c s H). destruct (default_axes c s) as [s' r]. cbn. tauto.
Qed.

Lemma history_current : forall c g l, List.Forall keeps_grid l ->
  current c (axis_history order c g l) /\ as_grid (axis_history order c g l) = g.
Proof.
  intros c g l K. unfold axis_history.
  assert (H : forall l s, List.Forall keeps_grid l -> current c s -> as_grid s = g ->
     current c (fold_left (axis_step order c) l s) /\ as_grid (fold_left (axis_step order c) l s) = g).
  { clear K l. induction l as [|x l IH]; intros s K C G; [split; assumption|]. cbn. inversion K; subst.
    destruct x as [a|g'| |]; cbn.
    - destruct (fit_current c s a C) as [P Q]. apply IH; [assumption|exact P|exact Q].
    - contradiction.
    - apply IH; [assumption| |reflexivity]. destruct C as [P Q]. split; cbn; [exact P|intros; discriminate].
    - apply IH; [assumption| |reflexivity]. destruct C as [P Q]. split; cbn; [intros; discriminate|exact Q]. }
  apply H; [exact K| |reflexivity]. split; cbn; intros; discriminate.
Qed.

Lemma fit_default : forall c l g a, stop_follows c -> undeclared c -> List.Forall keeps_grid l -> well_shaped g ->
  no_grids a = true ->
  (forall s' rays w f p, rayfunction_and_axes order c (axis_history order c g l) a = (s', Some (rays, (w, f, p))) ->
     axes_of (ax_shape c) g w f p /\ axes_of (ax_shape c) rays w f p /\ accounted (ax_shape c) rays w f p) /\
  ((exists w f p, axes_of (ax_shape c) g w f p) ->
     exists s' rays w f p, rayfunction_and_axes order c (axis_history order c g l) a = (s', Some (rays, (w, f, p)))).
Proof.
  intros c l g a F (Uw & Uf & Up) K W G. destruct (history_current c g l K) as [C Eg].
  set (s := axis_history order c g l) in *. unfold rayfunction_and_axes. rewrite G.
  assert (X := default_current c s C). destruct (default_axes c s) as [s' r]. destruct X as (_ & Es & ->).
  rewrite Es, Eg. replace (own_axes order c g) with (infer order (ax_shape c) g).
  2:{ unfold own_axes. rewrite Uw, Uf, Up. reflexivity. }
  split.
  - intros s2 rays w f p H. destruct (infer order (ax_shape c) g) as [[[w' f'] p']|] eqn:I; [|discriminate H].
    cbn in H. assert (rays = denormalize_axes c true true g /\ w' = w /\ f' = f /\ p' = p) as (-> & -> & -> & ->).
    { repeat split; congruence. }
    assert (X := infer_some _ _ _ _ _ W I). split; [exact X|].
    assert (Y := proj1 (denormalized_axes c true true g w f p F W) X). split; [exact Y|apply axes_accounted; exact Y].
  - intros (w & f & p & X). destruct (infer_defined _ _ _ _ _ W X) as (w' & f' & p' & I). rewrite I. cbn.
    exists s', (denormalize_axes c true true g), w', f', p'. reflexivity.
Qed.

(** ** Declared axes *)
Lemma fit_declared : forall c l g a w f p, List.Forall keeps_grid l -> no_grids a = true ->
  ax_wavelength c = Some w -> ax_field c = Some f -> ax_pupil c = Some p ->
  exists s' rays, rayfunction_and_axes order c (axis_history order c g l) a = (s', Some (rays, ([w], f, p))) /\
    (forall x, In x (sh_wavelength g ++ sh_field g ++ sh_pupil g) -> In x (sh_wavelength rays ++ sh_field rays ++ sh_pupil rays)).
Proof.
  intros c l g a w f p K G Ew Ef Ep. destruct (history_current c g l K) as [C Eg].
  set (s := axis_history order c g l) in *. unfold rayfunction_and_axes. rewrite G.
  assert (X := default_current c s C). destruct (default_axes c s) as [s' r]. destruct X as (_ & Es & ->).
  exists s', (denormalize_axes c true true g). rewrite Eg. split.
  - unfold own_axes. rewrite Ew, Ef, Ep. reflexivity.
  - intros x. cbn. rewrite !in_app_iff, !in_join. tauto.
Qed.
End Infer.

(** ** What fails *)

Open Scope string_scope.
Definition identity_order : list string -> list string := fun l => l.
Definition ex_config : axis_config := mkAxisConfig ["channel"] None None None (fun w => w).
Definition ex_grid : shapes := mkShapes ["w"] ["fx"; "fy"] ["px"; "py"].
Definition other_grid : shapes := mkShapes ["w"] ["fx"; "fy"] ["qx"; "qy"].
Definition no_arguments : axis_args := mkAxisArgs None None None true true.

Lemma fit_stale : exists c g g' s rays w f p, stop_follows c /\ undeclared c /\ well_shaped g /\ well_shaped g' /\
  (exists w f p, axes_of (ax_shape c) g' w f p) /\
  rayfunction_and_axes identity_order c (axis_history identity_order c g [Fit no_arguments; SetShapes g'; DropDefault]) no_arguments =
    (s, Some (rays, (w, f, p))) /\
  (forall x, In x p -> ~ In x (sh_wavelength rays ++ sh_field rays ++ sh_pupil rays)) /\ p <> [].
Proof.
  exists ex_config, ex_grid, other_grid. eexists. eexists. eexists. eexists. eexists.
  assert (W : forall a b : string, a <> b -> NoDup [a; b]).
  { intros a b H. constructor; [intros [Q|[]]; congruence|]. constructor; [intros []|constructor]. }
  assert (W1 : NoDup ["w"]) by (constructor; [intros []|constructor]).
  split; [intros w N; split; [exact N|cbn; tauto]|].
  split; [repeat split|].
  split; [split; [exact W1|split; apply W; discriminate]|].
  split; [split; [exact W1|split; apply W; discriminate]|].
  split.
  { exists ["w"], ["fx"; "fy"], ["qx"; "qy"]. apply (infer_some identity_order (fun l => Permutation_refl l));
      [split; [exact W1|split; apply W; discriminate]|reflexivity]. }
  split; [reflexivity|]. split; [|discriminate].
  intros x X Y. cbn in X, Y. intuition (subst; discriminate).
Qed.

Definition declaring : axis_config := mkAxisConfig [] (Some "w") (Some ["fx"; "fy"]) (Some ["px"; "py"]) (fun w => w).
Definition drifting : shapes := mkShapes ["w"] ["fx"; "fy"; "t"] ["px"; "py"].

Lemma fit_ignores : exists c g pupil w f p, well_shaped g /\ stop_follows c /\
  ax_wavelength c = Some w /\ ax_field c = Some f /\ ax_pupil c = Some p /\ pupil = sh_pupil g /\
  (exists s rays, rayfunction_and_axes identity_order c (mkAxisState g None None) no_arguments = (s, Some (rays, ([w], f, p)))) /\
  snd (rayfunction_and_axes identity_order c (mkAxisState g None None) (mkAxisArgs None None (Some pupil) true true)) = None.
Proof.
  exists declaring, drifting, ["px"; "py"]. eexists. eexists. eexists.
  split.
  { split; [constructor; [intros []|constructor]|]. split.
    - cbn. repeat (constructor; [cbn; intuition discriminate|]). constructor.
    - cbn. repeat (constructor; [cbn; intuition discriminate|]). constructor. }
  split; [intros w N; split; [exact N|cbn; tauto]|].
  split; [reflexivity|]. split; [reflexivity|]. split; [reflexivity|]. split; [reflexivity|].
  split; [eexists; eexists; reflexivity|reflexivity].
Qed.
