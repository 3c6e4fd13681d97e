From Coq Require Import Reals Lra List Sorting.Sorted Lia String Ascii Bool.
From Verif Require Import Num NumLemmas RayModel SurfaceModel MaterialModel TableModel TableSpec.
Import ListNotations.
Open Scope R_scope.
Open Scope opt_scope.

Notation increasing := TableSpec.increasing.

Lemma increasing_nondecreasing l : increasing l -> nondecreasing l.
Proof.
  induction 1 as [|a l S IH F]; constructor; auto.
  eapply List.Forall_impl; [|exact F]; cbn; intros; lra.
Qed.

Lemma SS_app {A} (P : A -> A -> Prop) l1 a l2 :
  StronglySorted P (l1 ++ a :: l2) ->
  (forall b, In b l1 -> P b a) /\ (forall b, In b l2 -> P a b) /\ StronglySorted P (a :: l2).
Proof.
  induction l1 as [|c l1 IH]; cbn; intros S.
  - inversion S as [|? ? S' F]; subst; repeat split; [tauto | | exact S].
    rewrite List.Forall_forall in F; exact F.
  - inversion S as [|? ? S' F]; subst; destruct (IH S') as (A1 & A2 & A3); repeat split; auto.
    intros b [<- | B]; auto; rewrite List.Forall_forall in F; apply F, in_or_app; right; left; reflexivity.
Qed.

(** Skip the nodes that are not after [x]. *)
Lemma npinterp_from_skip x a b l1 x0 y0 l2 :
  (forall c, In c l1 -> fst c <= x) -> x0 <= x ->
  npinterp_from x a b (l1 ++ (x0, y0) :: l2) = npinterp_from x x0 y0 l2.
Proof.
  revert a b; induction l1 as [|[c d] l1 IH]; cbn; intros a b H X.
  - destruct (Rlt_dec x x0); [lra | reflexivity].
  - pose proof (H (c, d) (or_introl eq_refl)); cbn in *.
    destruct (Rlt_dec x c); [lra | apply IH; auto].
Qed.
Lemma npinterp_skip x l1 x0 y0 l2 :
  (forall c, In c l1 -> fst c <= x) -> x0 <= x ->
  npinterp x (l1 ++ (x0, y0) :: l2) = Some (npinterp_from x x0 y0 l2).
Proof.
  destruct l1 as [|[c d] l1]; cbn; intros H X.
  - destruct (Rlt_dec x x0); [lra | reflexivity].
  - pose proof (H (c, d) (or_introl eq_refl)); cbn in *.
    destruct (Rlt_dec x c); [lra | f_equal; apply npinterp_from_skip; auto].
Qed.

Lemma npinterp_line x l1 x0 y0 x1 y1 l2 :
  nondecreasing (l1 ++ (x0, y0) :: (x1, y1) :: l2) -> x0 <= x < x1 ->
  npinterp x (l1 ++ (x0, y0) :: (x1, y1) :: l2) = Some ((y1 - y0) / (x1 - x0) * (x - x0) + y0).
Proof.
  intros S X; destruct (SS_app _ _ _ _ S) as (A & _ & _).
  rewrite npinterp_skip; [| | lra].
  - cbn; destruct (Rlt_dec x x1); [reflexivity | lra].
  - intros c C; specialize (A c C); cbn in A; lra.
Qed.

(** The last of the points at one argument. *)
Lemma npinterp_point x y l1 l2 : nondecreasing (l1 ++ (x, y) :: l2) ->
  (forall c, In c l2 -> fst c <> x) -> npinterp x (l1 ++ (x, y) :: l2) = Some y.
Proof.
  intros S N; destruct (SS_app _ _ _ _ S) as (A & B & _).
  rewrite npinterp_skip; [| exact A | lra].
  destruct l2 as [|[x1 y1] l2]; cbn; [reflexivity|].
  specialize (B _ (or_introl eq_refl)); specialize (N _ (or_introl eq_refl)); cbn in *.
  destruct (Rlt_dec x x1); [|lra]; f_equal; replace (x - x) with 0 by ring; ring.
Qed.

Lemma npinterp_node l : increasing l -> reproduces l (fun x => npinterp x l).
Proof.
  intros S x y I; apply in_split in I as (l1 & l2 & ->).
  destruct (SS_app _ _ _ _ S) as (_ & B & _).
  apply npinterp_point; [apply increasing_nondecreasing, S|].
  intros c C; specialize (B c C); cbn in B; lra.
Qed.

Lemma line_between y0 y1 x0 x1 x : x0 < x1 -> x0 <= x <= x1 ->
  between ((y1 - y0) / (x1 - x0) * (x - x0) + y0) y0 y1.
Proof.
  intros L X; set (q := (x - x0) / (x1 - x0)).
  replace ((y1 - y0) / (x1 - x0) * (x - x0)) with ((y1 - y0) * q) by (unfold q; field; lra).
  assert (Q : 0 <= q <= 1).
  { unfold q; split; [apply Rmult_le_pos; [lra | left; apply Rinv_0_lt_compat; lra]|].
    apply (Rmult_le_reg_r (x1 - x0)); [lra|]; unfold Rdiv; rewrite Rmult_assoc, Rinv_l by lra; lra. }
  unfold between, Rmin, Rmax; destruct (Rle_dec y0 y1); split; nra.
Qed.

Lemma npinterp_between l : increasing l -> never_overshoots l (fun x => npinterp x l).
Proof.
  intros S x0 y0 x1 y1 x (l1 & l2 & ->) X.
  pose proof (increasing_nondecreasing _ S) as S'.
  destruct (SS_app _ _ _ _ S) as (_ & B & _).
  pose proof (B (x1, y1) (or_introl eq_refl)) as L; cbn in L.
  exists ((y1 - y0) / (x1 - x0) * (x - x0) + y0); split; [|split].
  - destruct (Rlt_dec x x1); [apply npinterp_line; [exact S' | lra]|].
    assert (x = x1) by lra; subst x.
    rewrite (npinterp_node _ S x1 y1) by (apply in_or_app; right; right; left; reflexivity).
    f_equal; field; lra.
  - apply line_between; assumption.
  - field; lra.
Qed.

Lemma bracketed_cons p l x : bracketed l x -> bracketed (p :: l) x.
Proof.
  intros [I | (a & b & (l1 & l2 & ->) & X)]; [left; right; exact I|].
  right; exists a, b; split; [exists (p :: l1), l2; reflexivity | exact X].
Qed.
Lemma bracketed_from l p x b : fst p <= x -> In b (p :: l) -> x <= fst b -> bracketed (p :: l) x.
Proof.
  revert p; induction l as [|q l IH]; intros p P B X.
  - destruct B as [<- | []]; left; left; lra.
  - destruct B as [<- | B]; [left; left; lra|].
    destruct (Rle_dec x (fst q)).
    + right; exists p, q; split; [exists [], l; reflexivity | lra].
    + apply bracketed_cons, IH; auto; lra.
Qed.
Lemma inside_bracketed l x : nondecreasing l -> inside l x -> bracketed l x.
Proof.
  intros S (a & b & A & B & X); destruct l as [|p l]; [destruct A|].
  apply bracketed_from with b; [|exact B | lra].
  destruct A as [<- | A]; [lra|].
  inversion S as [|? ? _ F]; subst; rewrite List.Forall_forall in F; specialize (F a A); cbn in F; lra.
Qed.

(** In a non-decreasing table every value in range is between two tabulated values of points
    next to one another in wavelength. *)
Lemma npinterp_range l x v : nondecreasing l -> npinterp x l = Some v ->
  exists a b, In a l /\ In b l /\ snd a <= v <= snd b.
Proof.
  assert (G : forall l x0 y0, nondecreasing ((x0, y0) :: l) -> x0 <= x ->
    exists a b, In a ((x0, y0) :: l) /\ In b ((x0, y0) :: l) /\ snd a <= npinterp_from x x0 y0 l <= snd b).
  { clear; intros l; induction l as [|[x1 y1] l IH]; intros x0 y0 S X.
    - exists (x0, y0), (x0, y0); cbn; repeat split; auto; lra.
    - cbn; destruct (Rlt_dec x x1) as [L | L].
      + pose proof (line_between y0 y1 x0 x1 x ltac:(lra) ltac:(lra)) as [B1 B2].
        unfold Rmin, Rmax in *; destruct (Rle_dec y0 y1).
        * exists (x0, y0), (x1, y1); cbn; auto.
        * exists (x1, y1), (x0, y0); cbn; auto.
      + inversion S; subst; destruct (IH x1 y1) as (a & b & A & B & Y); auto; [lra|].
        exists a, b; repeat split; try (right; assumption); apply Y. }
  intros S; destruct l as [|[x0 y0] l]; [discriminate|]; cbn.
  destruct (Rlt_dec x x0); intros [= <-].
  - exists (x0, y0), (x0, y0); cbn; repeat split; auto; lra.
  - apply G; [exact S | lra].
Qed.

Lemma npinterp_below l x x0 y0 : nondecreasing ((x0, y0) :: l) -> x < x0 -> npinterp x ((x0, y0) :: l) = Some y0.
Proof. intros _ X; cbn; destruct (Rlt_dec x x0); [reflexivity | lra]. Qed.
Lemma npinterp_above l x x1 y1 : nondecreasing (l ++ [(x1, y1)]) -> x1 <= x ->
  npinterp x (l ++ [(x1, y1)]) = Some y1.
Proof.
  intros S X; rewrite npinterp_skip; [reflexivity | | exact X].
  destruct (SS_app _ _ _ _ S) as (A & _ & _); intros c C; specialize (A c C); cbn in A; lra.
Qed.

(** [MaterialModel.interp] is the same function on increasing tables. *)
Lemma interp_from_eq x l x0 y0 : increasing ((x0, y0) :: l) -> x0 < x ->
  interp_from x x0 y0 l = Some (npinterp_from x x0 y0 l).
Proof.
  revert x0 y0; induction l as [|[x1 y1] l IH]; intros x0 y0 S X; [reflexivity|].
  inversion S as [|? ? S' F]; subst; inversion F as [|? ? L _]; subst; cbn in L.
  cbn; destruct (Rle_dec x x1) as [A | A]; destruct (Rlt_dec x x1) as [B | B]; try lra.
  - rewrite odiv_nz by lra; cbn; f_equal; field; lra.
  - assert (x = x1) by lra; subst x; rewrite odiv_nz by lra; cbn; f_equal.
    transitivity y1; [field; lra|].
    destruct l as [|[x2 y2] l]; [reflexivity|]; cbn.
    inversion S' as [|? ? S2 F2]; subst; inversion F2 as [|? ? L2 _]; subst; cbn in L2.
    destruct (Rlt_dec x1 x2); [|lra]; replace (x1 - x1) with 0 by ring; ring.
  - apply IH; [exact S' | lra].
Qed.
Lemma interp_eq x l : increasing l -> interp x l = npinterp x l.
Proof.
  destruct l as [|[x0 y0] l]; intros S; [reflexivity|]; cbn.
  destruct (Rle_dec x x0) as [A | A]; destruct (Rlt_dec x x0) as [B | B]; try lra; try reflexivity.
  - assert (x = x0) by lra; subst x; f_equal.
    destruct l as [|[x1 y1] l]; [reflexivity|]; cbn.
    inversion S as [|? ? S' F]; subst; inversion F as [|? ? L _]; subst; cbn in L.
    destruct (Rlt_dec x0 x1); [|lra]; replace (x0 - x0) with 0 by ring; ring.
  - apply interp_from_eq; [exact S | lra].
Qed.

(** ** Tables of optical constants *)
Definition n_table (t : list nk_row) := map (fun r => (nk_wavelength r, nk_n r)) t.
Definition k_table (t : list nk_row) := map (fun r => (nk_wavelength r, nk_k r)) t.

Lemma npinterp_defined x l : l <> [] -> exists v, npinterp x l = Some v.
Proof. destruct l as [|[x0 y0] l]; [congruence|]; cbn; eauto. Qed.

Lemma index_complex_eq t w n k : npinterp w (n_table t) = Some n -> npinterp w (k_table t) = Some k ->
  index_complex t w = Some (n, k).
Proof. unfold index_complex, n_table, k_table; intros -> ->; reflexivity. Qed.

Lemma refraction_eq t w : index_refraction t w = npinterp w (n_table t).
Proof.
  unfold index_refraction; destruct t as [|r t]; [reflexivity|].
  destruct (npinterp_defined w (n_table (r :: t))) as [n N]; [discriminate|].
  destruct (npinterp_defined w (k_table (r :: t))) as [k K]; [discriminate|].
  rewrite (index_complex_eq _ _ _ _ N K), N; reflexivity.
Qed.
Lemma wavenumber_eq t w : wavenumber t w = npinterp w (k_table t).
Proof.
  unfold wavenumber; destruct t as [|r t]; [reflexivity|].
  destruct (npinterp_defined w (n_table (r :: t))) as [n N]; [discriminate|].
  destruct (npinterp_defined w (k_table (r :: t))) as [k K]; [discriminate|].
  rewrite (index_complex_eq _ _ _ _ N K), K; reflexivity.
Qed.

Lemma nk_increasing t (f : nk_row -> R) :
  StronglySorted (fun a b => nk_wavelength a < nk_wavelength b) t ->
  increasing (map (fun r => (nk_wavelength r, f r)) t).
Proof.
  induction 1 as [|r t S IH F]; cbn; constructor; auto.
  rewrite List.Forall_forall in *; intros c C; apply in_map_iff in C as (q & <- & Q); cbn; auto.
Qed.
Lemma nk_nondecreasing t (f : nk_row -> R) :
  StronglySorted (fun a b => nk_wavelength a <= nk_wavelength b) t ->
  nondecreasing (map (fun r => (nk_wavelength r, f r)) t).
Proof.
  induction 1 as [|r t S IH F]; cbn; constructor; auto.
  rewrite List.Forall_forall in *; intros c C; apply in_map_iff in C as (q & <- & Q); cbn; auto.
Qed.

Lemma reproduces_ext l f g : (forall x, f x = g x) -> reproduces l g -> reproduces l f.
Proof. intros E R x y I; rewrite E; auto. Qed.
Lemma never_overshoots_ext l f g : (forall x, f x = g x) -> never_overshoots l g -> never_overshoots l f.
Proof. intros E R x0 y0 x1 y1 x N X; rewrite E; eauto. Qed.

Lemma chemical_interpolates t : StronglySorted (fun a b => nk_wavelength a < nk_wavelength b) t ->
  let nt := map (fun r => (nk_wavelength r, nk_n r)) t in
  let kt := map (fun r => (nk_wavelength r, nk_k r)) t in
  reproduces nt (index_refraction t) /\ never_overshoots nt (index_refraction t) /\
  reproduces kt (wavenumber t) /\ never_overshoots kt (wavenumber t).
Proof.
  intros S nt kt; pose proof (nk_increasing t nk_n S) as SN; pose proof (nk_increasing t nk_k S) as SK.
  repeat split.
  - eapply reproduces_ext; [intros; apply refraction_eq | apply npinterp_node, SN].
  - eapply never_overshoots_ext; [intros; apply refraction_eq | apply npinterp_between, SN].
  - eapply reproduces_ext; [intros; apply wavenumber_eq | apply npinterp_node, SK].
  - eapply never_overshoots_ext; [intros; apply wavenumber_eq | apply npinterp_between, SK].
Qed.

Lemma chemical_repeated l1 r l2 :
  StronglySorted (fun a b => nk_wavelength a <= nk_wavelength b) (l1 ++ r :: l2) ->
  (forall q, In q l2 -> nk_wavelength q <> nk_wavelength r) ->
  index_complex (l1 ++ r :: l2) (nk_wavelength r) = Some (nk_n r, nk_k r).
Proof.
  intros S N; pose proof (nk_nondecreasing _ nk_n S) as SN; pose proof (nk_nondecreasing _ nk_k S) as SK.
  apply index_complex_eq; unfold n_table, k_table; rewrite map_app in *; cbn [map] in *;
    apply npinterp_point; auto; intros c C; apply in_map_iff in C as (q & <- & Q); cbn; auto.
Qed.

Lemma chemical_range t w n k : StronglySorted (fun a b => nk_wavelength a <= nk_wavelength b) t ->
  index_complex t w = Some (n, k) ->
  (exists a b, In a t /\ In b t /\ nk_n a <= n <= nk_n b) /\
  (exists a b, In a t /\ In b t /\ nk_k a <= k <= nk_k b).
Proof.
  intros S; pose proof (nk_nondecreasing _ nk_n S) as SN; pose proof (nk_nondecreasing _ nk_k S) as SK.
  intros E; pose proof (refraction_eq t w) as EN; pose proof (wavenumber_eq t w) as EK.
  unfold index_refraction, wavenumber in *; rewrite E in *; cbn in *; symmetry in EN, EK.
  split.
  - destruct (npinterp_range _ _ _ SN EN) as (a & b & A & B & V).
    apply in_map_iff in A as (a' & <- & A), B as (b' & <- & B); cbn in V; eauto.
  - destruct (npinterp_range _ _ _ SK EK) as (a & b & A & B & V).
    apply in_map_iff in A as (a' & <- & A), B as (b' & <- & B); cbn in V; eauto.
Qed.

Lemma absorption_nonneg t w : StronglySorted (fun a b => nk_wavelength a <= nk_wavelength b) t ->
  t <> [] -> (forall r, In r t -> 0 <= nk_k r) -> 0 < w ->
  exists a, absorption t w = Some a /\ 0 <= a.
Proof.
  intros S N K W; unfold absorption; rewrite wavenumber_eq.
  destruct (npinterp_defined w (k_table t)) as [k E]; [destruct t; [congruence | discriminate]|].
  rewrite E; cbn; rewrite odiv_nz by lra; eexists; split; [reflexivity|].
  destruct (npinterp_range _ _ _ (nk_nondecreasing _ nk_k S) E) as (a & b & A & B & V).
  apply in_map_iff in A as (a' & <- & A); cbn in V; pose proof (K a' A); pose proof PI_RGT_0.
  apply Rmult_le_pos; [nra | left; apply Rinv_0_lt_compat, W].
Qed.

(** ** Files *)
Lemma append_inj_suffix (a b s : string) : (a ++ s = b ++ s)%string -> a = b.
Proof.
  assert (L : forall u v, String.length (u ++ v)%string = (String.length u + String.length v)%nat).
  { induction u as [|c u IH]; intros v; cbn; [reflexivity | rewrite IH; reflexivity]. }
  revert b; induction a as [|c a IH]; intros [|d b] E; cbn in *; auto.
  - apply (f_equal String.length) in E; cbn in E; rewrite L in E; lia.
  - apply (f_equal String.length) in E; cbn in E; rewrite L in E; lia.
  - injection E as -> E; f_equal; apply IH, E.
Qed.

Lemma split_at_underscore (a b s t : string) :
  ~ has_char "_" a -> ~ has_char "_" b -> (a ++ "_" ++ s = b ++ "_" ++ t)%string -> a = b /\ s = t.
Proof.
  revert b; induction a as [|c a IH]; intros [|d b] HA HB E; cbn in *.
  - injection E as ->; auto.
  - injection E as <- E; exfalso; apply HB; left; reflexivity.
  - injection E as -> E; exfalso; apply HA; left; reflexivity.
  - injection E as -> E; destruct (IH b) as [-> ->]; auto.
Qed.
Lemma no_underscore_suffix (a b s : string) : ~ has_char "_" a -> (a = b ++ "_" ++ s)%string -> False.
Proof.
  intros H ->; apply H; clear H; induction b; cbn; auto.
Qed.

Lemma file_nk_inj f1 a1 t1 f2 a2 t2 :
  ~ has_char "_" f1 -> ~ has_char "_" f2 -> ~ has_char "-" f1 -> ~ has_char "-" f2 ->
  file_nk f1 a1 t1 = file_nk f2 a2 t2 -> f1 = f2 /\ a1 = a2 /\ t1 = t2.
Proof.
  unfold file_nk; cbv zeta; intros U1 U2 D1 D2 E; apply append_inj_suffix in E.
  assert (DASH : forall f t u, ~ has_char "-" f -> ("a-" ++ u)%string <>
     match t with Some t => (f ++ "_" ++ t)%string | None => f end).
  { intros f t u D H; destruct f as [|c [|d f]]; cbn in *.
    - destruct t; discriminate.
    - destruct t as [t|]; [injection H as <- H; discriminate | discriminate].
    - apply D; right; left; destruct t; injection H; congruence. }
  assert (B : a1 = a2 /\ match t1 with Some t => (f1 ++ "_" ++ t)%string | None => f1 end
                      = match t2 with Some t => (f2 ++ "_" ++ t)%string | None => f2 end).
  { destruct a1, a2; cbn in *.
    - injection E as E; auto.
    - exfalso; eapply DASH; [exact D2 | exact E].
    - exfalso; eapply DASH; [exact D1 | symmetry; exact E].
    - auto. }
  destruct B as [-> B]; destruct t1 as [t1|], t2 as [t2|].
  - apply split_at_underscore in B as [-> ->]; auto.
  - exfalso; eapply no_underscore_suffix; [exact U2 | symmetry; exact B].
  - exfalso; eapply no_underscore_suffix; [exact U1 | exact B].
  - subst; auto.
Qed.

Lemma prefix_semicolon s : prefix ";" s = true <-> exists t, s = String ";" t.
Proof.
  destruct s as [|c t]; [split; [discriminate | intros [t E]; discriminate]|].
  change (prefix ";" (String c t)) with (if ascii_dec ";" c then prefix "" t else false).
  destruct (ascii_dec ";" c) as [<-|N].
  - split; [eauto | intros _; destruct t; reflexivity].
  - split; [discriminate | intros [u E]; injection E as E; congruence].
Qed.

Lemma header_skipped parse header body :
  (forall h, In h header -> exists t, h = String ";" t) ->
  (forall l t, In l body -> l <> String ";" t) ->
  load_table parse (header ++ body) = load_rows parse body.
Proof.
  intros H B; unfold load_table; f_equal.
  assert (E : skip_header (header ++ body) = List.length header).
  { induction header as [|h header IH]; cbn [app List.length skip_header].
    - destruct body as [|b body]; [reflexivity|]; cbn [skip_header].
      destruct (prefix ";" b) eqn:P; [|reflexivity].
      apply prefix_semicolon in P as [t ->]; exfalso; eapply B; [left; reflexivity | reflexivity].
    - rewrite (proj2 (prefix_semicolon h) (H h (or_introl eq_refl))).
      f_equal; apply IH; intros; apply H; right; assumption. }
  rewrite E, skipn_app, skipn_all, Nat.sub_diag; reflexivity.
Qed.

Lemma mirror_interpolates table normal (rays : R -> ray) : increasing table -> (forall w, r_wavelength (rays w) = w) ->
  let f := fun w => mat_efficiency (measured_mirror table) (rays w) normal in
  reproduces table f /\ never_overshoots table f.
Proof.
  intros S W f; assert (E : forall w, f w = npinterp w table).
  { intros w; unfold f, measured_mirror; cbn; rewrite W; apply interp_eq, S. }
  split; [eapply reproduces_ext; [exact E | apply npinterp_node, S]
         | eapply never_overshoots_ext; [exact E | apply npinterp_between, S]].
Qed.

Lemma outside_constant x0 y0 x1 y1 middle x :
  nondecreasing ((x0, y0) :: middle ++ [(x1, y1)]) ->
  (x < x0 -> effective_area ((x0, y0) :: middle ++ [(x1, y1)]) x = Some y0) /\
  (x1 <= x -> effective_area ((x0, y0) :: middle ++ [(x1, y1)]) x = Some y1).
Proof.
  intros S; split; intros X; unfold effective_area.
  - apply npinterp_below; assumption.
  - change ((x0, y0) :: middle ++ [(x1, y1)]) with (((x0, y0) :: middle) ++ [(x1, y1)])%list.
    apply npinterp_above; assumption.
Qed.

Lemma header_and_rows parse header body :
  (forall h, In h header -> exists t, h = String ";" t) ->
  (forall l t, In l body -> l <> String ";" t) ->
  load_table parse (header ++ body) = load_rows parse body /\
  (forall rows, load_rows parse body = Some rows <-> map parse body = map Some rows).
Proof.
  intros H B; split; [apply header_skipped; assumption|]; clear H B.
  induction body as [|l body IH]; intros rows; cbn.
  - destruct rows; cbn; split; congruence.
  - destruct (parse l) as [r|]; cbn.
    + destruct (load_rows parse body) as [rs|] eqn:L; cbn.
      * destruct rows as [|q rows]; cbn; [split; discriminate|].
        split; [intros [= -> ->]; f_equal; apply IH; reflexivity|].
        intros [= -> E]; f_equal; f_equal; apply IH in E; congruence.
      * split; [discriminate|]; destruct rows as [|q rows]; cbn; [discriminate|].
        intros [= -> E]; apply IH in E; discriminate.
    + split; [discriminate|]; destruct rows; discriminate.
Qed.
