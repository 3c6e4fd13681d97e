From Coq Require Import Reals Lra Lia List Sorting.Sorted QArith Qreals Bool.
From Coquelicot Require Import Coquelicot.
From Verif Require Import Num NumLemmas TableModel TableSpec TableProofs ChemicalData ChemicalModel ChemicalSpec.
Import ListNotations.
Open Scope R_scope.
Open Scope opt_scope.

(** ** Continuity of interpolation *)
Definition clamp (x a b : R) : R := (x + b - Rabs (x - b) + 2 * a + Rabs (x + b - Rabs (x - b) - 2 * a)) / 4.
Lemma clamp_value x a b : a <= b -> clamp x a b = Rmax a (Rmin x b).
Proof.
  intros L. unfold clamp, Rmin. destruct (Rle_dec x b) as [X | X].
  - rewrite (Rabs_left1 (x - b)) by lra. unfold Rmax. destruct (Rle_dec a x).
    + rewrite Rabs_pos_eq by lra. lra.
    + rewrite Rabs_left1 by lra. lra.
  - rewrite (Rabs_pos_eq (x - b)) by lra. unfold Rmax. destruct (Rle_dec a b); [|lra]. rewrite Rabs_pos_eq by lra. lra.
Qed.
Lemma abs_continuity f : continuity f -> continuity (fun x => Rabs (f x)).
Proof. intros F. exact (continuity_comp f Rabs F Rcontinuity_abs). Qed.
Lemma const_continuity c : continuity (fun _ => c).
Proof. apply continuity_const. intros x y. reflexivity. Qed.
Lemma id_continuity : continuity (fun x => x).
Proof. exact (derivable_continuous id derivable_id). Qed.
Lemma plus_continuity f g : continuity f -> continuity g -> continuity (fun x => f x + g x).
Proof. exact (continuity_plus f g). Qed.
Lemma minus_continuity f g : continuity f -> continuity g -> continuity (fun x => f x - g x).
Proof. exact (continuity_minus f g). Qed.
Lemma scal_continuity c f : continuity f -> continuity (fun x => c * f x).
Proof. exact (continuity_scal f c). Qed.
Lemma continuity_same f g : (forall x, f x = g x) -> continuity f -> continuity g.
Proof. intros E F x. apply (continuity_pt_ext f); auto. Qed.
Lemma clamp_continuity a b : continuity (fun x => clamp x a b).
Proof.
  assert (M : continuity (fun x => x + b - Rabs (x - b))).
  { apply minus_continuity; [apply plus_continuity; [apply id_continuity | apply const_continuity]|].
    apply abs_continuity, minus_continuity; [apply id_continuity | apply const_continuity]. }
  apply (continuity_same (fun x => / 4 * ((x + b - Rabs (x - b)) + 2 * a + Rabs (x + b - Rabs (x - b) - 2 * a)))).
  { intros x. unfold clamp. field. }
  apply scal_continuity, plus_continuity; [apply plus_continuity; [exact M | apply const_continuity]|].
  apply abs_continuity, minus_continuity; [exact M | apply const_continuity].
Qed.

Definition from_start (x0 y0 : R) (l : list (R * R)) (x : R) : R := if Rlt_dec x x0 then y0 else npinterp_from x x0 y0 l.
Lemma from_start_continuity l : forall x0 y0, increasing ((x0, y0) :: l) -> continuity (from_start x0 y0 l).
Proof.
  induction l as [|[x1 y1] l IH]; intros x0 y0 S.
  - apply (continuity_same (fun _ => y0)); [|apply const_continuity].
    intros x. unfold from_start. cbn. destruct (Rlt_dec x x0); reflexivity.
  - inversion S as [|? ? S' F]; subst. inversion F as [|? ? L _]; subst. cbn in L.
    apply (continuity_same (fun x => y0 + ((y1 - y0) / (x1 - x0) * (clamp x x0 x1 - x0) + (from_start x1 y1 l x - y1)))).
    + intros x. rewrite clamp_value by lra. unfold from_start. cbn [npinterp_from]. unfold Rmax, Rmin.
      destruct (Rlt_dec x x0), (Rlt_dec x x1), (Rle_dec x x1); try lra;
        repeat match goal with |- context [Rle_dec ?a ?b] => destruct (Rle_dec a b); try lra end; try (field; lra).
      assert (x = x1) by lra. subst x. field. lra.
    + apply plus_continuity; [apply const_continuity|]. apply plus_continuity.
      * apply scal_continuity, minus_continuity; [apply clamp_continuity | apply const_continuity].
      * apply minus_continuity; [apply IH, S' | apply const_continuity].
Qed.

Lemma index_continuous : forall table, table <> [] ->
  StronglySorted (fun a b => nk_wavelength a < nk_wavelength b) table -> continuous_index (index_complex table).
Proof.
  intros [|[w n k] t] N S; [congruence|].
  exists (from_start w n (n_table t)), (from_start w k (k_table t)). split; [|split].
  - apply from_start_continuity, (nk_increasing _ nk_n S).
  - apply from_start_continuity, (nk_increasing _ nk_k S).
  - intros x. reflexivity.
Qed.

Lemma sorted_weak table : StronglySorted (fun a b => nk_wavelength a < nk_wavelength b) table ->
  StronglySorted (fun a b => nk_wavelength a <= nk_wavelength b) table.
Proof.
  induction 1 as [|a l S IH F]; constructor; auto. eapply List.Forall_impl; [|exact F]. cbn. intros; lra.
Qed.

(** A repeated wavelength with another index *)
Lemma index_jump : forall before a b c after,
  StronglySorted (fun a b => nk_wavelength a <= nk_wavelength b) (before ++ a :: b :: c :: after) ->
  nk_wavelength a < nk_wavelength b -> nk_wavelength b = nk_wavelength c -> nk_n b <> nk_n c ->
  (forall r, In r after -> nk_wavelength r <> nk_wavelength c) ->
  ~ continuous_index (index_complex (before ++ a :: b :: c :: after)).
Proof.
  intros before [x0 y0 z0] [x1 y1 z1] [x2 y2 z2] after. cbn [nk_wavelength nk_n]. intros S L <- D N (f & g & F & _ & E).
  assert (V : f x1 = y2).
  { assert (R := E x1). replace (before ++ mkNk x0 y0 z0 :: mkNk x1 y1 z1 :: mkNk x1 y2 z2 :: after)
      with ((before ++ [mkNk x0 y0 z0; mkNk x1 y1 z1]) ++ mkNk x1 y2 z2 :: after) in R by (rewrite <- app_assoc; reflexivity).
    assert (Q := chemical_repeated (before ++ [mkNk x0 y0 z0; mkNk x1 y1 z1]) (mkNk x1 y2 z2) after). cbn [nk_wavelength nk_n nk_k] in Q.
    rewrite Q in R; [congruence | rewrite <- app_assoc; exact S | exact N]. }
  assert (LINE : forall x, x0 <= x < x1 -> f x = (y1 - y0) / (x1 - x0) * (x - x0) + y0).
  { intros x X. assert (R := E x). assert (SN := nk_nondecreasing _ nk_n S). rewrite map_app in SN. cbn [map nk_wavelength nk_n] in SN.
    assert (P := npinterp_line x _ x0 y0 x1 y1 _ SN X).
    assert (Q := refraction_eq (before ++ mkNk x0 y0 z0 :: mkNk x1 y1 z1 :: mkNk x1 y2 z2 :: after) x).
    unfold index_refraction, n_table in Q. rewrite R, map_app in Q. cbn [map nk_wavelength nk_n omap fst] in Q. rewrite P in Q.
    injection Q as Q. exact Q. }
  set (e := Rabs (y1 - y2)). assert (E0 : 0 < e) by (apply Rabs_pos_lt; lra).
  destruct (F x1 (e / 2) ltac:(unfold Rgt; lra)) as (d & D0 & H).
  set (s := (y1 - y0) / (x1 - x0)).
  set (h := Rmin (d / 2) (Rmin (x1 - x0) (e / 4 / (Rabs s + 1)))).
  assert (A0 := Rabs_pos s).
  assert (Q0 : 0 < e / 4 / (Rabs s + 1)) by (apply Rdiv_lt_0_compat; lra).
  assert (H1 : h <= d / 2) by apply Rmin_l.
  assert (H2 : h <= x1 - x0) by (eapply Rle_trans; [apply Rmin_r | apply Rmin_l]).
  assert (H3 : h <= e / 4 / (Rabs s + 1)) by (eapply Rle_trans; [apply Rmin_r | apply Rmin_r]).
  assert (H0 : 0 < h) by (unfold h; repeat apply Rmin_glb_lt; lra).
  assert (B : Rabs (f (x1 - h) - f x1) < e / 2).
  { apply H. split; [split; [exact I | lra]|]. cbn. unfold R_dist. replace (x1 - h - x1) with (- h) by ring.
    rewrite Rabs_Ropp, Rabs_pos_eq; lra. }
  rewrite V, LINE in B by lra. fold s in B.
  replace (s * (x1 - h - x0) + y0 - y2) with ((y1 - y2) - s * h) in B by (unfold s; field; lra).
  assert (T : Rabs (s * h) <= e / 4).
  { rewrite Rabs_mult, (Rabs_pos_eq h) by lra. apply Rle_trans with ((Rabs s + 1) * h); [nra|].
    apply Rle_trans with ((Rabs s + 1) * (e / 4 / (Rabs s + 1))); [apply Rmult_le_compat_l; lra|]. right. field. lra. }
  assert (G := Rabs_triang_inv (y1 - y2) (s * h)). fold e in G. lra.
Qed.

(** ** Sign of an interpolated quantity *)
Lemma positive_from X w l : forall x0 y0, 0 < y0 -> x0 <= w < X ->
  (forall p, In p l -> 0 <= snd p /\ (fst p < X -> 0 < snd p)) -> 0 < npinterp_from w x0 y0 l.
Proof.
  induction l as [|[x1 y1] l IH]; intros x0 y0 Y W H; [exact Y|]. cbn.
  destruct (H (x1, y1) (or_introl eq_refl)) as [A B]. cbn in A, B. destruct (Rlt_dec w x1) as [L | L].
  - set (q := (w - x0) / (x1 - x0)). replace ((y1 - y0) / (x1 - x0) * (w - x0) + y0) with (y0 * (1 - q) + y1 * q) by (unfold q; field; lra).
    assert (Q : 0 <= q < 1).
    { unfold q. split; [apply Rmult_le_pos; [lra | left; apply Rinv_0_lt_compat; lra]|].
      apply Rmult_lt_reg_r with (x1 - x0); [lra|]. unfold Rdiv. rewrite Rmult_assoc, Rinv_l by lra. lra. }
    nra.
  - apply IH; [apply B; lra | lra | intros p P; apply H; right; exact P].
Qed.
Lemma positive_before X w x0 y0 l : x0 < X -> w < X ->
  (forall p, In p ((x0, y0) :: l) -> 0 <= snd p /\ (fst p < X -> 0 < snd p)) -> exists v, npinterp w ((x0, y0) :: l) = Some v /\ 0 < v.
Proof.
  intros X0 W H. cbn [npinterp]. eexists. split; [reflexivity|].
  destruct (H (x0, y0) (or_introl eq_refl)) as [_ B]. cbn in B.
  destruct (Rlt_dec w x0); [apply B, X0|]. apply (positive_from X); [apply B, X0 | lra | intros p P; apply H; right; exact P].
Qed.

(** A convex property of the values between two of the wavelengths *)
Definition convex (P : R -> Prop) : Prop := forall a b t, P a -> P b -> 0 <= t <= 1 -> P ((b - a) * t + a).
Lemma convex_from P X1 X2 w l : convex P -> forall x0 y0, increasing ((x0, y0) :: l) -> X1 <= w <= X2 -> x0 <= w ->
  (forall p, In p ((x0, y0) :: l) -> X1 <= fst p <= X2 -> P (snd p)) ->
  (X1 <= x0 \/ In X1 (map fst l)) -> In X2 (map fst ((x0, y0) :: l)) -> P (npinterp_from w x0 y0 l).
Proof.
  intros CV. induction l as [|[x1 y1] l IH]; intros x0 y0 S W X Z I1 I2.
  - destruct I1 as [I1 | []]. cbn in I2. destruct I2 as [I2 | []]. cbn. apply (Z (x0, y0) (or_introl eq_refl)). cbn. lra.
  - inversion S as [|? ? S' F]; subst. inversion F as [|? ? L F']; subst. cbn in L. rewrite List.Forall_forall in F.
    assert (AFTER : forall x, In x (map fst ((x1, y1) :: l)) -> x1 <= x).
    { intros x Q. apply in_map_iff in Q as (p & <- & P'). destruct P' as [<- | P']; [cbn; lra|].
      inversion S' as [|? ? _ F2]; subst. rewrite List.Forall_forall in F2. specialize (F2 p P'). cbn in F2. lra. }
    cbn. destruct (Rlt_dec w x1) as [C | C].
    + assert (B1 : X1 <= x0) by (destruct I1 as [I1 | I1]; [exact I1 | specialize (AFTER _ I1); lra]).
      assert (Y0 : P y0) by (apply (Z (x0, y0) (or_introl eq_refl)); cbn; lra).
      destruct I2 as [I2 | I2].
      * cbn in I2. assert (w = x0) by lra. subst w. replace ((y1 - y0) / (x1 - x0) * (x0 - x0) + y0) with y0 by (field; lra). exact Y0.
      * specialize (AFTER _ I2). assert (Y1 : P y1) by (apply (Z (x1, y1) (or_intror (or_introl eq_refl))); cbn; lra).
        replace ((y1 - y0) / (x1 - x0) * (w - x0) + y0) with ((y1 - y0) * ((w - x0) / (x1 - x0)) + y0) by (field; lra).
        apply CV; [exact Y0 | exact Y1|]. split; [apply Rmult_le_pos; [lra | left; apply Rinv_0_lt_compat; lra]|].
        apply Rmult_le_reg_r with (x1 - x0); [lra|]. unfold Rdiv. rewrite Rmult_assoc, Rinv_l by lra. lra.
    + apply IH; auto; [lra | intros p P'; apply Z; right; exact P' | | ].
      * destruct I1 as [I1 | [I1 | I1]]; [left; lra | left; cbn in I1; lra | right; exact I1].
      * destruct I2 as [I2 | I2]; [cbn in I2; lra | exact I2].
Qed.
Lemma convex_between P X1 X2 w l v : convex P -> increasing l -> X1 <= w <= X2 -> (forall p, In p l -> X1 <= fst p <= X2 -> P (snd p)) ->
  In X1 (map fst l) -> In X2 (map fst l) -> npinterp w l = Some v -> P v.
Proof.
  destruct l as [|[x0 y0] l]; intros CV S W Z I1 I2; [destruct I1|]. cbn [npinterp]. intros [= <-].
  assert (X0 : x0 <= X1).
  { destruct I1 as [<- | I1]; [cbn; lra|]. inversion S as [|? ? _ F]; subst. rewrite List.Forall_forall in F.
    apply in_map_iff in I1 as (p & <- & P'). specialize (F p P'). cbn in F. lra. }
  destruct (Rlt_dec w x0); [lra|]. apply (convex_from P X1 X2); auto; [lra|].
  destruct I1 as [I1 | I1]; [left; cbn in I1; lra | right; exact I1].
Qed.

(** ** Checking the tables *)
Definition Qlt_b (a b : Q) : bool := negb (Qle_bool b a).
Lemma Qlt_b_R a b : Qlt_b a b = true -> Q2R a < Q2R b.
Proof.
  unfold Qlt_b. rewrite negb_true_iff. intros H. apply Qlt_Rlt. apply Qnot_le_lt. intros L. apply Qle_bool_iff in L. congruence.
Qed.
Lemma Qle_b_R a b : Qle_bool a b = true -> Q2R a <= Q2R b.
Proof. intros H. apply Qle_Rle, Qle_bool_iff, H. Qed.
Lemma Q_b_not a b : Qlt_b a b = false -> Q2R b <= Q2R a.
Proof. unfold Qlt_b. rewrite negb_false_iff. apply Qle_b_R. Qed.

Definition row_w (d : chemical_row) : Q := fst (fst d).
Definition row_n (d : chemical_row) : Q := snd (fst d).
Definition row_k (d : chemical_row) : Q := snd d.
Lemma nk_w d : nk_wavelength (nk_of_data d) = Q2R (row_w d). Proof. destruct d as [[a b] c]. reflexivity. Qed.
Lemma nk_n_ d : nk_n (nk_of_data d) = Q2R (row_n d). Proof. destruct d as [[a b] c]. reflexivity. Qed.
Lemma nk_k_ d : nk_k (nk_of_data d) = Q2R (row_k d). Proof. destruct d as [[a b] c]. reflexivity. Qed.

Fixpoint ordered (lt : Q -> Q -> bool) (l : list chemical_row) : bool :=
  match l with
  | a :: (b :: _) as rest => lt (row_w a) (row_w b) && ordered lt rest
  | _ => true
  end.
Lemma ordered_sorted (lt : Q -> Q -> bool) (P : R -> R -> Prop) l :
  (forall a b, lt a b = true -> P (Q2R a) (Q2R b)) -> (forall a b c, P a b -> P b c -> P a c) ->
  ordered lt l = true -> StronglySorted (fun a b => P (nk_wavelength a) (nk_wavelength b)) (map nk_of_data l).
Proof.
  intros H T O. apply Sorted_StronglySorted; [intros a b c; apply T|].
  induction l as [|a l IH]; [constructor|]. destruct l as [|b l].
  - cbn. constructor; constructor.
  - cbn [ordered] in O. apply andb_true_iff in O as [O1 O2]. specialize (IH O2). cbn [map] in *. constructor; [exact IH|].
    constructor. rewrite !nk_w. apply H, O1.
Qed.

Definition within_b (n0 n1 k0 k1 : Q) (d : chemical_row) : bool :=
  Qle_bool n0 (row_n d) && Qle_bool (row_n d) n1 && Qle_bool k0 (row_k d) && Qle_bool (row_k d) k1.
Lemma within_rows n0 n1 k0 k1 l : forallb (within_b n0 n1 k0 k1) l = true ->
  forall r, In r (map nk_of_data l) -> Q2R n0 <= nk_n r <= Q2R n1 /\ Q2R k0 <= nk_k r <= Q2R k1.
Proof.
  rewrite forallb_forall. intros H r I. apply in_map_iff in I as (d & <- & I). specialize (H d I). unfold within_b in H.
  rewrite !andb_true_iff in H. destruct H as [[[A B] C] D]. rewrite nk_n_, nk_k_. auto using Qle_b_R.
Qed.
Lemma index_defined t w : t <> [] -> exists n k, index_complex t w = Some (n, k).
Proof.
  intros N. destruct (npinterp_defined w (n_table t)) as [n E]; [destruct t; [congruence | discriminate]|].
  destruct (npinterp_defined w (k_table t)) as [k F]; [destruct t; [congruence | discriminate]|].
  exists n, k. apply index_complex_eq; assumption.
Qed.
Lemma within_table n0 n1 k0 k1 l : l <> [] -> ordered Qlt_b l = true -> forallb (within_b n0 n1 k0 k1) l = true ->
  index_within (index_complex (map nk_of_data l)) (Q2R n0) (Q2R n1) (Q2R k0) (Q2R k1).
Proof.
  intros N O W w. destruct (index_defined (map nk_of_data l) w) as (n & k & E); [destruct l; [congruence | discriminate]|].
  exists n, k. split; [exact E|].
  assert (S := ordered_sorted Qlt_b Rlt l Qlt_b_R Rlt_trans O).
  destruct (chemical_range _ w n k (sorted_weak _ S) E) as ((a & b & A & B & V) & (c & d & C & D & U)).
  assert (H := within_rows _ _ _ _ _ W). destruct (H a A), (H b B), (H c C), (H d D). lra.
Qed.

Lemma silicon_ordered : ordered Qlt_b silicon_data = true.
Proof. vm_compute. reflexivity. Qed.
Lemma oxide_ordered : ordered Qlt_b oxide_data = true.
Proof. vm_compute. reflexivity. Qed.
Lemma palik_ordered : ordered Qle_bool palik_data = true.
Proof. vm_compute. reflexivity. Qed.
Lemma silicon_ranges : forallb (within_b (0.255)%Q (6.829)%Q 0%Q (5.439)%Q) silicon_data = true.
Proof. vm_compute. reflexivity. Qed.
Lemma oxide_ranges : forallb (within_b (0.819896)%Q (2.027361)%Q (34588157#10000000000000000000)%Q (0.742378)%Q) oxide_data = true.
Proof. vm_compute. reflexivity. Qed.
Definition absorbs_b (X : Q) (d : chemical_row) : bool :=
  Qle_bool 0 (row_k d) && (Qle_bool X (row_w d) || Qlt_b 0 (row_k d)).
Lemma silicon_absorbs_rows : forallb (absorbs_b (11199.6)%Q) silicon_data = true.
Proof. vm_compute. reflexivity. Qed.
Definition clear_b (X1 X2 : Q) (d : chemical_row) : bool :=
  Qlt_b (row_w d) X1 || Qlt_b X2 (row_w d) || (Qeq_bool (row_k d) 0 && Qle_bool 3 (row_n d)).
Lemma silicon_clear_rows : forallb (clear_b (11199.6)%Q (25001)%Q) silicon_data = true.
Proof. vm_compute. reflexivity. Qed.
Lemma silicon_has_ends : existsb (fun d => Qeq_bool (row_w d) (11199.6)%Q) silicon_data = true /\
  existsb (fun d => Qeq_bool (row_w d) 25001%Q) silicon_data = true.
Proof. vm_compute. split; reflexivity. Qed.
Definition data_first (d : chemical_row) (l : list chemical_row) : Q := row_w (hd d l).
Lemma silicon_first : exists d l, silicon_data = d :: l /\ Qlt_b (row_w d) (11199.6)%Q = true.
Proof. eexists _, _. split; [vm_compute; reflexivity|]. vm_compute. reflexivity. Qed.
