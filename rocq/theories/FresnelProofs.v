(** The transfer matrices of lossless coatings are the characteristic matrices of the textbooks. *)
From Coq Require Import Reals Lra Psatz List Bool Arith ZArith Lia.
From Coquelicot Require Import Coquelicot.
From Verif Require Import Num NumLemmas ComplexModel ComplexLemmas ProfileModel LayerModel LayerSpec LayerProofs LayerTrivialProofs
  LayerCaseProofs EnergyProofs AbsorbanceProofs StackSpec StackProofs FresnelSpec.
Import ListNotations.
Open Scope C_scope.
Open Scope opt_scope.

Lemma angle_cos : forall k n th, wave_angle k n th -> (0 < cos th)%R.
Proof. intros k n th (N & T & S). apply cos_gt_0; lra. Qed.

Lemma tilted_pos : forall s k n th, wave_angle k n th -> (0 < tilted s n th)%R.
Proof.
  intros s k n th W. assert (C := angle_cos k n th W). destruct W as (N & _). unfold tilted. destruct s.
  - apply Rmult_lt_0_compat; assumption.
  - apply Rdiv_lt_0_compat; assumption.
Qed.

Lemma angle_k : forall k n th, wave_angle k n th -> (n ^ 2 * (1 - cos th ^ 2) = k ^ 2)%R.
Proof. intros k n th (N & T & S). assert (X := sin2_cos2 th). unfold Rsqr in X. rewrite <- S. nra. Qed.

Lemma angle_tangential : forall k n th, wave_angle k n th -> RtoC n * RtoC n * (1 - RtoC (cos th) * RtoC (cos th)) = RtoC (k ^ 2).
Proof. intros k n th W. rewrite <- (angle_k k n th W). cring. Qed.

Lemma angle_refracts : forall k n th m ph, wave_angle k n th -> wave_angle k m ph ->
  refracts (RtoC n) (RtoC (cos th)) (RtoC m) (RtoC (cos ph)).
Proof.
  intros k n th m ph W V. split.
  - rewrite (angle_tangential k n th W), (angle_tangential k m ph V). reflexivity.
  - left. exact (angle_cos k m ph V).
Qed.

Lemma angle_critical : forall k n th, wave_angle k n th -> off_critical (RtoC (k ^ 2)) (RtoC n).
Proof.
  intros k n th W E. rewrite <- RtoC_mult in E. apply RtoC_inj in E. rewrite <- (angle_k k n th W) in E.
  assert (C := angle_cos k n th W). destruct W as (N & _).
  assert (0 < n * cos th)%R by (apply Rmult_lt_0_compat; assumption). nra.
Qed.

Lemma admittance_real : forall s n th, (0 < n)%R -> admittance s (RtoC n) (RtoC (cos th)) = RtoC (tilted s n th).
Proof.
  intros s n th N. unfold admittance, tilted. destruct s; [cring|]. rewrite RtoC_div by lra. reflexivity.
Qed.

(** ** The fields *)
Lemma unit_fields : forall s k q plates, List.Forall (fun p => wave_angle k (pl_n p) (pl_angle p)) plates ->
  let '(E, H) := front_fields s q plates in Re (E * Cconj H) = q.
Proof.
  induction plates as [|p rest IH]; intros F; cbn [front_fields].
  - cparts. ring.
  - inversion F as [|? ? W F']; subst. specialize (IH F'). destruct (front_fields s q rest) as [E H].
    assert (Y := tilted_pos s k _ _ W). unfold plate_tilted. set (y := tilted s (pl_n p) (pl_angle p)) in *.
    assert (X := sin2_cos2 (pl_phase p)). unfold Rsqr in X.
    rewrite <- IH. rewrite <- (Rmult_1_l (Re (E * Cconj H))). rewrite <- X. destruct E as [e1 e2], H as [h1 h2].
    unfold Cdiv. cparts. cbn. field. lra.
Qed.

Lemma denominator : forall q0 (E H : C), (0 < q0)%R -> (0 < Re (E * Cconj H)%C)%R -> RtoC q0 * E + H <> 0.
Proof.
  intros q0 E H Q P Z. assert (EH : H = - (RtoC q0 * E)) by (transitivity (RtoC q0 * E + H - RtoC q0 * E); [ring | rewrite Z; ring]).
  subst H. revert P. cparts. nra.
Qed.

(** Euler's formula for the phase of a plate. *)
Lemma cexp_phase : forall x, cexp (Ci * RtoC x) = RtoC (cos x) + Ci * RtoC (sin x) /\
  cexp (- Ci * RtoC x) = RtoC (cos x) - Ci * RtoC (sin x).
Proof.
  intros x. unfold cexp. split; apply C_eq; cbn.
  - replace (0 * x - 1 * 0)%R with 0%R by ring. rewrite exp_0. replace (0 * 0 + 1 * x)%R with x by ring. ring.
  - replace (0 * x - 1 * 0)%R with 0%R by ring. rewrite exp_0. replace (0 * 0 + 1 * x)%R with x by ring. ring.
  - replace (- 0 * x - - (1) * 0)%R with 0%R by ring. rewrite exp_0. replace (- 0 * 0 + - (1) * x)%R with (- x)%R by ring. rewrite cos_neg. ring.
  - replace (- 0 * x - - (1) * 0)%R with 0%R by ring. rewrite exp_0. replace (- 0 * 0 + - (1) * x)%R with (- x)%R by ring. rewrite sin_neg. ring.
Qed.

Lemma plates_field : forall wl s k sub ns ths, wave_angle k ns ths -> layer_n sub wl = RtoC ns ->
  forall ls plates, Forall2 (is_plate wl k) ls plates -> forall n th, wave_angle k n th -> forall A B t : C,
  A + B = fst (front_fields s (tilted s ns ths) plates) * t ->
  RtoC (tilted s n th) * (A - B) = snd (front_fields s (tilted s ns ths) plates) * t ->
  stack_field wl s (RtoC n) (RtoC (cos th)) A B ls sub t.
Proof.
  intros wl s k sub ns ths WS NS ls plates F. induction F as [|l p ls plates P F IH]; intros n th W A B t EA EB.
  - cbn [front_fields fst snd] in EA, EB. cbn [stack_field]. exists (RtoC (cos ths)). rewrite NS.
    split; [exact (angle_refracts k n th ns ths W WS)|].
    destruct W as (N & _). destruct WS as (M & _). rewrite !admittance_real by assumption. split.
    + rewrite EA. ring.
    + rewrite EB. ring.
  - destruct P as (LN & LI & LT & V & PH). cbn [front_fields] in EA, EB.
    destruct (front_fields s (tilted s ns ths) plates) as [E H] eqn:FE. cbn [fst snd] in EA, EB, IH.
    assert (Y := tilted_pos s k _ _ V). unfold plate_tilted in EA, EB. set (y := tilted s (pl_n p) (pl_angle p)) in *.
    assert (Y0 : RtoC y <> 0) by (apply RtoC_neq_0; lra).
    set (a := (E + H / RtoC y) * t / 2). set (b := (E - H / RtoC y) * t / 2).
    destruct (cexp_phase (pl_phase p)) as [X1 X2].
    assert (PE : phase wl l (RtoC (cos (pl_angle p))) = RtoC (pl_phase p)).
    { unfold phase. rewrite LN, PH. apply C_eq; cparts; unfold Rdiv; ring. }
    cbn [stack_field]. exists (RtoC (cos (pl_angle p))), (cexp (- Ci * RtoC (pl_phase p)) * a), (cexp (Ci * RtoC (pl_phase p)) * b).
    rewrite LN, PE. split; [exact (angle_refracts k n th _ _ W V)|].
    assert (N : (0 < n)%R) by (destruct W; assumption). assert (M : (0 < pl_n p)%R) by (destruct V; assumption).
    rewrite !admittance_real by assumption. fold y. split.
    + assert (T : (2 : C) = 1 + 1) by cring. assert (T0 : (1 : C) + 1 <> 0) by (rewrite <- T; exact C2_neq_0).
      split; [rewrite EA | rewrite EB]; rewrite X1, X2; unfold a, b; rewrite T; field; split; assumption.
    + assert (U := cexp_opp (Ci * RtoC (pl_phase p))).
      assert (U' : cexp (- Ci * RtoC (pl_phase p)) = cexp (- (Ci * RtoC (pl_phase p)))) by (f_equal; ring).
      rewrite <- U' in U.
      replace (cexp (- Ci * RtoC (pl_phase p)) * a * cexp (Ci * RtoC (pl_phase p)))
        with (cexp (Ci * RtoC (pl_phase p)) * cexp (- Ci * RtoC (pl_phase p)) * a) by ring.
      replace (cexp (Ci * RtoC (pl_phase p)) * b * cexp (- Ci * RtoC (pl_phase p)))
        with (cexp (Ci * RtoC (pl_phase p)) * cexp (- Ci * RtoC (pl_phase p)) * b) by ring.
      rewrite U. apply (IH _ _ V); fold y; unfold a, b.
      * assert (T : (2 : C) = 1 + 1) by cring. assert (T0 : (1 : C) + 1 <> 0) by (rewrite <- T; exact C2_neq_0). rewrite T. field. first [assumption | split; assumption].
      * assert (T : (2 : C) = 1 + 1) by cring. assert (T0 : (1 : C) + 1 <> 0) by (rewrite <- T; exact C2_neq_0). rewrite T. field. first [assumption | split; assumption].
Qed.

(** ** The efficiency *)
Lemma plate_ideal : forall wl n0 th0 l p, wave_angle (n0 * sin th0) n0 th0 -> is_plate wl (n0 * sin th0) l p ->
  lossless (layer_n l wl) /\ (0 <= ly_thickness l)%R /\ ly_interface l = None /\
  off_critical (RtoC (n0 ^ 2 * (1 - cos th0 ^ 2))) (layer_n l wl).
Proof.
  intros wl n0 th0 l p W (LN & LI & LT & V & _). rewrite LN. rewrite (angle_k _ _ _ W).
  split; [split; [destruct V; assumption | reflexivity]|]. split; [exact LT|]. split; [exact LI|]. exact (angle_critical _ _ _ V).
Qed.

Lemma layers_of_map : forall ls, layers_of (ASequence (map ALayer ls)) = ls.
Proof. intros ls. rewrite layers_all, map_map. induction ls as [|l ls IH]; [reflexivity|]. cbn. f_equal. exact IH. Qed.

Lemma periods_map : forall ls, periods_positive (ASequence (map ALayer ls)).
Proof. intros ls. apply periods_all. rewrite List.Forall_forall. intros x I. apply in_map_iff in I. destruct I as (l & <- & _). exact I. Qed.

Lemma Forall2_left : forall {A B} (R : A -> B -> Prop) (P : A -> Prop) l m, (forall a b, R a b -> P a) -> Forall2 R l m -> List.Forall P l.
Proof. intros A B R P l m H F. induction F; constructor; eauto. Qed.
Lemma Forall2_right : forall {A B} (R : A -> B -> Prop) (P : B -> Prop) l m, (forall a b, R a b -> P b) -> Forall2 R l m -> List.Forall P m.
Proof. intros A B R P l m H F. induction F; constructor; eauto. Qed.

Lemma plates_ideal : forall wl n0 th0 ls plates sub ns ths, (0 < wl)%R -> wave_angle (n0 * sin th0) n0 th0 ->
  Forall2 (is_plate wl (n0 * sin th0)) ls plates -> wave_angle (n0 * sin th0) ns ths ->
  layer_n sub wl = RtoC ns -> ly_interface sub = None ->
  ideal_stack lossless wl n0 (cos th0) (ASequence (map ALayer ls)) (Some sub).
Proof.
  intros wl n0 th0 ls plates sub ns ths WL W F V SN SI.
  split; [destruct W; assumption|]. split; [split; [exact (angle_cos _ _ _ W) | apply COS_bound]|]. split; [exact WL|].
  split; [apply periods_map|]. rewrite layers_of_map. constructor.
  - cbn [substrate_layer ly_thickness ly_interface]. change (layer_n (Layer (ly_chemical sub) 0 (ly_interface sub)) wl) with (layer_n sub wl). rewrite SN.
    split; [split; [destruct V; assumption | reflexivity]|]. split; [lra|]. split; [exact SI|]. rewrite (angle_k _ _ _ W). exact (angle_critical _ _ _ V).
  - apply (Forall2_left _ _ _ _ (fun a b => plate_ideal wl n0 th0 a b W) F).
Qed.

Lemma real_root : forall k n th (c : C), wave_angle k n th -> RtoC n * RtoC n * (1 - c * c) = RtoC (k ^ 2) -> Im c = 0%R.
Proof.
  intros k n th [a b] W E. rewrite <- (angle_k k n th W) in E. assert (C := angle_cos k n th W). destruct W as (N & _).
  apply (f_equal Re) in E as E1. apply (f_equal Im) in E as E2. revert E1 E2. cparts. cbn. intros E1 E2.
  assert (P : (0 < n * n)%R) by nra. assert (AB : (a * b = 0)%R) by nra.
  assert (D : (a * a - b * b = cos th ^ 2)%R) by nra.
  destruct (Rmult_integral _ _ AB) as [-> | ->]; [exfalso; nra | reflexivity].
Qed.

Lemma lossless_passive : forall n, lossless n -> passive n.
Proof. intros n [P Q]. split; [exact P | rewrite Q; lra]. Qed.

Lemma plates_efficiency : forall wl s n0 th0 ls plates sub ns ths, (0 < wl)%R -> wave_angle (n0 * sin th0) n0 th0 ->
  Forall2 (is_plate wl (n0 * sin th0)) ls plates -> wave_angle (n0 * sin th0) ns ths ->
  layer_n sub wl = RtoC ns -> ly_interface sub = None ->
  let q0 := tilted s n0 th0 in let q := tilted s ns ths in
  let '(E, H) := front_fields s q plates in
  multilayer_efficiency wl (RtoC (cos th0)) (RtoC n0) (ASequence (map ALayer ls)) (Some sub) s =
  (Some (Cmod (RtoC q0 * E - H)%C ^ 2 / Cmod (RtoC q0 * E + H)%C ^ 2)%R, Some (4 * q0 * q / Cmod (RtoC q0 * E + H)%C ^ 2)%R).
Proof.
  intros wl s n0 th0 ls plates sub ns ths WL W F V SN SI q0 q.
  assert (Q0 := tilted_pos s _ _ _ W). assert (Q := tilted_pos s _ _ _ V). fold q0 in Q0. fold q in Q.
  assert (N0 : (0 < n0)%R) by (destruct W; assumption). assert (NS : (0 < ns)%R) by (destruct V; assumption).
  assert (UF := unit_fields s _ q plates (Forall2_right _ _ _ _ (fun a b (X : is_plate wl (n0 * sin th0) a b) => proj1 (proj2 (proj2 (proj2 X)))) F)).
  destruct (front_fields s q plates) as [E H] eqn:FE.
  assert (D : RtoC q0 * E + H <> 0) by (apply denominator; [exact Q0 | rewrite UF; exact Q]).
  set (r := (RtoC q0 * E - H) / (RtoC q0 * E + H)). set (t := RtoC (2 * q0) / (RtoC q0 * E + H)).
  assert (FIELD : stack_field wl s (RtoC n0) (RtoC (cos th0)) 1 r ls sub t).
  { assert (Q00 : RtoC q0 <> 0) by (apply RtoC_neq_0; lra).
    apply (plates_field wl s _ sub ns ths V SN ls plates F n0 th0 W); fold q; fold q0; rewrite FE; cbn [fst snd]; unfold r, t; rewrite RtoC_mult.
    - transitivity ((RtoC q0 * E + H + (RtoC q0 * E - H)) / (RtoC q0 * E + H)); [field; exact D|].
      replace (RtoC q0 * E + H + (RtoC q0 * E - H)) with (RtoC 2 * RtoC q0 * E) by cring. field. exact D.
    - transitivity (RtoC q0 * (RtoC q0 * E + H - (RtoC q0 * E - H)) / (RtoC q0 * E + H)); [field; exact D|].
      replace (RtoC q0 * E + H - (RtoC q0 * E - H)) with (RtoC 2 * H) by cring. field. exact D. }
  destruct (ideal_efficiency lossless wl n0 (cos th0) (ASequence (map ALayer ls)) (Some sub) s lossless_passive
    (plates_ideal wl n0 th0 ls plates sub ns ths WL W F V SN SI)) as (r' & t' & EF & _).
  assert (K := angle_tangential _ _ _ W).
  unfold multilayer_efficiency in EF |- *. cbv zeta in EF |- *.
  change (multilayer_coefficients wl (RtoC (cos th0)) (RtoC n0) (ASequence (map ALayer ls)) (Some (substrate_layer (Some sub))) s)
    with (multilayer_coefficients wl (RtoC (cos th0)) (RtoC n0) (ASequence (map ALayer ls)) (Some sub) s) in EF |- *.
  destruct (multilayer_coefficients wl (RtoC (cos th0)) (RtoC n0) (ASequence (map ALayer ls)) (Some sub) s) as [[r1|] [t1|]] eqn:CO;
    cbn [fst snd omap obind] in EF |- *; try discriminate.
  change (layer_n (substrate_layer (Some sub)) wl) with (layer_n sub wl) in *.
  assert (X := coefficients_field wl s (RtoC n0) (RtoC (cos th0)) ls sub r1 t1).
  destruct (proj1 (X ltac:(lra) ltac:(apply RtoC_neq_0; lra) ltac:(rewrite SN; apply RtoC_neq_0; lra) SI
    ltac:(idtac; rewrite K; apply (Forall2_left (is_plate wl (n0 * sin th0)) _ ls plates); [|exact F]; intros l p (LN & LI & LT & U & PH);
      split; [rewrite LN; apply RtoC_neq_0; destruct U; lra | split; [exact LI|]]; intros c EC; rewrite LN in EC |- *;
      assert (IC := real_root _ _ _ c U EC); replace (Im (RtoC (pl_n p) * c)%C) with 0%R by (cparts; rewrite IC; ring);
      rewrite Rmult_0_r, exp_0; apply Rlt_pow_R1; [lra | repeat constructor])
    ltac:(right; split; [reflexivity|]; rewrite K; constructor;
      [intros c EC; rewrite SN in EC; exact (real_root _ _ _ c V EC)
      |apply (Forall2_left (is_plate wl (n0 * sin th0)) _ ls plates); [|exact F]; intros l p (LN & LI & LT & U & PH) c EC; rewrite LN in EC; exact (real_root _ _ _ c U EC)])
    CO r t) FIELD) as [<- <-]. clear X EF.
  rewrite SN. rewrite snell_value by (apply RtoC_neq_0; lra).
  rewrite <- (proj1 (refracts_iff _ _ (RtoC ns) (RtoC (cos ths)) ltac:(apply RtoC_neq_0; lra)) (angle_refracts _ n0 th0 ns ths W V)).
  cbn [obind]. rewrite !admittance_value by (first [apply RtoC_neq_0; lra | right; reflexivity]). cbn [obind].
  rewrite !admittance_real by assumption. fold q0 q. rewrite cdiv_nz by (apply RtoC_neq_0; lra). cbn [obind].
  assert (M : (0 < Cmod (RtoC q0 * E + H)%C)%R) by (apply Cmod_gt_0; exact D).
  f_equal; f_equal.
  - unfold r. rewrite Cmod_div by exact D. field. lra.
  - unfold t. rewrite Cmod_div by exact D. rewrite Cmod_R. rewrite <- RtoC_div by lra. rewrite Re_R. rewrite Rabs_right by lra. field. lra.
Qed.

(** ** Quarter waves *)
Lemma quarter_angle : forall m, if Nat.even m then sin (INR m * (PI / 2)) = 0%R else cos (INR m * (PI / 2)) = 0%R.
Proof.
  induction m as [|m IH]; [cbn; rewrite Rmult_0_l; apply sin_0|].
  rewrite S_INR, Rmult_plus_distr_r, Rmult_1_l. rewrite Nat.even_succ, <- Nat.negb_even.
  destruct (Nat.even m); cbn [negb].
  - rewrite cos_plus, IH, cos_PI2. ring.
  - rewrite sin_plus, IH, cos_PI2. ring.
Qed.

Lemma quarter_fields : forall s k q plates ms, (0 < q)%R -> List.Forall (fun p => wave_angle k (pl_n p) (pl_angle p)) plates ->
  Forall2 quarters plates ms -> let Y := quarter_waves s q plates ms in
  (0 < Y)%R /\ snd (front_fields s q plates) = RtoC Y * fst (front_fields s q plates).
Proof.
  intros s k q plates ms Q W F. revert W. induction F as [|p m plates ms P F IH]; intros W.
  - cbn. split; [exact Q | cring].
  - inversion W as [|? ? W1 W2]; subst. destruct (IH W2) as [Y0 YE]. clear IH. cbn [quarter_waves front_fields].
    destruct (front_fields s q plates) as [E H]. cbn [fst snd] in YE |- *.
    assert (y0 := tilted_pos s k _ _ W1). unfold plate_tilted. set (y := tilted s (pl_n p) (pl_angle p)) in *.
    set (Y := quarter_waves s q plates ms) in *. assert (A := quarter_angle m). rewrite <- P in A.
    destruct (Nat.even m); cbv zeta.
    + split; [exact Y0|]. rewrite A, YE. field. apply RtoC_neq_0. lra.
    + split; [apply Rdiv_lt_0_compat; [apply pow_lt|]; assumption|].
      rewrite A, YE. rewrite RtoC_div by lra. replace (RtoC (y ^ 2)) with (RtoC y * RtoC y) by cring. field. split; apply RtoC_neq_0; lra.
Qed.

Lemma quarter_efficiency : forall wl s n0 th0 ls plates ms sub ns ths, (0 < wl)%R -> wave_angle (n0 * sin th0) n0 th0 ->
  Forall2 (is_plate wl (n0 * sin th0)) ls plates -> Forall2 quarters plates ms -> wave_angle (n0 * sin th0) ns ths ->
  layer_n sub wl = RtoC ns -> ly_interface sub = None ->
  let q0 := tilted s n0 th0 in let Y := quarter_waves s (tilted s ns ths) plates ms in
  multilayer_efficiency wl (RtoC (cos th0)) (RtoC n0) (ASequence (map ALayer ls)) (Some sub) s =
  (Some (step_reflects q0 Y), Some (step_transmits q0 Y)).
Proof.
  intros wl s n0 th0 ls plates ms sub ns ths WL W F M V SN SI q0 Y.
  assert (FW := Forall2_right _ _ _ _ (fun a b (X : is_plate wl (n0 * sin th0) a b) => proj1 (proj2 (proj2 (proj2 X)))) F).
  assert (Q := tilted_pos s _ _ _ V). assert (Q0 := tilted_pos s _ _ _ W). fold q0 in Q0.
  assert (EF := plates_efficiency wl s n0 th0 ls plates sub ns ths WL W F V SN SI). cbv zeta in EF. fold q0 in EF.
  destruct (quarter_fields s _ _ plates ms Q FW M) as [Y0 HE]. fold Y in Y0, HE.
  assert (UF := unit_fields s _ (tilted s ns ths) plates FW).
  destruct (front_fields s (tilted s ns ths) plates) as [E H]. cbn [fst snd] in HE. subst H. rewrite EF.
  replace (RtoC q0 * E - RtoC Y * E) with (RtoC (q0 - Y) * E) by cring.
  replace (RtoC q0 * E + RtoC Y * E) with (RtoC (q0 + Y) * E) by cring. rewrite !Cmod_mult, !Cmod_R.
  assert (UE : (Y * Cmod E ^ 2 = tilted s ns ths)%R) by (rewrite <- UF, Cmod_sq; cparts; ring).
  assert (E0 : (Cmod E ^ 2 <> 0)%R) by (intros Z; rewrite Z in UE; lra).
  assert (E1 : (Cmod E <> 0)%R) by (intros Z; rewrite Z in E0; apply E0; ring).
  assert (A1 : (Rabs (q0 - Y) ^ 2 = (q0 - Y) ^ 2)%R) by (apply pow2_abs).
  rewrite !Rpow_mult_distr, A1, (Rabs_right (q0 + Y)) by lra. rewrite <- UE. unfold step_reflects, step_transmits.
  f_equal; f_equal; field; split; lra.
Qed.

(** ** A bare surface *)
Lemma bare_efficiency : forall wl s n0 th0 sub ns ths, (0 < wl)%R -> wave_angle (n0 * sin th0) n0 th0 -> wave_angle (n0 * sin th0) ns ths ->
  layer_n sub wl = RtoC ns -> ly_interface sub = None ->
  multilayer_efficiency wl (RtoC (cos th0)) (RtoC n0) (ASequence []) (Some sub) s =
  (Some (step_reflects (tilted s n0 th0) (tilted s ns ths)), Some (step_transmits (tilted s n0 th0) (tilted s ns ths))).
Proof.
  intros wl s n0 th0 sub ns ths WL W V SN SI.
  exact (quarter_efficiency wl s n0 th0 [] [] [] sub ns ths WL W (Forall2_nil _) (Forall2_nil _) V SN SI).
Qed.

Local Open Scope R_scope.
Lemma sin_sum_pos : forall a b, 0 < a < PI / 2 -> 0 < b < PI / 2 -> 0 < sin (a + b).
Proof. intros a b A B. apply sin_gt_0; lra. Qed.
Lemma cos_diff_pos : forall a b, 0 <= a < PI / 2 -> 0 <= b < PI / 2 -> 0 < cos (a - b).
Proof. intros a b A B. apply cos_gt_0; lra. Qed.

Lemma angle_pos : forall n0 th0 ns ths, wave_angle (n0 * sin th0) n0 th0 -> wave_angle (n0 * sin th0) ns ths -> 0 < th0 -> 0 < ths.
Proof.
  intros n0 th0 ns ths (N0 & T0 & _) (NS & TS & E) P. destruct (Rle_lt_or_eq_dec 0 ths ltac:(lra)) as [H|H]; [exact H|]. exfalso.
  subst ths. rewrite sin_0, Rmult_0_r in E. assert (S := sin_gt_0 th0 P ltac:(lra)). nra.
Qed.

Lemma fresnel_s : forall n0 th0 ns ths, wave_angle (n0 * sin th0) n0 th0 -> wave_angle (n0 * sin th0) ns ths -> 0 < th0 ->
  step_reflects (tilted true n0 th0) (tilted true ns ths) = (sin (th0 - ths) / sin (th0 + ths)) ^ 2.
Proof.
  intros n0 th0 ns ths W V P. assert (PS := angle_pos _ _ _ _ W V P). destruct W as (N0 & T0 & _). destruct V as (NS & TS & E).
  assert (S0 := sin_gt_0 th0 P ltac:(lra)). assert (S1 := sin_gt_0 ths PS ltac:(lra)).
  assert (SS := sin_sum_pos th0 ths ltac:(lra) ltac:(lra)).
  assert (EN : ns = n0 * sin th0 / sin ths) by (rewrite <- E; field; lra).
  unfold step_reflects, tilted. rewrite sin_plus in *. rewrite sin_minus. rewrite EN.
  assert (X : (n0 * cos th0 - n0 * sin th0 / sin ths * cos ths) / (n0 * cos th0 + n0 * sin th0 / sin ths * cos ths) =
    - ((sin th0 * cos ths - cos th0 * sin ths) / (sin th0 * cos ths + cos th0 * sin ths))).
  { field. split; [lra|]. split; [lra|]. rewrite Rplus_comm in SS.
    replace (n0 * cos th0 * sin ths + n0 * sin th0 * cos ths) with (n0 * (cos th0 * sin ths + sin th0 * cos ths)) by ring.
    apply Rmult_integral_contrapositive_currified; lra. }
  rewrite X. ring.
Qed.

Lemma sin2_diff : forall a b, sin a * cos a - sin b * cos b = cos (a + b) * sin (a - b).
Proof.
  intros a b. assert (A := sin2_cos2 a). assert (B := sin2_cos2 b). unfold Rsqr in *. rewrite cos_plus, sin_minus.
  replace (sin a * cos a - sin b * cos b) with (sin a * cos a * (sin b * sin b + cos b * cos b) - sin b * cos b * (sin a * sin a + cos a * cos a)) by (rewrite A, B; ring).
  ring.
Qed.
Lemma sin2_sum : forall a b, sin a * cos a + sin b * cos b = sin (a + b) * cos (a - b).
Proof.
  intros a b. assert (A := sin2_cos2 a). assert (B := sin2_cos2 b). unfold Rsqr in *. rewrite sin_plus, cos_minus.
  replace (sin a * cos a + sin b * cos b) with (sin a * cos a * (sin b * sin b + cos b * cos b) + sin b * cos b * (sin a * sin a + cos a * cos a)) by (rewrite A, B; ring).
  ring.
Qed.

Lemma fresnel_p : forall n0 th0 ns ths, wave_angle (n0 * sin th0) n0 th0 -> wave_angle (n0 * sin th0) ns ths -> 0 < th0 ->
  step_reflects (tilted false n0 th0) (tilted false ns ths) = (sin (th0 - ths) * cos (th0 + ths) / (sin (th0 + ths) * cos (th0 - ths))) ^ 2.
Proof.
  intros n0 th0 ns ths W V P. assert (PS := angle_pos _ _ _ _ W V P). destruct W as (N0 & T0 & _). destruct V as (NS & TS & E).
  assert (S0 := sin_gt_0 th0 P ltac:(lra)). assert (S1 := sin_gt_0 ths PS ltac:(lra)).
  assert (SS := sin_sum_pos th0 ths ltac:(lra) ltac:(lra)). assert (CD := cos_diff_pos th0 ths ltac:(lra) ltac:(lra)).
  assert (SP : 0 < sin (th0 + ths) * cos (th0 - ths)) by (apply Rmult_lt_0_compat; assumption).
  unfold step_reflects, tilted. rewrite <- sin2_sum in SP |- *. rewrite (Rmult_comm (sin (th0 - ths))), <- sin2_diff.
  assert (EN : ns = n0 * sin th0 / sin ths) by (rewrite <- E; field; lra). rewrite EN.
  assert (X : (cos th0 / n0 - cos ths / (n0 * sin th0 / sin ths)) / (cos th0 / n0 + cos ths / (n0 * sin th0 / sin ths)) =
    (sin th0 * cos th0 - sin ths * cos ths) / (sin th0 * cos th0 + sin ths * cos ths)).
  { field. repeat split; try lra. }
  rewrite X. reflexivity.
Qed.

Lemma reflects_zero : forall q0 q, 0 < q0 -> 0 < q -> step_reflects q0 q = 0 <-> q0 = q.
Proof.
  intros q0 q P Q. unfold step_reflects. split; [|intros ->; field; lra].
  intros H. destruct (Req_dec ((q0 - q) / (q0 + q)) 0) as [E|E]; [|exfalso; exact (pow_nonzero _ 2 E H)].
  apply (f_equal (fun x => x * (q0 + q))) in E. replace ((q0 - q) / (q0 + q) * (q0 + q)) with (q0 - q) in E by (field; lra). lra.
Qed.

Lemma brewster : forall n0 th0 ns ths, wave_angle (n0 * sin th0) n0 th0 -> wave_angle (n0 * sin th0) ns ths ->
  (step_reflects (tilted false n0 th0) (tilted false ns ths) = 0 <-> n0 = ns \/ th0 + ths = PI / 2) /\
  (step_reflects (tilted true n0 th0) (tilted true ns ths) = 0 <-> n0 = ns).
Proof.
  intros n0 th0 ns ths W V. assert (C0 := angle_cos _ _ _ W). assert (C1 := angle_cos _ _ _ V).
  assert (P0 := fun s => tilted_pos s _ _ _ W). assert (P1 := fun s => tilted_pos s _ _ _ V).
  destruct W as (N0 & T0 & _). destruct V as (NS & TS & E). assert (PP := PI_RGT_0).
  rewrite !reflects_zero by (first [apply P0 | apply P1]). unfold tilted.
  assert (A := sin2_cos2 th0). assert (B := sin2_cos2 ths). unfold Rsqr in A, B.
  assert (D := sin2_diff th0 ths).
  assert (SAME : n0 = ns -> th0 = ths).
  { intros <-. apply sin_inj; try lra. apply (Rmult_eq_reg_l n0); lra. }
  split; split.
  - intros H. assert (H1 : cos th0 * ns = cos ths * n0).
    { apply (f_equal (fun x => x * (n0 * ns))) in H. replace (cos th0 / n0 * (n0 * ns)) with (cos th0 * ns) in H by (field; lra).
      replace (cos ths / ns * (n0 * ns)) with (cos ths * n0) in H by (field; lra). exact H. }
    assert (Z : sin th0 * cos th0 - sin ths * cos ths = 0).
    { apply (Rmult_eq_reg_l (n0 * ns)); [|apply Rmult_integral_contrapositive_currified; lra].
      replace (n0 * ns * (sin th0 * cos th0 - sin ths * cos ths)) with (n0 * sin th0 * (cos th0 * ns) - ns * sin ths * (cos ths * n0)) by ring.
      rewrite H1, E. ring. }
    rewrite Z in D. symmetry in D. destruct (Rmult_integral _ _ D) as [Q|Q].
    + right. destruct (Rtotal_order (th0 + ths) (PI / 2)) as [L|[L|L]]; [|exact L|]; exfalso.
      * assert (0 < cos (th0 + ths)) by (apply cos_gt_0; lra). lra.
      * assert (cos (th0 + ths) < 0) by (apply cos_lt_0; lra). lra.
    + left. assert (TH : th0 = ths).
      { destruct (Rtotal_order th0 ths) as [L|[L|L]]; [|exact L|]; exfalso.
        - assert (0 < sin (ths - th0)) by (apply sin_gt_0; lra). rewrite <- (Ropp_involutive (ths - th0)), Ropp_minus_distr, sin_neg in H0. lra.
        - assert (0 < sin (th0 - ths)) by (apply sin_gt_0; lra). lra. }
      rewrite <- TH in H1. apply (Rmult_eq_reg_l (cos th0)); lra.
  - intros [H|H].
    + assert (T := SAME H). subst. reflexivity.
    + replace ths with (PI / 2 - th0) in * by lra. rewrite sin_shift in E. rewrite cos_shift in *.
      apply (Rmult_eq_reg_l (n0 * ns)); [|apply Rmult_integral_contrapositive_currified; lra].
      replace (n0 * ns * (cos th0 / n0)) with (ns * cos th0) by (field; lra). replace (n0 * ns * (sin th0 / ns)) with (n0 * sin th0) by (field; lra). exact E.
  - intros H. assert (X : n0 * n0 = ns * ns).
    { replace (n0 * n0) with (n0 * sin th0 * (n0 * sin th0) + n0 * cos th0 * (n0 * cos th0)) by (transitivity (n0 * n0 * (sin th0 * sin th0 + cos th0 * cos th0)); [ring | rewrite A; ring]).
      replace (ns * ns) with (ns * sin ths * (ns * sin ths) + ns * cos ths * (ns * cos ths)) by (transitivity (ns * ns * (sin ths * sin ths + cos ths * cos ths)); [ring | rewrite B; ring]).
      rewrite E, H. reflexivity. }
    nra.
  - intros H. assert (T := SAME H). subst. reflexivity.
Qed.

Lemma polarized_reflects : forall n0 th0 ns ths, wave_angle (n0 * sin th0) n0 th0 -> wave_angle (n0 * sin th0) ns ths ->
  step_reflects (tilted false n0 th0) (tilted false ns ths) <= step_reflects (tilted true n0 th0) (tilted true ns ths).
Proof.
  intros n0 th0 ns ths W V. assert (W' := W). assert (V' := V). destruct W' as (N0 & T0 & _). destruct V' as (NS & TS & E).
  destruct (Rle_lt_or_eq_dec 0 th0 ltac:(lra)) as [P|P].
  - rewrite (fresnel_s n0 th0 ns ths W V P), (fresnel_p n0 th0 ns ths W V P). assert (PS := angle_pos _ _ _ _ W V P).
    assert (SS := sin_sum_pos th0 ths ltac:(lra) ltac:(lra)). assert (CD := cos_diff_pos th0 ths ltac:(lra) ltac:(lra)).
    replace ((sin (th0 - ths) * cos (th0 + ths) / (sin (th0 + ths) * cos (th0 - ths))) ^ 2)
      with ((sin (th0 - ths) / sin (th0 + ths)) ^ 2 * (cos (th0 + ths) / cos (th0 - ths)) ^ 2) by (field; split; lra).
    rewrite <- (Rmult_1_r ((sin (th0 - ths) / sin (th0 + ths)) ^ 2)) at 2. apply Rmult_le_compat_l; [apply pow2_ge_0|].
    assert (C0 := angle_cos _ _ _ W). assert (C1 := angle_cos _ _ _ V).
    assert (S0 := sin_gt_0 th0 P ltac:(lra)). assert (S1 := sin_gt_0 ths PS ltac:(lra)).
    assert (X : Rabs (cos (th0 + ths)) <= cos (th0 - ths)).
    { rewrite cos_plus, cos_minus. assert (0 < cos th0 * cos ths) by (apply Rmult_lt_0_compat; assumption).
      assert (0 < sin th0 * sin ths) by (apply Rmult_lt_0_compat; assumption). apply Rabs_le. lra. }
    rewrite <- (pow2_abs (cos (th0 + ths) / _)). rewrite <- (pow1 2). apply pow_incr. split; [apply Rabs_pos|].
    unfold Rdiv. rewrite Rabs_mult, (Rabs_right (/ _)) by (left; apply Rinv_0_lt_compat; exact CD).
    apply (Rmult_le_reg_r (cos (th0 - ths))); [exact CD|]. rewrite Rmult_assoc, Rinv_l by lra. lra.
  - subst th0. rewrite sin_0, Rmult_0_r in E. assert (ths = 0).
    { destruct (Rle_lt_or_eq_dec 0 ths ltac:(lra)) as [H|H]; [|symmetry; exact H]. assert (S := sin_gt_0 ths H ltac:(lra)). nra. }
    subst ths. unfold step_reflects, tilted. rewrite cos_0. right. field. split; lra.
Qed.

(** ** Total reflection *)
Lemma evanescent_cosine : forall k n, 0 < n -> n < k -> Re (cos_in (RtoC (k ^ 2)) (RtoC n)) = 0.
Proof.
  intros k n N K. set (y := sqrt (k ^ 2 / n ^ 2 - 1)).
  assert (P : 0 <= k ^ 2 / n ^ 2 - 1).
  { assert (n ^ 2 < k ^ 2) by nra. assert (1 < k ^ 2 / n ^ 2) by (apply Rlt_div_r; [apply pow_lt; exact N | lra]). lra. }
  assert (Y : y * y = k ^ 2 / n ^ 2 - 1) by (apply sqrt_sqrt; exact P).
  unfold cos_in. rewrite (csqrt_unique _ ((0, y) : C)); [reflexivity| |].
  - rewrite <- RtoC_mult, <- RtoC_div, <- RtoC_minus by nra. apply C_eq; cbn.
    + replace (0 * 0 - y * y) with (- (y * y)) by ring. rewrite Y. field. lra.
    + ring.
  - right. split; [reflexivity | apply sqrt_pos].
Qed.

Lemma total_reflection : forall wl s n0 th0 layers sub ns, ideal_stack lossless wl n0 (cos th0) layers (Some sub) ->
  layer_n sub wl = RtoC ns -> 0 < ns -> ns < n0 * sin th0 ->
  multilayer_efficiency wl (RtoC (cos th0)) (RtoC n0) layers (Some sub) s = (Some 1, Some 0).
Proof.
  intros wl s n0 th0 layers sub ns I SN NS TI.
  destruct (ideal_efficiency lossless wl n0 (cos th0) layers (Some sub) s lossless_passive I) as (r & t & EF & _ & _ & _ & SUM).
  specialize (SUM (fun n H => H)). destruct I as (N0 & C0 & _).
  assert (T0 : t = 0).
  { unfold multilayer_efficiency in EF. cbv zeta in EF. apply (f_equal snd) in EF. cbn [snd] in EF.
    change (layer_n (substrate_layer (Some sub)) wl) with (layer_n sub wl) in EF. rewrite SN in EF.
    destruct (snd (multilayer_coefficients wl (RtoC (cos th0)) (RtoC n0) layers (Some (substrate_layer (Some sub))) s)) as [t1|]; [|discriminate].
    cbn [obind] in EF. rewrite snell_value in EF by (apply RtoC_neq_0; lra). cbn [obind] in EF.
    destruct (real_ambient n0 (cos th0) N0 C0) as (TG & _). rewrite TG in EF.
    assert (KE : n0 ^ 2 * (1 - cos th0 ^ 2) = (n0 * sin th0) ^ 2) by (assert (X := sin2_cos2 th0); unfold Rsqr in X; nra). rewrite KE in EF.
    assert (CR := evanescent_cosine (n0 * sin th0) ns NS TI). set (c := cos_in (RtoC ((n0 * sin th0) ^ 2)) (RtoC ns)) in *.
    unfold q_factor, impedance, polarized in EF.
    destruct s; cbn [obind] in EF.
    - rewrite cdiv_nz in EF by (apply Cmult_neq_0; apply RtoC_neq_0; lra). cbn [obind] in EF.
      assert (X : Re (c * RtoC ns / (RtoC (cos th0) * RtoC n0))%C = 0).
      { rewrite <- RtoC_mult. unfold Cdiv. rewrite <- RtoC_inv by (apply Rmult_integral_contrapositive_currified; lra). cparts. rewrite CR. ring. }
      rewrite X in EF. injection EF as <-. ring.
    - rewrite !cdiv_nz in EF by (apply RtoC_neq_0; lra). cbn [obind] in EF.
      replace (Cconj (RtoC (cos th0))) with (RtoC (cos th0)) in EF by cring.
      assert (Q0 : (RtoC (cos th0) * (1 / RtoC n0))%C = RtoC (cos th0 / n0)) by (rewrite RtoC_div by lra; field; apply RtoC_neq_0; lra).
      rewrite Q0 in EF. assert (QP : 0 < cos th0 / n0) by (apply Rdiv_lt_0_compat; lra).
      rewrite cdiv_nz in EF by (apply RtoC_neq_0; lra). cbn [obind] in EF.
      assert (X : Re (Cconj c * (1 / RtoC ns) / RtoC (cos th0 / n0))%C = 0).
      { unfold Cdiv. rewrite <- !RtoC_inv by lra. cparts. rewrite CR. ring. }
      rewrite X in EF. injection EF as <-. ring. }
  rewrite EF. f_equal; f_equal; lra.
Qed.

(** ** Normal incidence on an absorbing substrate *)
Lemma normal_snell : forall n m : C, m <> 0%C -> snells_law_scalar (RtoC 1) n m = Some (RtoC 1).
Proof.
  intros n m M. rewrite snell_value by exact M. f_equal. unfold cos_in. apply csqrt_unique; [|left; cbn; lra].
  unfold tangential2. field. exact M.
Qed.

Lemma normal_efficiency : forall wl s n0 sub, 0 < wl -> 0 < n0 -> passive (layer_n sub wl) -> ly_interface sub = None ->
  let n := Re (layer_n sub wl) in let k := Im (layer_n sub wl) in
  multilayer_efficiency wl (RtoC 1) (RtoC n0) (ASequence []) (Some sub) s =
  (Some (((n0 - n) ^ 2 + k ^ 2) / ((n0 + n) ^ 2 + k ^ 2)), Some (4 * n0 * n / ((n0 + n) ^ 2 + k ^ 2))).
Proof.
  intros wl s n0 sub WL N0 [NP KP] SI n k. set (m := layer_n sub wl) in *.
  assert (M : m <> 0%C) by (intros Z; rewrite Z in NP; cbn in NP; lra). fold n in NP. fold k in KP.
  assert (N : RtoC n0 <> 0%C) by (apply RtoC_neq_0; lra).
  assert (S0 : (RtoC n0 + m)%C <> 0%C) by (intros Z; apply (f_equal Re) in Z; revert Z; cparts; fold n; cbn; lra).
  assert (D : (n0 + n) ^ 2 + k ^ 2 <> 0) by nra.
  assert (D2 : n ^ 2 + k ^ 2 <> 0) by nra.
  assert (MM : m = (n, k)) by (destruct m; reflexivity).
  assert (CS : Cmod (RtoC n0 + m)%C ^ 2 = (n0 + n) ^ 2 + k ^ 2) by (rewrite Cmod_sq; cparts; fold n k; ring).
  assert (CD : Cmod (RtoC n0 - m)%C ^ 2 = (n0 - n) ^ 2 + k ^ 2) by (rewrite Cmod_sq; cparts; fold n k; ring).
  assert (CM : Cmod m ^ 2 = n ^ 2 + k ^ 2) by (rewrite Cmod_sq; reflexivity).
  assert (DIV : forall a b : C, b <> 0%C -> Cmod (a / b)%C ^ 2 = Cmod a ^ 2 / Cmod b ^ 2).
  { intros a b B. rewrite Cmod_div by exact B. field. intros Z. apply Cmod_eq_0 in Z. contradiction. }
  destruct s.
  - rewrite (bare_substrate wl (RtoC 1) (RtoC n0) sub true (RtoC n0) m); try lra; try assumption.
    + rewrite !DIV by exact S0. rewrite CS, CD.
      replace (Cmod (2 * RtoC n0)%C ^ 2) with (4 * n0 ^ 2) by (rewrite Cmod_sq; cparts; ring).
      replace (Re (m / RtoC n0)%C) with (n / n0) by (unfold Cdiv; rewrite <- RtoC_inv by lra; cparts; fold n; unfold Rdiv; ring).
      f_equal; f_equal; field; split; lra.
    + unfold q_factor, impedance, polarized. cbn [obind]. f_equal. ring.
    + intros c EC. fold m in EC |- *. rewrite normal_snell in EC by exact M. assert (c = RtoC 1) by congruence. subst c.
      unfold q_factor, impedance, polarized. cbn [obind]. f_equal. ring.
  - assert (NZ : (1 / RtoC n0)%C <> 0%C) by (apply Cdiv_neq_0; [apply C1_neq_0 | exact N]).
    assert (SUM : (1 / RtoC n0 + 1 / m = (RtoC n0 + m) / (RtoC n0 * m))%C) by (field; split; assumption).
    assert (DIF : (1 / RtoC n0 - 1 / m = - (RtoC n0 - m) / (RtoC n0 * m))%C) by (field; split; assumption).
    assert (NM : (RtoC n0 * m)%C <> 0%C) by (apply Cmult_neq_0; assumption).
    rewrite (bare_substrate wl (RtoC 1) (RtoC n0) sub false (1 / RtoC n0)%C (1 / m)%C); try lra; try assumption.
    + rewrite SUM, DIF.
      replace (- (RtoC n0 - m) / (RtoC n0 * m) / ((RtoC n0 + m) / (RtoC n0 * m)))%C with (- (RtoC n0 - m) / (RtoC n0 + m))%C by (field; repeat split; assumption).
      replace (2 * (1 / RtoC n0) / ((RtoC n0 + m) / (RtoC n0 * m)))%C with (2 * m / (RtoC n0 + m))%C by (field; repeat split; assumption).
      rewrite !DIV by exact S0. rewrite Cmod_opp, CS, CD.
      replace (Cmod (2 * m)%C ^ 2) with (4 * (n ^ 2 + k ^ 2)) by (rewrite <- CM, !Cmod_sq; cparts; ring).
      replace (Re (1 / m / (1 / RtoC n0))%C) with (n0 * n / (n ^ 2 + k ^ 2)).
      * f_equal; f_equal; field; split; lra.
      * replace (1 / m / (1 / RtoC n0))%C with (RtoC n0 * / m)%C by (field; repeat split; try assumption; apply C1_neq_0).
        cparts. fold n k. field. exact D2.
    + unfold q_factor, impedance, polarized. rewrite cdiv_nz by exact N. cbn [obind]. f_equal. replace (Cconj (RtoC 1)) with (RtoC 1) by cring. ring.
    + intros c EC. fold m in EC |- *. rewrite normal_snell in EC by exact M. assert (c = RtoC 1) by congruence. subst c.
      unfold q_factor, impedance, polarized. rewrite cdiv_nz by exact M. cbn [obind]. f_equal. replace (Cconj (RtoC 1)) with (RtoC 1) by cring. ring.
    + rewrite SUM. apply Cdiv_neq_0; assumption.
Qed.

(** ** Half waves *)
Lemma half_fields : forall s q p before after, sin (pl_phase p) = 0 ->
  front_fields s q (before ++ p :: after) =
  let '(E, H) := front_fields s q (before ++ after) in ((RtoC (cos (pl_phase p)) * E)%C, (RtoC (cos (pl_phase p)) * H)%C).
Proof.
  intros s q p before after Z. induction before as [|x before IH].
  - cbn [app front_fields]. destruct (front_fields s q after) as [E H]. rewrite Z. cbv zeta. unfold Cdiv. f_equal; ring.
  - cbn [app front_fields]. rewrite IH. destruct (front_fields s q (before ++ after)) as [E H]. cbv zeta. unfold Cdiv. f_equal; ring.
Qed.

Lemma half_wave : forall wl s n0 th0 before l after p sub ns ths, 0 < wl -> wave_angle (n0 * sin th0) n0 th0 ->
  (exists before', Forall2 (is_plate wl (n0 * sin th0)) before before') ->
  is_plate wl (n0 * sin th0) l p -> sin (pl_phase p) = 0 ->
  (exists after', Forall2 (is_plate wl (n0 * sin th0)) after after') -> wave_angle (n0 * sin th0) ns ths ->
  layer_n sub wl = RtoC ns -> ly_interface sub = None ->
  multilayer_efficiency wl (RtoC (cos th0)) (RtoC n0) (ASequence (map ALayer (before ++ l :: after))) (Some sub) s =
  multilayer_efficiency wl (RtoC (cos th0)) (RtoC n0) (ASequence (map ALayer (before ++ after))) (Some sub) s.
Proof.
  intros wl s n0 th0 before l after p sub ns ths WL W (b & B) L Z (a & A) V SN SI.
  assert (F1 : Forall2 (is_plate wl (n0 * sin th0)) (before ++ l :: after) (b ++ p :: a)) by (apply Forall2_app; [exact B | constructor; assumption]).
  assert (F2 : Forall2 (is_plate wl (n0 * sin th0)) (before ++ after) (b ++ a)) by (apply Forall2_app; assumption).
  assert (E1 := plates_efficiency wl s n0 th0 _ _ sub ns ths WL W F1 V SN SI).
  assert (E2 := plates_efficiency wl s n0 th0 _ _ sub ns ths WL W F2 V SN SI). cbv zeta in E1, E2.
  rewrite half_fields in E1 by exact Z. destruct (front_fields s (tilted s ns ths) (b ++ a)) as [E H]. rewrite E1, E2.
  set (q0 := RtoC (tilted s n0 th0)). set (c := cos (pl_phase p)).
  replace (q0 * (RtoC c * E) - RtoC c * H)%C with (RtoC c * (q0 * E - H))%C by ring.
  replace (q0 * (RtoC c * E) + RtoC c * H)%C with (RtoC c * (q0 * E + H))%C by ring.
  rewrite !Cmod_mult, Cmod_R, !Rpow_mult_distr, pow2_abs.
  assert (C2 : c ^ 2 = 1) by (unfold c; assert (X := sin2_cos2 (pl_phase p)); unfold Rsqr in X; rewrite Z in X; lra).
  rewrite C2, !Rmult_1_l. reflexivity.
Qed.

(** ** Mirrors of quarter waves *)
Lemma bragg_waves : forall s q h l mh ml N, 0 < q -> 0 < plate_tilted s h -> 0 < plate_tilted s l ->
  Nat.odd mh = true -> Nat.odd ml = true ->
  quarter_waves s q (concat (repeat [h; l] N)) (concat (repeat [mh; ml] N)) = q * (plate_tilted s h / plate_tilted s l) ^ (2 * N).
Proof.
  intros s q h l mh ml N Q H L OH OL. induction N as [|N IH]; [cbn; ring|].
  cbn [repeat concat app quarter_waves]. rewrite IH. rewrite <- Nat.negb_odd, OH, <- Nat.negb_odd, OL. cbn [negb].
  replace (2 * S N)%nat with (S (S (2 * N))) by lia. rewrite <- !tech_pow_Rmult.
  assert (P : 0 < (plate_tilted s h / plate_tilted s l) ^ (2 * N)) by (apply pow_lt, Rdiv_lt_0_compat; assumption).
  field. repeat split; try lra.
Qed.

Lemma map_repeat : forall (h l : layer) N, map ALayer (concat (repeat [h; l] N)) = list_times [ALayer h; ALayer l] (Z.of_nat N).
Proof.
  intros h l N. unfold list_times. rewrite Nat2Z.id. induction N as [|N IH]; [reflexivity|]. cbn [repeat concat app map]. rewrite IH. reflexivity.
Qed.

Lemma repeat_Forall2 : forall {A B} (R : A -> B -> Prop) a b a' b' N, R a a' -> R b b' ->
  Forall2 R (concat (repeat [a; b] N)) (concat (repeat [a'; b'] N)).
Proof. intros A B R a b a' b' N X Y. induction N as [|N IH]; [constructor|]. cbn. constructor; [exact X|]. constructor; [exact Y | exact IH]. Qed.

Lemma bragg : forall wl s n0 th0 h l ph pl mh ml N sub ns ths, 0 < wl -> wave_angle (n0 * sin th0) n0 th0 ->
  is_plate wl (n0 * sin th0) h ph -> is_plate wl (n0 * sin th0) l pl ->
  Nat.odd mh = true -> pl_phase ph = INR mh * (PI / 2) -> Nat.odd ml = true -> pl_phase pl = INR ml * (PI / 2) ->
  (1 <= N)%nat -> wave_angle (n0 * sin th0) ns ths -> layer_n sub wl = RtoC ns -> ly_interface sub = None ->
  let q0 := tilted s n0 th0 in let Y := tilted s ns ths * (plate_tilted s ph / plate_tilted s pl) ^ (2 * N) in
  multilayer_efficiency wl (RtoC (cos th0)) (RtoC n0) (APeriodic [ALayer h; ALayer l] (Z.of_nat N)) (Some sub) s =
  (Some (step_reflects q0 Y), Some (step_transmits q0 Y)).
Proof.
  intros wl s n0 th0 h l ph pl mh ml N sub ns ths WL W PH PL OH EH OL EL N1 V SN SI q0 Y.
  assert (F := repeat_Forall2 _ h l ph pl N PH PL).
  assert (M := repeat_Forall2 quarters ph pl mh ml N EH EL).
  assert (I : ideal_stack lossless wl n0 (cos th0) (APeriodic [ALayer h; ALayer l] (Z.of_nat N)) (Some sub)).
  { destruct (plates_ideal wl n0 th0 [h; l] [ph; pl] sub ns ths WL W ltac:(constructor; [exact PH | constructor; [exact PL | constructor]]) V SN SI) as (A & B & C & D & G).
    split; [exact A|]. split; [exact B|]. split; [exact C|]. split; [cbn; repeat split; lia|]. exact G. }
  rewrite <- (efficiency_sequence lossless wl n0 (cos th0) _ (Some sub) s lossless_passive I). cbn [layer_sequence].
  rewrite <- map_repeat. rewrite (quarter_efficiency wl s n0 th0 _ _ _ sub ns ths WL W F M V SN SI).
  destruct PH as (_ & _ & _ & WH & _). destruct PL as (_ & _ & _ & WLL & _).
  rewrite (bragg_waves s _ ph pl mh ml N) by (first [exact (tilted_pos s _ _ _ V) | exact (tilted_pos s _ _ _ WH) | exact (tilted_pos s _ _ _ WLL) | assumption]).
  reflexivity.
Qed.

Lemma reflects_near : forall q0 q eps, 0 < q0 -> 0 < q -> 0 < eps -> 4 * q < eps * q0 \/ 4 * q0 < eps * q -> 1 - eps < step_reflects q0 q <= 1.
Proof.
  intros q0 q eps Q0 Q E H. unfold step_reflects.
  assert (S : ((q0 - q) / (q0 + q)) ^ 2 = 1 - 4 * q0 * q / (q0 + q) ^ 2) by (field; lra).
  assert (D : 0 < (q0 + q) ^ 2) by (apply pow_lt; lra).
  assert (P : 0 < 4 * q0 * q / (q0 + q) ^ 2) by (apply Rdiv_lt_0_compat; [apply Rmult_lt_0_compat; lra | exact D]).
  assert (U : 4 * q0 * q / (q0 + q) ^ 2 < eps).
  { apply Rlt_div_l; [exact D|]. destruct H as [H|H].
    - assert (A : 4 * q * q0 < eps * q0 * q0) by (apply Rmult_lt_compat_r; lra). assert (0 < eps * q) by (apply Rmult_lt_0_compat; assumption).
      assert (0 < eps * q * q0) by (apply Rmult_lt_0_compat; assumption). assert (0 < eps * q * q) by (apply Rmult_lt_0_compat; assumption). nra.
    - assert (A : 4 * q0 * q < eps * q * q) by (apply Rmult_lt_compat_r; lra). assert (0 < eps * q0) by (apply Rmult_lt_0_compat; assumption).
      assert (0 < eps * q0 * q0) by (apply Rmult_lt_0_compat; assumption). assert (0 < eps * q0 * q) by (apply Rmult_lt_0_compat; assumption). nra. }
  lra.
Qed.

Lemma bragg_limit : forall q0 qs x eps, 0 < q0 -> 0 < qs -> 0 < x -> x <> 1 -> 0 < eps ->
  exists N0, forall N, (N0 <= N)%nat -> 1 - eps < step_reflects q0 (qs * x ^ (2 * N)) <= 1.
Proof.
  intros q0 qs x eps Q0 QS X X1 E. destruct (Rlt_le_dec x 1) as [L|L].
  - assert (B : 0 < eps * q0 / (4 * qs)) by (apply Rdiv_lt_0_compat; [apply Rmult_lt_0_compat|]; lra).
    destruct (pow_lt_1_zero x ltac:(rewrite Rabs_right; lra) _ B) as (N0 & HN). exists N0. intros N LE.
    assert (P : 0 < x ^ (2 * N)) by (apply pow_lt; exact X).
    apply reflects_near; try assumption; [apply Rmult_lt_0_compat; assumption|]. left.
    specialize (HN (2 * N)%nat ltac:(lia)). rewrite Rabs_right in HN by lra. apply Rlt_div_r in HN; lra.
  - assert (XX : Rabs x > 1) by (rewrite Rabs_right; lra).
    destruct (Pow_x_infinity x XX (4 * q0 / (eps * qs) + 1)) as (N0 & HN). exists N0. intros N LE.
    assert (P : 0 < x ^ (2 * N)) by (apply pow_lt; exact X).
    apply reflects_near; try assumption; [apply Rmult_lt_0_compat; assumption|]. right.
    specialize (HN (2 * N)%nat ltac:(lia)). rewrite Rabs_right in HN by lra.
    assert (H : 4 * q0 / (eps * qs) < x ^ (2 * N)) by lra. apply Rlt_div_l in H; [lra | apply Rmult_lt_0_compat; assumption].
Qed.

Lemma antireflection : forall wl s n0 th0 l p m sub ns ths, 0 < wl -> wave_angle (n0 * sin th0) n0 th0 ->
  is_plate wl (n0 * sin th0) l p -> Nat.odd m = true -> quarters p m -> wave_angle (n0 * sin th0) ns ths ->
  layer_n sub wl = RtoC ns -> ly_interface sub = None ->
  exists r, fst (multilayer_efficiency wl (RtoC (cos th0)) (RtoC n0) (ASequence [ALayer l]) (Some sub) s) = Some r /\
    (r = 0 <-> plate_tilted s p ^ 2 = tilted s n0 th0 * tilted s ns ths).
Proof.
  intros wl s n0 th0 l p m sub ns ths WL W P O M V SN SI.
  change [ALayer l] with (map ALayer [l]). rewrite (quarter_efficiency wl s n0 th0 [l] [p] [m] sub ns ths WL W ltac:(constructor; [exact P | constructor]) ltac:(constructor; [exact M | constructor]) V SN SI).
  cbn [fst quarter_waves]. rewrite <- Nat.negb_odd, O. cbn [negb]. eexists. split; [reflexivity|].
  assert (Q0 := tilted_pos s _ _ _ W). assert (Q := tilted_pos s _ _ _ V). destruct P as (_ & _ & _ & U & _). assert (Q1 := tilted_pos s _ _ _ U).
  fold (plate_tilted s p) in Q1. rewrite reflects_zero by (first [assumption | apply Rdiv_lt_0_compat; [apply pow_lt|]; assumption]).
  split; intros H.
  - rewrite H. field. lra.
  - rewrite H. field. lra.
Qed.
