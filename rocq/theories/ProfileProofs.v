(** Proofs about interface profiles. *)
From Coq Require Import Reals Lra Psatz.
From Coquelicot Require Import Coquelicot.
From Verif Require Import Num ComplexModel ProfileModel ProfileSpec GaussLemmas.
Open Scope R_scope.

(** * Values *)

Definition curve (p : interface_profile) (z : R) : R :=
  match p with
  | Erf w => (1 + erf (z / (sqrt 2 * w))) / 2
  | Exponential w => (1 + rsign z - rsign z * exp (- rsign z * sqrt 2 * z / w)) / 2
  | Linear w => Rmin 1 (Rmax (1 / 2 + z / (2 * sqrt 3 * w)) 0)
  | Sinus w => 1 / 2 + sin (PI * Rmin (sinus_a * w) (Rmax z (- sinus_a * w)) / (2 * sinus_a * w)) / 2
  end.

Lemma sqrt2_pos : 0 < sqrt 2. Proof. apply sqrt_lt_R0; lra. Qed.
Lemma sqrt3_pos : 0 < sqrt 3. Proof. apply sqrt_lt_R0; lra. Qed.
Lemma sqrt3_sq : sqrt 3 * sqrt 3 = 3. Proof. apply sqrt_sqrt; lra. Qed.
Lemma sqrt2_sq : sqrt 2 * sqrt 2 = 2. Proof. apply sqrt_sqrt; lra. Qed.
Lemma pi_3 : 3 < PI.
Proof. assert (H := PI2_3_2). lra. Qed.
Lemma sinus_a_pos : 0 < sinus_a.
Proof.
  unfold sinus_a. assert (H := pi_3). apply Rdiv_lt_0_compat; nra.
Qed.

Lemma odiv_some : forall a b, b <> 0 -> odiv a b = Some (a / b).
Proof. intros a b H. unfold odiv. destruct (Req_EM_T b 0); [contradiction|reflexivity]. Qed.
Lemma odiv_none : forall a, odiv a 0 = None.
Proof. intros a. unfold odiv. destruct (Req_EM_T 0 0); [reflexivity|lra]. Qed.

Lemma call_curve : forall p z, 0 < width_of p -> profile_call p z = Some (curve p z).
Proof.
  intros p z W. assert (A := sinus_a_pos). assert (S2 := sqrt2_pos). assert (S3 := sqrt3_pos).
  destruct p; cbn in *; rewrite odiv_some; try reflexivity; nra.
Qed.

(** A bounded antisymmetric increasing function is a transition if it reaches the media. *)
Lemma transition_intro : forall f : R -> R,
  (forall a b, 0 <= a -> a <= b -> f a <= f b) -> (forall z, f (- z) = 1 - f z) ->
  (forall z, f z <= 1) -> (forall eps, 0 < eps -> exists Z, forall z, Z <= z -> 1 - eps < f z) ->
  transition f.
Proof.
  intros f M A B L.
  assert (Z0 : f 0 = 1 / 2). { generalize (A 0). rewrite Ropp_0. lra. }
  split.
  - intros a b H. destruct (Rle_dec 0 a). { apply M; lra. }
    destruct (Rle_dec 0 b).
    + apply Rle_trans with (f 0); [|apply M; lra].
      generalize (M 0 (- a)), (A a). intros. specialize (H0 ltac:(lra) ltac:(lra)). lra.
    + generalize (M (- b) (- a) ltac:(lra) ltac:(lra)), (A a), (A b). lra.
  - intros z. split; [|apply B]. generalize (B (- z)), (A z). lra.
  - exact Z0.
  - exact A.
  - intros eps E. destruct (L eps E) as [Z HZ]. exists (- Z). intros z Hz.
    generalize (HZ (- z) ltac:(lra)). rewrite A. lra.
  - exact L.
Qed.

Lemma rsign_pos : forall z, 0 < z -> rsign z = 1.
Proof. intros z H. unfold rsign. destruct (Rlt_dec 0 z); lra. Qed.
Lemma rsign_neg : forall z, z < 0 -> rsign z = -1.
Proof. intros z H. unfold rsign. destruct (Rlt_dec 0 z); [lra|]. destruct (Rlt_dec z 0); lra. Qed.
Lemma rsign_0 : rsign 0 = 0.
Proof. unfold rsign. destruct (Rlt_dec 0 0); [lra|]. destruct (Rlt_dec 0 0); lra. Qed.

Lemma exp_small : forall eps, 0 < eps -> exists X, forall x, X <= x -> exp (- x) < eps.
Proof.
  intros eps E. exists (1 - ln eps). intros x H. rewrite <- (exp_ln eps E). apply exp_increasing. lra.
Qed.

Lemma erf_transition : forall w, 0 < w -> transition (curve (Erf w)).
Proof.
  intros w W. assert (S2 := sqrt2_pos). assert (P : 0 < sqrt 2 * w) by nra.
  apply transition_intro; cbn.
  - intros a b _ H. assert (a / (sqrt 2 * w) <= b / (sqrt 2 * w)).
    { apply Rmult_le_compat_r; [|exact H]. left; apply Rinv_0_lt_compat; exact P. }
    destruct (Req_dec (a / (sqrt 2 * w)) (b / (sqrt 2 * w))) as [E|E]. { rewrite E; lra. }
    assert (erf (a / (sqrt 2 * w)) < erf (b / (sqrt 2 * w))) by (apply erf_increasing; lra). lra.
  - intros z. replace (- z / (sqrt 2 * w)) with (- (z / (sqrt 2 * w))) by (field; lra).
    rewrite erf_opp. lra.
  - intros z. generalize (erf_bounds (z / (sqrt 2 * w))). lra.
  - intros eps E. destruct (erf_limit eps E) as [Z [Z0 HZ]]. exists (Z * (sqrt 2 * w)). intros z Hz.
    assert (Z <= z / (sqrt 2 * w)). { apply Rmult_le_reg_r with (sqrt 2 * w); [exact P|]. unfold Rdiv. rewrite Rmult_assoc, Rinv_l; lra. }
    generalize (HZ _ H), (erf_bounds (z / (sqrt 2 * w))). lra.
Qed.

Lemma exponential_transition : forall w, 0 < w -> transition (curve (Exponential w)).
Proof.
  intros w W. assert (S2 := sqrt2_pos).
  assert (Pos : forall z, 0 < z -> curve (Exponential w) z = 1 - exp (- (sqrt 2 * z / w)) / 2).
  { intros z H. cbn. rewrite rsign_pos by exact H. replace (- (1) * sqrt 2 * z / w) with (- (sqrt 2 * z / w)) by (field; lra). lra. }
  assert (Zer : curve (Exponential w) 0 = 1 / 2). { cbn. rewrite rsign_0. lra. }
  assert (Neg : forall z, z < 0 -> curve (Exponential w) z = exp (sqrt 2 * z / w) / 2).
  { intros z H. cbn. rewrite rsign_neg by exact H. replace (- -1 * sqrt 2 * z / w) with (sqrt 2 * z / w) by (field; lra). lra. }
  assert (Inc : forall a b, a < b -> sqrt 2 * a / w < sqrt 2 * b / w).
  { intros. apply Rmult_lt_compat_r; [apply Rinv_0_lt_compat; exact W|nra]. }
  apply transition_intro.
  - intros a b A [H|H]; [|rewrite H; lra]. rewrite (Pos b) by lra.
    destruct A as [A|A].
    + rewrite (Pos a) by lra.
      assert (exp (- (sqrt 2 * b / w)) < exp (- (sqrt 2 * a / w))); [|lra].
      apply exp_increasing. generalize (Inc a b H). lra.
    + subst a. rewrite Zer. assert (exp (- (sqrt 2 * b / w)) < exp 0); [|rewrite exp_0 in *; lra].
      apply exp_increasing. generalize (Inc 0 b H). replace (sqrt 2 * 0 / w) with 0 by (field; lra). lra.
  - intros z. destruct (Rtotal_order z 0) as [H|[H|H]].
    + rewrite (Neg z), (Pos (- z)) by lra. replace (- (sqrt 2 * - z / w)) with (sqrt 2 * z / w) by (field; lra). lra.
    + subst z. rewrite Ropp_0, Zer. lra.
    + rewrite (Neg (- z)), (Pos z) by lra. replace (sqrt 2 * - z / w) with (- (sqrt 2 * z / w)) by (field; lra). lra.
  - intros z. destruct (Rtotal_order z 0) as [H|[H|H]].
    + rewrite (Neg z H). assert (exp (sqrt 2 * z / w) < exp 0); [|rewrite exp_0 in *; lra].
      apply exp_increasing. generalize (Inc z 0 H). replace (sqrt 2 * 0 / w) with 0 by (field; lra). lra.
    + subst z. rewrite Zer. lra.
    + rewrite (Pos z H). generalize (exp_pos (- (sqrt 2 * z / w))). lra.
  - intros eps E. destruct (exp_small eps E) as [X HX]. exists (Rmax 1 (X * w / sqrt 2)). intros z Hz.
    assert (1 <= z /\ X * w / sqrt 2 <= z) as [H1 H2].
    { split; eapply Rle_trans; try exact Hz; [apply Rmax_l|apply Rmax_r]. }
    rewrite (Pos z) by lra. assert (X <= sqrt 2 * z / w).
    { replace X with (sqrt 2 * (X * w / sqrt 2) / w) by (field; lra). destruct H2 as [H2|H2].
      - left. apply Inc; exact H2. - rewrite H2. lra. }
    generalize (HX _ H), (exp_pos (- (sqrt 2 * z / w))). lra.
Qed.

Lemma linear_transition : forall w, 0 < w -> transition (curve (Linear w)).
Proof.
  intros w W. assert (S3 := sqrt3_pos). assert (P : 0 < 2 * sqrt 3 * w) by nra.
  assert (I : 0 < / (2 * sqrt 3 * w)) by (apply Rinv_0_lt_compat; exact P).
  apply transition_intro; cbn; unfold Rdiv.
  - intros a b _ H. assert (a * / (2 * sqrt 3 * w) <= b * / (2 * sqrt 3 * w)) by nra.
    apply Rle_min_compat_l, Rle_max_compat_r. lra.
  - intros z. replace (- z * / (2 * sqrt 3 * w)) with (- (z * / (2 * sqrt 3 * w))) by ring.
    set (y := z * _). unfold Rmin, Rmax. repeat destruct Rle_dec; lra.
  - intros z. apply Rmin_l.
  - intros eps E. exists (2 * sqrt 3 * w). intros z H.
    assert (1 <= z * / (2 * sqrt 3 * w)).
    { replace 1 with (2 * sqrt 3 * w * / (2 * sqrt 3 * w)) by (apply Rinv_r; lra).
      apply Rmult_le_compat_r; lra. }
    unfold Rmin, Rmax. repeat destruct Rle_dec; lra.
Qed.

Lemma sinus_transition : forall w, 0 < w -> transition (curve (Sinus w)).
Proof.
  intros w W. assert (A := sinus_a_pos). assert (PP := PI_RGT_0).
  assert (P : 0 < sinus_a * w) by nra.
  set (L := sinus_a * w) in *.
  assert (E : forall z, curve (Sinus w) z = 1 / 2 + sin (PI / (2 * L) * Rmin L (Rmax z (- L))) / 2).
  { intros z. cbn. fold L. replace (- sinus_a * w) with (- L) by (unfold L; ring).
    f_equal. f_equal. f_equal. unfold L. field. nra. }
  assert (Q : 0 < PI / (2 * L)) by (apply Rdiv_lt_0_compat; lra).
  assert (QL : PI / (2 * L) * L = PI / 2) by (field; lra).
  set (q := PI / (2 * L)) in *.
  assert (R : forall z, - L <= Rmin L (Rmax z (- L)) <= L).
  { intros z. unfold Rmin, Rmax. repeat destruct Rle_dec; lra. }
  apply transition_intro; intros.
  - rewrite !E. assert (H1 : Rmin L (Rmax a (- L)) <= Rmin L (Rmax b (- L))).
    { apply Rle_min_compat_l, Rle_max_compat_r. lra. }
    assert (sin (q * Rmin L (Rmax a (- L))) <= sin (q * Rmin L (Rmax b (- L)))); [|lra].
    generalize (R a) (R b). intros. apply sin_incr_1; nra.
  - rewrite !E. replace (Rmin L (Rmax (- z) (- L))) with (- Rmin L (Rmax z (- L))).
    2: { unfold Rmin, Rmax. repeat destruct Rle_dec; lra. }
    rewrite <- Ropp_mult_distr_r, sin_neg. lra.
  - rewrite E. generalize (SIN_bound (q * Rmin L (Rmax z (- L)))). lra.
  - exists L. intros z Hz. rewrite E. replace (Rmin L (Rmax z (- L))) with L.
    + rewrite QL, sin_PI2. lra.
    + unfold Rmin, Rmax. repeat destruct Rle_dec; lra.
Qed.

Lemma curve_transition : forall p, 0 < width_of p -> transition (curve p).
Proof.
  intros [w|w|w|w] W; cbn in W.
  - apply erf_transition; exact W. - apply exponential_transition; exact W.
  - apply linear_transition; exact W. - apply sinus_transition; exact W.
Qed.

Lemma profile_transition : forall p, 0 < width_of p ->
  exists f, (forall z, profile_call p z = Some (f z)) /\ transition f.
Proof.
  intros p W. exists (curve p). split; [intros; apply call_curve; exact W|apply curve_transition; exact W].
Qed.

Lemma profile_no_width : forall p z, width_of p = 0 -> profile_call p z = None.
Proof. intros [w|w|w|w] z W; cbn in *; subst; rewrite ?Rmult_0_r, odiv_none; reflexivity. Qed.

(** * Transforms *)

(** The integral over (-z, z) from the even derivative on two pieces of the half line. *)
Lemma assemble : forall (f g1 g2 h : R -> R) (sgn L z c1 c2 : R),
  0 <= L <= z -> (sgn = 1 \/ sgn = -1) -> (forall t, h (- t) = sgn * h t) ->
  (forall t, 0 < t < L -> is_derive f t (g1 t) /\ is_derive f (- t) (g1 t)) ->
  (forall t, L < t < z -> is_derive f t (g2 t) /\ is_derive f (- t) (g2 t)) ->
  is_RInt (V := R_NormedModule) (fun t => g1 t * h t) 0 L c1 ->
  is_RInt (V := R_NormedModule) (fun t => g2 t * h t) L z c2 ->
  is_RInt (V := R_NormedModule) (fun t => Derive f t * h t) (- z) z ((1 + sgn) * (c1 + c2)).
Proof.
  intros f g1 g2 h sgn L z c1 c2 HL Hs Hh D1 D2 I1 I2.
  assert (Rt : is_RInt (V := R_NormedModule) (fun t => Derive f t * h t) 0 z (c1 + c2)).
  { apply (is_RInt_Chasles (V := R_NormedModule)) with L.
    - apply (is_RInt_ext (V := R_NormedModule)) with (2 := I1). rewrite Rmin_left, Rmax_right by lra.
      intros t Ht. rewrite (is_derive_unique _ _ _ (proj1 (D1 t Ht))). reflexivity.
    - apply (is_RInt_ext (V := R_NormedModule)) with (2 := I2). rewrite Rmin_left, Rmax_right by lra.
      intros t Ht. rewrite (is_derive_unique _ _ _ (proj1 (D2 t Ht))). reflexivity. }
  assert (Lf : is_RInt (V := R_NormedModule) (fun t => sgn * (Derive f (- t) * h (- t))) 0 z (c1 + c2)).
  { apply (is_RInt_Chasles (V := R_NormedModule)) with L.
    - apply (is_RInt_ext (V := R_NormedModule)) with (2 := I1). rewrite Rmin_left, Rmax_right by lra.
      intros t Ht. rewrite (is_derive_unique _ _ _ (proj2 (D1 t Ht))), Hh. real_eq. destruct Hs; subst; ring.
    - apply (is_RInt_ext (V := R_NormedModule)) with (2 := I2). rewrite Rmin_left, Rmax_right by lra.
      intros t Ht. rewrite (is_derive_unique _ _ _ (proj2 (D2 t Ht))), Hh. real_eq. destruct Hs; subst; ring. }
  assert (Lf' : is_RInt (V := R_NormedModule) (fun t => Derive f t * h t) (- z) 0 (sgn * (c1 + c2))).
  { apply (is_RInt_scal (V := R_NormedModule)) with (k := sgn) in Lf.
    assert (Lf2 : is_RInt (V := R_NormedModule) (fun t => Derive f (- t) * h (- t)) 0 z (sgn * (c1 + c2))).
    { apply (is_RInt_ext (V := R_NormedModule)) with (2 := Lf). intros t _. unfold scal; cbn; unfold mult; cbn. real_eq. destruct Hs; subst; ring. }
    rewrite <- (Ropp_involutive z) in Lf2 at 1. rewrite <- Ropp_0 in Lf2.
    apply (is_RInt_comp_opp (V := R_NormedModule) (fun t => Derive f (- t) * h (- t)) 0 (- z)) in Lf2.
    apply (is_RInt_swap (V := R_NormedModule)) in Lf2. apply (is_RInt_opp (V := R_NormedModule)) in Lf2.
    rewrite opp_opp in Lf2.
    apply (is_RInt_ext (V := R_NormedModule)) with (2 := Lf2). intros t _. unfold opp; cbn. rewrite !Ropp_involutive. reflexivity. }
  replace ((1 + sgn) * (c1 + c2)) with (sgn * (c1 + c2) + (c1 + c2)) by ring.
  apply (is_RInt_Chasles (V := R_NormedModule)) with 0; assumption.
Qed.

Lemma fourier_intro : forall (f g1 g2 : R -> R) (s L v : R) (c2 : R -> R) c1,
  0 <= L ->
  (forall t, 0 < t < L -> is_derive f t (g1 t) /\ is_derive f (- t) (g1 t)) ->
  (forall t, L < t -> is_derive f t (g2 t) /\ is_derive f (- t) (g2 t)) ->
  (forall t, continuous g1 t) -> (forall t, continuous g2 t) ->
  is_RInt (V := R_NormedModule) (fun t => g1 t * cos (s * t)) 0 L c1 ->
  (forall z, L <= z -> is_RInt (V := R_NormedModule) (fun t => g2 t * cos (s * t)) L z (c2 z)) ->
  (forall eps, 0 < eps -> exists Z, forall z, Z <= z -> L <= z -> Rabs (2 * (c1 + c2 z) - v) < eps) ->
  fourier_of_derivative f s v.
Proof.
  intros f g1 g2 s L v c2 c1 HL D1 D2 K1 K2 I1 I2 Lim eps E.
  destruct (Lim eps E) as [Z HZ]. exists (Rmax Z L). intros z Hz.
  assert (Z <= z /\ L <= z) as [Z1 Z2].
  { split; eapply Rle_trans; try exact Hz; [apply Rmax_l|apply Rmax_r]. }
  exists (2 * (c1 + c2 z)). split; [|split].
  - replace (2 * (c1 + c2 z)) with ((1 + 1) * (c1 + c2 z)) by ring.
    apply assemble with g1 g2 L; auto; try lra.
    + intros t. rewrite Rmult_1_l, <- Ropp_mult_distr_r, cos_neg. reflexivity.
    + intros t Ht. apply D2; lra.
  - assert (Ks : forall t, continuous (fun t => sin (s * t)) t).
    { intros t. apply (ex_derive_continuous (fun t => sin (s * t))). auto_derive. trivial. }
    assert (X1 : ex_RInt (V := R_NormedModule) (fun t => g1 t * sin (s * t)) 0 L).
    { apply (ex_RInt_continuous (V := R_CompleteNormedModule)). intros t _.
      apply (continuous_mult (K := R_AbsRing) g1 (fun t => sin (s * t))); auto. }
    assert (X2 : ex_RInt (V := R_NormedModule) (fun t => g2 t * sin (s * t)) L z).
    { apply (ex_RInt_continuous (V := R_CompleteNormedModule)). intros t _.
      apply (continuous_mult (K := R_AbsRing) g2 (fun t => sin (s * t))); auto. }
    destruct X1 as [x1 X1]. destruct X2 as [x2 X2].
    replace 0 with ((1 + -1) * (x1 + x2)) by ring.
    apply assemble with g1 g2 L; auto; try lra.
    + intros t. rewrite <- Ropp_mult_distr_r, sin_neg. ring.
    + intros t Ht. apply D2; lra.
  - apply HZ; assumption.
Qed.

(** Integral of a function with a known antiderivative. *)
Lemma antiderivative : forall (F g : R -> R) a b v,
  (forall t, is_derive F t (g t)) -> (forall t, continuous g t) -> F b - F a = v ->
  is_RInt (V := R_NormedModule) g a b v.
Proof.
  intros F g a b v D K E. rewrite <- E.
  apply (is_RInt_derive (V := R_CompleteNormedModule) F g a b); intros; auto.
Qed.

Lemma continuous_times : forall g h : R -> R,
  (forall t, continuous g t) -> (forall t, continuous h t) ->
  forall t, continuous (fun t => g t * h t) t.
Proof. intros g h G H t. apply (continuous_mult (K := R_AbsRing) g h); auto. Qed.

Lemma continuous_const_R : forall c t : R, continuous (fun _ : R => c) t.
Proof. intros. apply continuous_const. Qed.

Lemma continuous_cos : forall s t : R, continuous (fun t => cos (s * t)) t.
Proof. intros s t. apply (ex_derive_continuous (fun t => cos (s * t))). auto_derive. trivial. Qed.

Lemma zero_integral : forall (h : R -> R) a b, is_RInt (V := R_NormedModule) (fun t => 0 * h t) a b 0.
Proof.
  intros h a b. apply (is_RInt_ext (V := R_NormedModule)) with (fun _ => 0).
  - intros. real_eq. ring.
  - assert (H := is_RInt_const (V := R_NormedModule) a b 0). unfold scal in H; cbn in H; unfold mult in H; cbn in H.
    rewrite Rmult_0_r in H. exact H.
Qed.

(** Equality with another function near a point of an open interval. *)
Lemma derive_near : forall (f g : R -> R) a b t l, a < t < b ->
  (forall y, a < y < b -> f y = g y) -> is_derive g t l -> is_derive f t l.
Proof.
  intros f g a b t l Ht E D. apply is_derive_ext_loc with g; [|exact D].
  assert (P : 0 < Rmin (t - a) (b - t)). { apply Rmin_glb_lt; lra. }
  exists (mkposreal _ P). intros y Hy.
  unfold ball in Hy; cbn in Hy. unfold AbsRing_ball, abs, minus, plus, opp in Hy; cbn in Hy.
  apply Rabs_def2 in Hy. generalize (Rmin_l (t - a) (b - t)), (Rmin_r (t - a) (b - t)). intros.
  symmetry. apply E. lra.
Qed.

Lemma linear_fourier : forall w s v, 0 < w -> profile_dft (Linear w) s = Some v ->
  fourier_of_derivative (curve (Linear w)) s v.
Proof.
  intros w s v W H. assert (S3 := sqrt3_pos). set (L := sqrt 3 * w).
  assert (PL : 0 < L) by (unfold L; nra).
  cbn in H. fold L in H. unfold odiv in H. destruct (Req_EM_T (L * s) 0) as [Q|Q]; [discriminate|].
  assert (s <> 0) by (intros ->; apply Q; ring).
  assert (V : v = sin (L * s) / (L * s)) by congruence. clear H. subst v.
  assert (E : forall z, curve (Linear w) z = Rmin 1 (Rmax (1 / 2 + z / (2 * L)) 0)).
  { intros z. cbn. unfold L. replace (2 * sqrt 3 * w) with (2 * (sqrt 3 * w)) by ring. reflexivity. }
  assert (EL : L / (2 * L) = 1 / 2) by (field; lra).
  assert (I : 0 < / (2 * L)) by (apply Rinv_0_lt_compat; lra).
  apply fourier_intro with (g1 := fun _ => 1 / (2 * L)) (g2 := fun _ => 0) (L := L)
    (c1 := sin (L * s) / (2 * (L * s))) (c2 := fun _ => 0).
  - lra.
  - assert (M : forall t, - L < t < L -> is_derive (curve (Linear w)) t (1 / (2 * L))).
    { intros t Ht. apply derive_near with (fun z => 1 / 2 + z / (2 * L)) (- L) L; [exact Ht| |].
      - intros y Hy. rewrite E. assert (- (1/2) <= y / (2 * L) <= 1/2).
        { unfold Rdiv in *. split; nra. }
        rewrite Rmax_left by lra. rewrite Rmin_right by lra. reflexivity.
      - auto_derive; [trivial|field; lra]. }
    intros t Ht. split; apply M; lra.
  - assert (C : forall t, L < t -> is_derive (curve (Linear w)) t 0 /\ is_derive (curve (Linear w)) (- t) 0).
    { intros t Ht. split.
      - apply derive_near with (fun _ => 1) L (t + 1); [lra| |apply @is_derive_const].
        intros y Hy. rewrite E. assert (1/2 <= y / (2 * L)) by (unfold Rdiv in *; nra).
        rewrite Rmax_left by lra. rewrite Rmin_left by lra. reflexivity.
      - apply derive_near with (fun _ => 0) (- t - 1) (- L); [lra| |apply @is_derive_const].
        intros y Hy. rewrite E. assert (y / (2 * L) <= - (1/2)) by (unfold Rdiv in *; nra).
        rewrite Rmax_right by lra. rewrite Rmin_right by lra. reflexivity. }
    exact C.
  - intros; apply continuous_const_R.
  - intros; apply continuous_const_R.
  - apply antiderivative with (fun t => sin (s * t) / (2 * L * s)).
    + intros t. auto_derive; [trivial|field; split; lra].
    + apply continuous_times; [apply continuous_const_R|apply continuous_cos].
    + rewrite Rmult_0_r, sin_0. replace (s * L) with (L * s) by ring. field. split; lra.
  - intros z _. apply zero_integral.
  - intros eps He. exists 0. intros z _ _.
    replace (2 * (sin (L * s) / (2 * (L * s)) + 0) - sin (L * s) / (L * s)) with 0 by (field; split; lra).
    rewrite Rabs_R0. exact He.
Qed.

Lemma sinus_fourier : forall w s v, 0 < w -> profile_dft (Sinus w) s = Some v ->
  fourier_of_derivative (curve (Sinus w)) s v.
Proof.
  intros w s v W H. assert (A := sinus_a_pos). assert (PP := PI_RGT_0). set (L := sinus_a * w).
  assert (PL : 0 < L) by (unfold L; nra).
  cbn in H. fold L in H. unfold odiv in H.
  destruct (Req_EM_T (L * s - PI / 2) 0) as [Q1|Q1]; [discriminate|]. cbn in H.
  destruct (Req_EM_T (L * s + PI / 2) 0) as [Q2|Q2]; [discriminate|]. cbn in H.
  assert (V : v = PI * (sin (L * s - PI / 2) / (L * s - PI / 2) + sin (L * s + PI / 2) / (L * s + PI / 2)) / 4) by congruence.
  clear H. subst v.
  set (k := PI / (2 * L)). assert (KL : k * L = PI / 2) by (unfold k; field; lra).
  assert (N1 : s - k <> 0). { intros F. apply Q1. rewrite <- KL. replace s with k by lra. ring. }
  assert (N2 : s + k <> 0). { intros F. apply Q2. rewrite <- KL. replace s with (- k) by lra. ring. }
  assert (E : forall z, curve (Sinus w) z = 1 / 2 + sin (k * Rmin L (Rmax z (- L))) / 2).
  { intros z. cbn. fold L. replace (- sinus_a * w) with (- L) by (unfold L; ring).
    f_equal. f_equal. f_equal. unfold k, L. field. nra. }
  assert (Kc : forall t, continuous (fun t => k / 2 * cos (k * t)) t).
  { apply continuous_times; [apply continuous_const_R|apply continuous_cos]. }
  apply fourier_intro with (g1 := fun t => k / 2 * cos (k * t)) (g2 := fun _ => 0) (L := L)
    (c1 := k / 4 * (sin ((s - k) * L) / (s - k) + sin ((s + k) * L) / (s + k))) (c2 := fun _ => 0).
  - lra.
  - assert (M : forall t, - L < t < L -> is_derive (curve (Sinus w)) t (k / 2 * cos (k * t))).
    { intros t Ht. apply derive_near with (fun z => 1 / 2 + sin (k * z) / 2) (- L) L; [exact Ht| |].
      - intros y Hy. rewrite E. rewrite Rmax_left by lra. rewrite Rmin_right by lra. reflexivity.
      - auto_derive; [trivial|field]. }
    intros t Ht. split; [apply M; lra|].
    replace (cos (k * t)) with (cos (k * - t)) by (rewrite <- Ropp_mult_distr_r, cos_neg; reflexivity).
    apply M; lra.
  - intros t Ht. split.
    + apply derive_near with (fun _ => 1 / 2 + sin (k * L) / 2) L (t + 1); [lra| |apply @is_derive_const].
      intros y Hy. rewrite E. rewrite Rmax_left by lra. rewrite Rmin_left by lra. reflexivity.
    + apply derive_near with (fun _ => 1 / 2 + sin (k * - L) / 2) (- t - 1) (- L); [lra| |apply @is_derive_const].
      intros y Hy. rewrite E. rewrite Rmax_right by lra. rewrite Rmin_right by lra. reflexivity.
  - exact Kc.
  - intros; apply continuous_const_R.
  - apply antiderivative with (fun t => k / 4 * (sin ((s - k) * t) / (s - k) + sin ((s + k) * t) / (s + k))).
    + intros t. auto_derive; [trivial|].
      replace ((s + - k) * t) with (s * t - k * t) by ring. replace ((s + k) * t) with (s * t + k * t) by ring.
      replace ((s - k) * t) with (s * t - k * t) by ring.
      rewrite cos_minus, cos_plus. field. split; lra.
    + apply continuous_times; [exact Kc|apply continuous_cos].
    + rewrite !Rmult_0_r, sin_0. field. split; lra.
  - intros z _. apply zero_integral.
  - intros eps He. exists 0. intros z _ _.
    replace ((s - k) * L) with (L * s - PI / 2) by (rewrite <- KL; ring).
    replace ((s + k) * L) with (L * s + PI / 2) by (rewrite <- KL; ring).
    set (a1 := sin _). set (a2 := sin _).
    replace (L * s - PI / 2) with (L * (s - k)) by (rewrite <- KL; ring).
    replace (L * s + PI / 2) with (L * (s + k)) by (rewrite <- KL; ring).
    replace PI with (2 * L * k) by (unfold k; field; lra).
    replace (_ - _) with 0 by (field; repeat split; lra).
    rewrite Rabs_R0. exact He.
Qed.

Lemma exponential_fourier : forall w s v, 0 < w -> profile_dft (Exponential w) s = Some v ->
  fourier_of_derivative (curve (Exponential w)) s v.
Proof.
  intros w s v W H. assert (S2 := sqrt2_pos). assert (Q2 := sqrt2_sq).
  assert (Pq : 0 < 1 + (s * w) ^ 2 / 2). { generalize (pow2_ge_0 (s * w)). lra. }
  cbn [profile_dft] in H. rewrite odiv_some in H by lra.
  assert (V : v = 1 / (1 + (s * w) ^ 2 / 2)) by congruence. clear H. subst v.
  set (b := sqrt 2 / w). assert (B : 0 < b) by (apply Rdiv_lt_0_compat; lra).
  assert (BW : b * b * (w * w) = 2). { rewrite <- Q2. unfold b. field. lra. }
  assert (D : 0 < b * b + s * s) by nra.
  assert (Pos : forall z, 0 < z -> curve (Exponential w) z = 1 - exp (- b * z) / 2).
  { intros z H. cbn. rewrite rsign_pos by exact H. replace (- (1) * sqrt 2 * z / w) with (- b * z) by (unfold b; field; lra). lra. }
  assert (Neg : forall z, z < 0 -> curve (Exponential w) z = exp (b * z) / 2).
  { intros z H. cbn. rewrite rsign_neg by exact H. replace (- -1 * sqrt 2 * z / w) with (b * z) by (unfold b; field; lra). lra. }
  assert (Kc : forall t, continuous (fun t => b / 2 * exp (- b * t)) t).
  { intros t. apply (ex_derive_continuous (fun t => b / 2 * exp (- b * t))). auto_derive. trivial. }
  set (F := fun t => b / 2 * exp (- b * t) * (s * sin (s * t) - b * cos (s * t)) / (b * b + s * s)).
  apply fourier_intro with (g1 := fun t => 0) (g2 := fun t => b / 2 * exp (- b * t)) (L := 0)
    (c1 := 0) (c2 := fun z => F z + b * b / (2 * (b * b + s * s))).
  - lra.
  - intros t Ht. lra.
  - intros t Ht. split.
    + apply derive_near with (fun z => 1 - exp (- b * z) / 2) 0 (t + 1); [lra| |].
      * intros y Hy. apply Pos; lra.
      * auto_derive; [trivial|]. field.
    + apply derive_near with (fun z => exp (b * z) / 2) (- t - 1) 0; [lra| |].
      * intros y Hy. apply Neg; lra.
      * auto_derive; [trivial|]. replace (b * - t) with (- b * t) by ring. field.
  - intros; apply continuous_const_R.
  - exact Kc.
  - apply (is_RInt_point (V := R_NormedModule)).
  - intros z Hz. apply antiderivative with F.
    + intros t. unfold F. auto_derive; [lra|]. field. lra.
    + apply continuous_times; [exact Kc|apply continuous_cos].
    + unfold F. rewrite !Rmult_0_r, sin_0, cos_0, exp_0. field. lra.
  - intros eps He.
    set (K := b * (Rabs s + b) / (b * b + s * s)).
    assert (PK : 0 < K). { apply Rdiv_lt_0_compat; [|exact D]. generalize (Rabs_pos s). nra. }
    destruct (exp_small (eps / K)) as [X HX]. { apply Rdiv_lt_0_compat; assumption. }
    exists (X / b). intros z Hz _.
    replace (2 * (0 + (F z + b * b / (2 * (b * b + s * s)))) - 1 / (1 + (s * w) ^ 2 / 2)) with (2 * F z).
    2: { assert (1 / (1 + (s * w) ^ 2 / 2) = b * b / (b * b + s * s)).
         { apply Rmult_eq_reg_r with ((1 + (s * w) ^ 2 / 2) * (b * b + s * s)); [|nra].
           transitivity (b * b + s * s); [field; lra|].
           transitivity (b * b + s * s * (b * b * (w * w)) / 2); [rewrite BW; field|field; lra]. }
         rewrite H. field. lra. }
    assert (Xz : X <= b * z). { replace X with (b * (X / b)) by (field; lra). apply Rmult_le_compat_l; lra. }
    assert (Hx := HX _ Xz).
    assert (Rabs (2 * F z) <= K * exp (- (b * z))).
    { unfold F. replace (2 * (b / 2 * exp (- b * z) * (s * sin (s * z) - b * cos (s * z)) / (b * b + s * s)))
        with (exp (- (b * z)) * (b / (b * b + s * s)) * (s * sin (s * z) - b * cos (s * z))).
      2: { replace (- b * z) with (- (b * z)) by ring. field. lra. }
      rewrite !Rabs_mult, (Rabs_pos_eq (exp _)), (Rabs_pos_eq (b / _)).
      2: { left; apply Rdiv_lt_0_compat; lra. } 2: { left; apply exp_pos. }
      replace (K * exp (- (b * z))) with (exp (- (b * z)) * (b / (b * b + s * s)) * (Rabs s + b)) by (unfold K; field; lra).
      apply Rmult_le_compat_l.
      { apply Rmult_le_pos; [left; apply exp_pos|]. left; apply Rdiv_lt_0_compat; lra. }
      unfold Rminus. eapply Rle_trans; [apply Rabs_triang|]. rewrite Rabs_Ropp, !Rabs_mult, (Rabs_pos_eq b) by lra.
      assert (Rabs (sin (s * z)) <= 1) by (apply Rabs_le; apply SIN_bound).
      assert (Rabs (cos (s * z)) <= 1) by (apply Rabs_le; apply COS_bound).
      generalize (Rabs_pos s). nra. }
    apply Rle_lt_trans with (1 := H). replace eps with (K * (eps / K)) by (field; lra).
    apply Rmult_lt_compat_l; assumption.
Qed.

Lemma erf_curve_derive : forall w t, 0 < w ->
  is_derive (curve (Erf w)) t (1 / (sqrt 2 * w * sqrt PI) * gauss (t / (sqrt 2 * w))).
Proof.
  intros w t W. assert (S2 := sqrt2_pos). assert (SP := sqrt_PI_pos). set (sg := sqrt 2 * w).
  assert (P : 0 < sg) by (unfold sg; nra).
  assert (D := is_derive_comp (V := R_NormedModule) erf (fun t => t / sg) t (2 / sqrt PI * gauss (t / sg)) (1 / sg)
    (erf_derive (t / sg))). unfold scal in D; cbn in D; unfold mult in D; cbn in D.
  apply is_derive_ext with (fun t => scal (1 / 2) (plus 1 (erf (t / sg)))).
  { intros u. cbn. fold sg. unfold scal; cbn; unfold mult, plus; cbn. real_eq. field. }
  replace (1 / (sg * sqrt PI) * gauss (t / sg)) with (scal (1 / 2) (plus 0 (1 / sg * (2 / sqrt PI * gauss (t / sg))))).
  2: { unfold scal; cbn; unfold mult, plus; cbn. real_eq. field. lra. }
  apply (is_derive_scal (fun t => plus 1 (erf (t / sg))) t (1 / 2)).
  apply (is_derive_plus (V := R_NormedModule)); [apply @is_derive_const|].
  apply D. auto_derive; [trivial|]. field. lra.
Qed.

Lemma gauss_even : forall t, gauss (- t) = gauss t.
Proof. intros. unfold gauss. f_equal. ring. Qed.

Lemma erf_integral : forall w (h : R -> R) z c, 0 < w ->
  is_RInt (V := R_NormedModule) (fun u => gauss u * h (sqrt 2 * w * u)) 0 (z / (sqrt 2 * w)) c ->
  is_RInt (V := R_NormedModule) (fun t => 1 / (sqrt 2 * w * sqrt PI) * gauss (t / (sqrt 2 * w)) * h t) 0 z (c / sqrt PI).
Proof.
  intros w h z c W I. assert (S2 := sqrt2_pos). assert (SP := sqrt_PI_pos). set (sg := sqrt 2 * w) in *.
  assert (P : 0 < sg) by (unfold sg; nra).
  assert (J := is_RInt_comp_lin (V := R_NormedModule) (fun u => gauss u * h (sg * u)) (1 / sg) 0 0 z c).
  replace (1 / sg * 0 + 0) with 0 in J by ring. replace (1 / sg * z + 0) with (z / sg) in J by (field; lra).
  specialize (J I). apply (is_RInt_scal (V := R_NormedModule)) with (k := 1 / sqrt PI) in J.
  replace (c / sqrt PI) with (scal (1 / sqrt PI) c). 2: { unfold scal; cbn; unfold mult; cbn. real_eq. field. lra. }
  apply (is_RInt_ext (V := R_NormedModule)) with (2 := J). intros t _. unfold scal; cbn; unfold mult; cbn. real_eq.
  replace (1 / sg * t + 0) with (t / sg) by (field; lra). replace (sg * (t / sg)) with t by (field; lra). field. lra.
Qed.

Lemma erf_fourier : forall w s v, 0 < w -> profile_dft (Erf w) s = Some v ->
  fourier_of_derivative (curve (Erf w)) s v.
Proof.
  intros w s v W H. assert (S2 := sqrt2_pos). assert (Q2 := sqrt2_sq). assert (SP := sqrt_PI_pos).
  cbn [profile_dft] in H. assert (V : v = exp (- (s * w) ^ 2 / 2)) by congruence. clear H. subst v.
  set (sg := sqrt 2 * w). assert (P : 0 < sg) by (unfold sg; nra).
  set (S := s * sg). assert (ES : - (s * w) ^ 2 / 2 = - S ^ 2 / 4).
  { unfold S, sg. replace ((s * (sqrt 2 * w)) ^ 2) with ((s * w) ^ 2 * (sqrt 2 * sqrt 2)) by ring. rewrite Q2. field. }
  apply fourier_intro with (g1 := fun t => 0) (g2 := fun t => 1 / (sg * sqrt PI) * gauss (t / sg)) (L := 0)
    (c1 := 0) (c2 := fun z => gauss_cos (z / sg) S / sqrt PI).
  - lra.
  - intros t Ht. lra.
  - intros t Ht. split; [apply erf_curve_derive; exact W|].
    rewrite <- (gauss_even (t / sg)). replace (- (t / sg)) with (- t / sg) by (field; lra).
    apply erf_curve_derive; exact W.
  - intros; apply continuous_const_R.
  - intros t. apply (ex_derive_continuous (fun t => 1 / (sg * sqrt PI) * gauss (t / sg))). unfold gauss. auto_derive. lra.
  - apply (is_RInt_point (V := R_NormedModule)).
  - intros z Hz. apply (erf_integral w (fun t => cos (s * t))); [exact W|]. fold sg.
    apply (is_RInt_ext (V := R_NormedModule)) with (fun t => gauss t * cos (S * t)).
    { intros t _. unfold S. rewrite Rmult_assoc. reflexivity. }
    apply (RInt_correct (V := R_CompleteNormedModule)), gauss_cos_ex.
  - intros eps He.
    destruct (erf_limit (eps / 2) ltac:(lra)) as [X [X0 HX]].
    set (K := 2 / sqrt PI * Rabs S).
    assert (PK : 0 <= K). { apply Rmult_le_pos; [left; apply Rdiv_lt_0_compat; lra|apply Rabs_pos]. }
    exists (sg * (X + 2 * K / eps)). intros z Hz _. set (x := z / sg).
    assert (Q : 0 <= 2 * K / eps). { apply Rmult_le_pos; [lra|]. left; apply Rinv_0_lt_compat; exact He. }
    assert (Hx : X + 2 * K / eps <= x).
    { apply Rmult_le_reg_l with sg; [exact P|]. replace (sg * x) with z by (unfold x; field; lra). exact Hz. }
    assert (Ex := HX x ltac:(lra)). assert (Eb := erf_bounds x).
    assert (C := gauss_cos_close x S ltac:(lra)). assert (G := gauss_small x ltac:(lra)).
    replace (2 * (0 + gauss_cos x S / sqrt PI) - exp (- (s * w) ^ 2 / 2)) with
      (2 / sqrt PI * (gauss_cos x S - exp (- S ^ 2 / 4) * gauss_int x) + exp (- S ^ 2 / 4) * (erf x - 1)).
    2: { rewrite ES, erf_value. field. lra. }
    eapply Rle_lt_trans; [apply Rabs_triang|].
    rewrite !Rabs_mult, (Rabs_pos_eq (2 / sqrt PI)), (Rabs_pos_eq (exp _)).
    2: { left; apply exp_pos. } 2: { left; apply Rdiv_lt_0_compat; lra. }
    assert (B1 : 2 / sqrt PI * Rabs (gauss_cos x S - exp (- S ^ 2 / 4) * gauss_int x) <= K * gauss x).
    { unfold K. rewrite Rmult_assoc. apply Rmult_le_compat_l; [left; apply Rdiv_lt_0_compat; lra|exact C]. }
    assert (B2 : K * gauss x <= eps / 2).
    { apply Rle_trans with (K * / x). { apply Rmult_le_compat_l; lra. }
      apply Rmult_le_reg_r with (x * 2 / eps). { apply Rdiv_lt_0_compat; lra. }
      replace (K * / x * (x * 2 / eps)) with (2 * K / eps) by (field; split; lra).
      replace (eps / 2 * (x * 2 / eps)) with x by (field; lra). lra. }
    assert (B3 : exp (- S ^ 2 / 4) <= 1).
    { rewrite <- exp_0. generalize (pow2_ge_0 S). intros. destruct (Req_dec (- S ^ 2 / 4) 0) as [-> | N]; [lra|].
      left. apply exp_increasing. lra. }
    rewrite (Rabs_left1 (erf x - 1)) by lra. generalize (exp_pos (- S ^ 2 / 4)). nra.
Qed.

Lemma fourier_ext : forall f g s v, (forall z, f z = g z) ->
  fourier_of_derivative f s v -> fourier_of_derivative g s v.
Proof.
  intros f g s v E F eps He. destruct (F eps He) as [Z HZ]. exists Z. intros z Hz.
  destruct (HZ z Hz) as (c & A & B & C). exists c. split; [|split; [|exact C]].
  - apply (is_RInt_ext (V := R_NormedModule)) with (2 := A). intros t _. rewrite (Derive_ext f g t E). reflexivity.
  - apply (is_RInt_ext (V := R_NormedModule)) with (2 := B). intros t _. rewrite (Derive_ext f g t E). reflexivity.
Qed.

Lemma profile_fourier : forall p f s v, 0 < width_of p ->
  (forall z, profile_call p z = Some (f z)) -> profile_dft p s = Some v ->
  fourier_of_derivative f s v.
Proof.
  intros p f s v W E H. apply fourier_ext with (curve p).
  { intros z. generalize (E z). rewrite call_curve by exact W. congruence. }
  destruct p; cbn [width_of] in W.
  - apply erf_fourier; assumption. - apply exponential_fourier; assumption.
  - apply linear_fourier; assumption. - apply sinus_fourier; assumption.
Qed.

(** * Sizes of the factors *)

Lemma sin_abs : forall x, Rabs (sin x) <= Rabs x.
Proof.
  assert (P : forall x, 0 < x -> Rabs (sin x) <= x).
  { intros x X. apply Rabs_le. split.
    - destruct (Rle_dec x PI). { generalize (sin_ge_0 x ltac:(lra) ltac:(lra)). lra. }
      generalize (SIN_bound x), pi_3. lra.
    - left. apply sin_lt_x. exact X. }
  intros x. destruct (Rtotal_order x 0) as [X|[X|X]].
  - rewrite <- Rabs_Ropp, <- sin_neg, <- (Rabs_Ropp x), (Rabs_pos_eq (- x)) by lra. apply P; lra.
  - subst. rewrite sin_0. lra.
  - rewrite (Rabs_pos_eq x) by lra. apply P; lra.
Qed.

Lemma sinus_bound : forall x y1 y2, odiv (sin (x - PI / 2)) (x - PI / 2) = Some y1 ->
  odiv (sin (x + PI / 2)) (x + PI / 2) = Some y2 -> Rabs (PI * (y1 + y2) / 4) <= 1.
Proof.
  intros x y1 y2 H1 H2. unfold odiv in *.
  destruct (Req_EM_T (x - PI / 2) 0) as [Q1|Q1]; [discriminate|].
  destruct (Req_EM_T (x + PI / 2) 0) as [Q2|Q2]; [discriminate|].
  assert (V1 : y1 = sin (x - PI / 2) / (x - PI / 2)) by congruence.
  assert (V2 : y2 = sin (x + PI / 2) / (x + PI / 2)) by congruence. clear H1 H2. subst.
  assert (PP := PI_RGT_0). set (k := PI / 2). fold k in Q1, Q2 |- *.
  (* the factor is the integral of (k/2) cos(k t) 2 cos(x t) over (0, 1) *)
  assert (Kc : forall t, continuous (fun t => k * cos (k * t)) t).
  { apply continuous_times; [apply continuous_const_R|apply continuous_cos]. }
  assert (I : is_RInt (V := R_NormedModule) (fun t => k * cos (k * t) * cos (x * t)) 0 1
    (PI * (sin (x - k) / (x - k) + sin (x + k) / (x + k)) / 4)).
  { apply antiderivative with (fun t => k / 2 * (sin ((x - k) * t) / (x - k) + sin ((x + k) * t) / (x + k))).
    - intros t. auto_derive; [trivial|].
      replace ((x + - k) * t) with (x * t - k * t) by ring. replace ((x + k) * t) with (x * t + k * t) by ring.
      replace ((x - k) * t) with (x * t - k * t) by ring.
      rewrite cos_minus, cos_plus. field. split; lra.
    - apply continuous_times; [exact Kc|apply continuous_cos].
    - rewrite !Rmult_0_r, sin_0, !Rmult_1_r. replace PI with (2 * k) by (unfold k; field). field. split; lra. }
  assert (J : is_RInt (V := R_NormedModule) (fun t => k * cos (k * t)) 0 1 1).
  { apply antiderivative with (fun t => sin (k * t)).
    - intros t. auto_derive; [trivial|]. ring.
    - exact Kc.
    - rewrite Rmult_0_r, sin_0, Rmult_1_r. unfold k. rewrite sin_PI2. ring. }
  apply Rabs_le. split.
  - assert (JN := is_RInt_opp (V := R_NormedModule) _ _ _ _ J).
    apply (is_RInt_le (fun t => opp (k * cos (k * t))) (fun t => k * cos (k * t) * cos (x * t)) 0 1); [lra|exact JN|exact I|].
    intros t Ht. unfold opp; cbn. assert (0 <= cos (k * t)). { unfold k. apply cos_ge_0; nra. }
    assert (0 <= k * cos (k * t)) by (apply Rmult_le_pos; [unfold k; lra|assumption]).
    set (q := k * cos (k * t)) in *. generalize (COS_bound (x * t)). nra.
  - apply (is_RInt_le (fun t => k * cos (k * t) * cos (x * t)) (fun t => k * cos (k * t)) 0 1); [lra|exact I|exact J|].
    intros t Ht. assert (0 <= cos (k * t)). { unfold k. apply cos_ge_0; nra. }
    assert (0 <= k * cos (k * t)) by (apply Rmult_le_pos; [unfold k; lra|assumption]).
    set (q := k * cos (k * t)) in *. generalize (COS_bound (x * t)). nra.
Qed.

Lemma dft_bound : forall p s v, profile_dft p s = Some v -> Rabs v <= 1.
Proof.
  intros [w|w|w|w] s v H; cbn [profile_dft] in H.
  - assert (V : v = exp (- (s * w) ^ 2 / 2)) by congruence. subst v.
    rewrite Rabs_pos_eq by (left; apply exp_pos). rewrite <- exp_0.
    generalize (pow2_ge_0 (s * w)). intros. destruct (Req_dec (- (s * w) ^ 2 / 2) 0) as [-> | N]; [lra|].
    left. apply exp_increasing. lra.
  - assert (P := pow2_ge_0 (s * w)). rewrite odiv_some in H by lra.
    assert (V : v = 1 / (1 + (s * w) ^ 2 / 2)) by congruence. subst v.
    rewrite Rabs_pos_eq by (left; apply Rdiv_lt_0_compat; lra). apply Rle_div_l; lra.
  - unfold odiv in H. destruct (Req_EM_T (sqrt 3 * w * s) 0) as [Q|Q]; [discriminate|].
    assert (V : v = sin (sqrt 3 * w * s) / (sqrt 3 * w * s)) by congruence. subst v.
    unfold Rdiv. rewrite Rabs_mult, Rabs_inv. apply Rle_div_l; [apply Rabs_pos_lt; exact Q|].
    rewrite Rmult_1_l. apply sin_abs.
  - cbv zeta in H. destruct (odiv (sin (sinus_a * w * s - PI / 2)) _) as [y1|] eqn:E1; [|discriminate].
    destruct (odiv (sin (sinus_a * w * s + PI / 2)) _) as [y2|] eqn:E2; [|discriminate]. cbn in H.
    assert (V : v = PI * (y1 + y2) / 4) by congruence. subst v.
    exact (sinus_bound _ _ _ E1 E2).
Qed.

Lemma odiv_neg : forall a b, odiv (- a) (- b) = odiv a b.
Proof.
  intros a b. unfold odiv. destruct (Req_EM_T b 0) as [E|E], (Req_EM_T (- b) 0) as [F|F]; try lra; [reflexivity|].
  f_equal. field. lra.
Qed.

Lemma dft_even : forall p s, profile_dft p (- s) = profile_dft p s.
Proof.
  intros [w|w|w|w] s; cbn [profile_dft].
  - do 2 f_equal. field.
  - f_equal. field.
  - cbv zeta. rewrite <- Ropp_mult_distr_r, sin_neg. apply odiv_neg.
  - cbv zeta. rewrite <- Ropp_mult_distr_r.
    set (x := sinus_a * w * s).
    replace (- x - PI / 2) with (- (x + PI / 2)) by ring. replace (- x + PI / 2) with (- (x - PI / 2)) by ring.
    rewrite !sin_neg, !odiv_neg.
    destruct (odiv (sin (x - PI / 2)) _), (odiv (sin (x + PI / 2)) _); cbn; try reflexivity.
    f_equal. field.
Qed.

Lemma dft_zero : forall p s, (forall w, p <> Linear w) -> width_of p = 0 \/ s = 0 -> profile_dft p s = Some 1.
Proof.
  intros p s N Z. assert (PP := PI_RGT_0). destruct p as [w|w|w|w]; cbn [width_of profile_dft] in *.
  - f_equal. replace (- (s * w) ^ 2 / 2) with 0 by (destruct Z; subst; field). apply exp_0.
  - rewrite odiv_some.
    + f_equal. destruct Z; subst; field.
    + destruct Z; subst; lra.
  - elim (N w); reflexivity.
  - cbv zeta. replace (sinus_a * w * s) with 0 by (destruct Z; subst; ring).
    rewrite Rminus_0_l, Rplus_0_l, !odiv_some by lra. cbn. rewrite sin_neg, sin_PI2. f_equal. field. lra.
Qed.

Lemma dft_linear_zero : forall w s, w = 0 \/ s = 0 -> profile_dft (Linear w) s = None.
Proof.
  intros w s Z. cbn. replace (sqrt 3 * w * s) with 0 by (destruct Z; subst; ring). apply odiv_none.
Qed.

Lemma dft_defined : forall p s, profile_dft p s = None ->
  (exists w, p = Linear w /\ (w = 0 \/ s = 0)) \/ (exists w, p = Sinus w /\ Rabs (sinus_a * w * s) = PI / 2).
Proof.
  intros p s H. assert (PP := PI_RGT_0). assert (S3 := sqrt3_pos). destruct p as [w|w|w|w]; cbn [profile_dft] in H.
  - discriminate.
  - rewrite odiv_some in H; [discriminate|]. generalize (pow2_ge_0 (s * w)). lra.
  - left. exists w. split; [reflexivity|]. unfold odiv in H. destruct (Req_EM_T (sqrt 3 * w * s) 0) as [Q|]; [|discriminate].
    destruct (Rmult_integral _ _ Q) as [Q'|Q']; [|right; exact Q']. destruct (Rmult_integral _ _ Q'); [lra|left; assumption].
  - right. exists w. split; [reflexivity|]. cbv zeta in H. unfold odiv in H.
    destruct (Req_EM_T (sinus_a * w * s - PI / 2) 0) as [Q|Q].
    + rewrite Rabs_pos_eq; lra.
    + cbn in H. destruct (Req_EM_T (sinus_a * w * s + PI / 2) 0) as [Q2|Q2]; [|discriminate].
      rewrite Rabs_left1; lra.
Qed.
