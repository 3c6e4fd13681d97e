(** Proofs about the factors of interface profiles and about their widths. *)
From Coq Require Import Reals Lra Psatz.
From Coquelicot Require Import Coquelicot.
From Verif Require Import Num ComplexModel ProfileModel ProfileSpec GaussLemmas ComplexLemmas ProfileProofs.
Open Scope R_scope.

(** * Reflectivity and transmissivity *)

Lemma reflectivity_bound : forall p wavelength d n v,
  profile_reflectivity p wavelength d n = Some v -> Rabs v <= 1.
Proof.
  intros p wl d n v H. unfold profile_reflectivity in H.
  destruct (cdiv _ _) as [k|]; [|discriminate]. exact (dft_bound _ _ _ H).
Qed.

Lemma transmissivity_bound : forall p wavelength d1 d2 n1 n2 v,
  profile_transmissivity p wavelength d1 d2 n1 n2 = Some v -> Rabs v <= 1.
Proof.
  intros p wl d1 d2 n1 n2 v H. unfold profile_transmissivity in H.
  destruct (cdiv _ _) as [k|]; [|discriminate]. cbn in H.
  destruct (cdiv _ _) as [k'|]; [|discriminate]. exact (dft_bound _ _ _ H).
Qed.

Lemma cdiv_real : forall (a : C) b, b <> 0 -> cdiv a (RtoC b) = Some (a / RtoC b)%C.
Proof.
  intros a b B. unfold cdiv. destruct (Ceq_dec _ _) as [E|E]; [|reflexivity].
  elim B. apply (f_equal fst) in E. exact E.
Qed.

Lemma reflectivity_one : forall p wavelength d n, wavelength <> 0 -> (forall w, p <> Linear w) ->
  width_of p = 0 \/ d = RtoC 0 -> profile_reflectivity p wavelength d n = Some 1.
Proof.
  intros p wl d n W N Z. unfold profile_reflectivity. rewrite cdiv_real by exact W. cbn [obind].
  apply dft_zero; [exact N|]. destruct Z as [Z|Z]; [left; exact Z|right]. subst d.
  rewrite Cmult_0_r. unfold Cdiv. rewrite Cmult_0_l, Cmult_0_r. reflexivity.
Qed.

Lemma transmissivity_same : forall p wavelength d n, wavelength <> 0 -> profile_transmissivity p wavelength d d n n = profile_dft p 0.
Proof.
  intros p wl d n W. unfold profile_transmissivity. rewrite cdiv_real by exact W. cbn [obind]. f_equal.
  generalize ((RtoC (-2 * PI) * n * d / RtoC wl)%C). intros k. cbn. ring.
Qed.

Lemma transmissivity_one : forall p wavelength d n, wavelength <> 0 -> (forall w, p <> Linear w) ->
  profile_transmissivity p wavelength d d n n = Some 1.
Proof.
  intros p wl d n W N. rewrite transmissivity_same by exact W. apply dft_zero; [exact N|]. right; reflexivity.
Qed.

Lemma transmissivity_linear_none : forall w wavelength d n, wavelength <> 0 ->
  profile_transmissivity (Linear w) wavelength d d n n = None.
Proof. intros w wl d n W. rewrite transmissivity_same by exact W. apply dft_linear_zero. right; reflexivity. Qed.

Lemma transmissivity_reversed : forall p wavelength d n,
  profile_transmissivity p wavelength d (- d)%C n n = profile_reflectivity p wavelength d n.
Proof.
  intros p wl d n. unfold profile_transmissivity, profile_reflectivity, cdiv. destruct (Ceq_dec _ _) as [|Z]; [reflexivity|].
  cbn [obind]. f_equal. f_equal. unfold Cdiv. generalize (/ RtoC wl)%C. intros v. cring.
Qed.

Lemma reflectivity_linear_none : forall w wavelength d n, wavelength <> 0 -> w = 0 \/ d = RtoC 0 ->
  profile_reflectivity (Linear w) wavelength d n = None.
Proof.
  intros w wl d n W Z. unfold profile_reflectivity. rewrite cdiv_real by exact W. cbn [obind].
  apply dft_linear_zero. destruct Z as [Z|Z]; [left; exact Z|right]. subst d.
  rewrite Cmult_0_r. unfold Cdiv. rewrite Cmult_0_l, Cmult_0_r. reflexivity.
Qed.

Lemma reflectivity_frequency : forall p wavelength d n, wavelength <> 0 ->
  profile_reflectivity p wavelength (RtoC d) (RtoC n) = profile_dft p (4 * PI * n * d / wavelength).
Proof.
  intros p wl d n W. unfold profile_reflectivity. rewrite cdiv_real by exact W. cbn [obind].
  f_equal. unfold Cdiv. rewrite <- RtoC_inv by exact W. rewrite <- !RtoC_mult. cbn. field. exact W.
Qed.

Lemma reflectivity_sinus_none :
  exists wavelength, 0 < wavelength /\ profile_reflectivity (Sinus 1) wavelength (RtoC 1) (RtoC 1) = None.
Proof.
  assert (A := sinus_a_pos). exists (8 * sinus_a). split; [lra|].
  rewrite reflectivity_frequency by lra. cbn. 
  replace (sinus_a * 1 * (4 * PI * 1 * 1 / (8 * sinus_a)) - PI / 2) with 0 by (field; lra).
  rewrite odiv_none. reflexivity.
Qed.

(** * Units *)

Lemma linear_units : forall w unit_w s unit_s, unit_w * unit_s = 1 ->
  linear_dft_units w unit_w s unit_s = profile_dft (Linear (w * unit_w)) (s * unit_s).
Proof.
  intros w uw s us U. unfold linear_dft_units. cbn.
  replace (sqrt 3 * (w * uw) * (s * us)) with (sqrt 3 * w * s) by (replace (sqrt 3 * w * s) with (sqrt 3 * w * s * (uw * us)) by (rewrite U; ring); ring).
  rewrite U, Rmult_1_r. reflexivity.
Qed.

(** Ten angstrom against one nanometre. *)
Lemma linear_units_differ : exists s, 
  linear_dft_units 10 1 s 1 <> linear_dft_units 1 10 s 1 /\
  linear_dft_units 10 1 s 1 = profile_dft (Linear 10) s.
Proof.
  assert (S3 := sqrt3_pos). assert (PP := PI_RGT_0).
  exists (PI / (10 * sqrt 3)). split.
  - unfold linear_dft_units.
    replace (sqrt 3 * 10 * (PI / (10 * sqrt 3))) with PI by (field; lra).
    replace (sqrt 3 * 1 * (PI / (10 * sqrt 3))) with (PI / 10) by (field; lra).
    rewrite !odiv_some by lra. rewrite sin_PI. intros E.
    assert (E' : 0 / (PI * (1 * 1)) = sin (PI / 10) / (PI / 10 * (10 * 1))) by congruence.
    assert (0 < sin (PI / 10)) by (apply sin_gt_0; lra).
    assert (0 < sin (PI / 10) / (PI / 10 * (10 * 1))) by (apply Rdiv_lt_0_compat; lra).
    unfold Rdiv at 1 in E'. rewrite Rmult_0_l in E'. lra.
  - rewrite linear_units by ring. f_equal; [f_equal; ring | ring].
Qed.

(** * Widths *)

Lemma variance_intro : forall (f g1 g2 : R -> R) (L v : R) (c2 : R -> R) c1,
  0 <= L ->
  (forall t, 0 < t < L -> is_derive f t (g1 t) /\ is_derive f (- t) (g1 t)) ->
  (forall t, L < t -> is_derive f t (g2 t) /\ is_derive f (- t) (g2 t)) ->
  is_RInt (V := R_NormedModule) (fun t => g1 t * t ^ 2) 0 L c1 ->
  (forall z, L <= z -> is_RInt (V := R_NormedModule) (fun t => g2 t * t ^ 2) L z (c2 z)) ->
  (forall eps, 0 < eps -> exists Z, forall z, Z <= z -> L <= z -> Rabs (2 * (c1 + c2 z) - v) < eps) ->
  variance_of_derivative f v.
Proof.
  intros f g1 g2 L v c2 c1 HL D1 D2 I1 I2 Lim eps E.
  destruct (Lim eps E) as [Z HZ]. exists (Rmax Z L). intros z Hz.
  assert (Z <= z /\ L <= z) as [Z1 Z2].
  { split; eapply Rle_trans; try exact Hz; [apply Rmax_l|apply Rmax_r]. }
  exists (2 * (c1 + c2 z)). split; [|apply HZ; assumption].
  replace (2 * (c1 + c2 z)) with ((1 + 1) * (c1 + c2 z)) by ring.
  apply assemble with g1 g2 L; auto; try lra.
  + intros t. ring.
  + intros t Ht. apply D2; lra.
Qed.

Lemma continuous_sq : forall t : R, continuous (fun t => t ^ 2) t.
Proof. intros t. apply (ex_derive_continuous (fun t => t ^ 2)). auto_derive. trivial. Qed.

Lemma linear_derives : forall w, 0 < w ->
  (forall t, 0 < t < sqrt 3 * w -> is_derive (curve (Linear w)) t (1 / (2 * (sqrt 3 * w))) /\ is_derive (curve (Linear w)) (- t) (1 / (2 * (sqrt 3 * w)))) /\
  (forall t, sqrt 3 * w < t -> is_derive (curve (Linear w)) t 0 /\ is_derive (curve (Linear w)) (- t) 0).
Proof.
  intros w W. assert (S3 := sqrt3_pos). set (L := sqrt 3 * w).
  assert (PL : 0 < L) by (unfold L; nra).
  assert (E : forall z, curve (Linear w) z = Rmin 1 (Rmax (1 / 2 + z / (2 * L)) 0)).
  { intros z. cbn. unfold L. replace (2 * sqrt 3 * w) with (2 * (sqrt 3 * w)) by ring. reflexivity. }
  assert (EL : L / (2 * L) = 1 / 2) by (field; lra).
  assert (I : 0 < / (2 * L)) by (apply Rinv_0_lt_compat; lra).
  split.
  - assert (M : forall t, - L < t < L -> is_derive (curve (Linear w)) t (1 / (2 * L))).
    { intros t Ht. apply derive_near with (fun z => 1 / 2 + z / (2 * L)) (- L) L; [exact Ht| |].
      - intros y Hy. rewrite E. assert (- (1/2) <= y / (2 * L) <= 1/2).
        { unfold Rdiv in *. split; nra. }
        rewrite Rmax_left by lra. rewrite Rmin_right by lra. reflexivity.
      - auto_derive; [trivial|field; lra]. }
    intros t Ht. split; apply M; lra.
  - intros t Ht. split.
      + apply derive_near with (fun _ => 1) L (t + 1); [lra| |apply @is_derive_const].
        intros y Hy. rewrite E. assert (1/2 <= y / (2 * L)) by (unfold Rdiv in *; nra).
        rewrite Rmax_left by lra. rewrite Rmin_left by lra. reflexivity.
      + apply derive_near with (fun _ => 0) (- t - 1) (- L); [lra| |apply @is_derive_const].
        intros y Hy. rewrite E. assert (y / (2 * L) <= - (1/2)) by (unfold Rdiv in *; nra).
        rewrite Rmax_right by lra. rewrite Rmin_right by lra. reflexivity.
Qed.

Lemma linear_variance : forall w, 0 < w -> variance_of_derivative (curve (Linear w)) (w ^ 2).
Proof.
  intros w W. assert (S3 := sqrt3_pos). assert (Q3 := sqrt3_sq). destruct (linear_derives w W) as [D1 D2].
  set (L := sqrt 3 * w) in *. assert (PL : 0 < L) by (unfold L; nra).
  assert (LL : L * L = 3 * w ^ 2) by (rewrite <- Q3; unfold L; ring).
  apply variance_intro with (fun _ => 1 / (2 * L)) (fun _ => 0) L (fun _ => 0) (L * L / 6); [lra|exact D1|exact D2| | |].
  - apply antiderivative with (fun t => t ^ 3 / (6 * L)).
    + intros t. auto_derive; [trivial|field; lra].
    + apply continuous_times; [apply continuous_const_R|apply continuous_sq].
    + field. lra.
  - intros z _. apply zero_integral.
  - intros eps He. exists 0. intros z _ _. rewrite LL.
    replace (_ - _) with 0 by field. rewrite Rabs_R0. exact He.
Qed.

(** The sinusoidal curve with any factor in place of [a]. *)
Definition sine_curve (L z : R) : R := 1 / 2 + sin (PI / (2 * L) * Rmin L (Rmax z (- L))) / 2.

Lemma sine_variance : forall L, 0 < L -> variance_of_derivative (sine_curve L) (L ^ 2 * (1 - 8 / PI ^ 2)).
Proof.
  intros L PL. assert (PP := PI_RGT_0).
  set (k := PI / (2 * L)). assert (KL : k * L = PI / 2) by (unfold k; field; lra).
  assert (PK : 0 < k) by (apply Rdiv_lt_0_compat; lra).
  assert (E : forall z, sine_curve L z = 1 / 2 + sin (k * Rmin L (Rmax z (- L))) / 2) by reflexivity.
  assert (Kc : forall t, continuous (fun t => k / 2 * cos (k * t)) t).
  { apply continuous_times; [apply continuous_const_R|apply continuous_cos]. }
  apply variance_intro with (fun t => k / 2 * cos (k * t)) (fun _ => 0) L (fun _ => 0) ((L ^ 2 - 2 / k ^ 2) / 2).
  - lra.
  - assert (M : forall t, - L < t < L -> is_derive (sine_curve L) t (k / 2 * cos (k * t))).
    { intros t Ht. apply derive_near with (fun z => 1 / 2 + sin (k * z) / 2) (- L) L; [exact Ht| |].
      - intros y Hy. rewrite E. rewrite Rmax_left by lra. rewrite Rmin_right by lra. reflexivity.
      - auto_derive; [trivial|field]. }
    intros t Ht. split; [apply M; lra|].
    replace (cos (k * t)) with (cos (k * - t)) by (rewrite <- Ropp_mult_distr_r, cos_neg; reflexivity).
    apply M; lra.
  - intros t Ht. split.
    + apply derive_near with (fun _ => 1 / 2 + sin (k * L) / 2) L (t + 1); [lra| |apply @is_derive_const].
      intros y Hy. rewrite E. rewrite Rmax_left by lra. rewrite Rmin_left by lra. reflexivity.
    + apply derive_near with (fun _ => 1 / 2 + sin (k * - L) / 2) (- t - 1) (- L); [lra| |apply @is_derive_const].
      intros y Hy. rewrite E. rewrite Rmax_right by lra. rewrite Rmin_right by lra. reflexivity.
  - apply antiderivative with (fun t => (t ^ 2 * sin (k * t) + 2 * t * cos (k * t) / k - 2 * sin (k * t) / k ^ 2) / 2).
    + intros t. auto_derive; [trivial|]. field. lra.
    + apply continuous_times; [exact Kc|apply continuous_sq].
    + rewrite !Rmult_0_r, sin_0, KL, sin_PI2, cos_PI2. field. lra.
  - intros z _. apply zero_integral.
  - intros eps He. exists 0. intros z _ _.
    replace (_ - _) with 0; [rewrite Rabs_R0; exact He|]. unfold k. field. lra.
Qed.

Lemma exponential_variance : forall w, 0 < w -> variance_of_derivative (curve (Exponential w)) (w ^ 2).
Proof.
  intros w W. assert (S2 := sqrt2_pos). assert (Q2 := sqrt2_sq).
  set (b := sqrt 2 / w). assert (B : 0 < b) by (apply Rdiv_lt_0_compat; lra).
  assert (BW : 2 / b ^ 2 = w ^ 2). { rewrite <- Q2 at 1. unfold b. field. lra. }
  assert (Pos : forall z, 0 < z -> curve (Exponential w) z = 1 - exp (- b * z) / 2).
  { intros z H. cbn. rewrite rsign_pos by exact H. replace (- (1) * sqrt 2 * z / w) with (- b * z) by (unfold b; field; lra). lra. }
  assert (Neg : forall z, z < 0 -> curve (Exponential w) z = exp (b * z) / 2).
  { intros z H. cbn. rewrite rsign_neg by exact H. replace (- -1 * sqrt 2 * z / w) with (b * z) by (unfold b; field; lra). lra. }
  assert (Kc : forall t, continuous (fun t => b / 2 * exp (- b * t)) t).
  { intros t. apply (ex_derive_continuous (fun t => b / 2 * exp (- b * t))). auto_derive. trivial. }
  set (F := fun t => - exp (- b * t) * (t ^ 2 + 2 * t / b + 2 / b ^ 2) / 2).
  apply variance_intro with (fun t => 0) (fun t => b / 2 * exp (- b * t)) 0 (fun z => F z + 1 / b ^ 2) 0.
  - lra.
  - intros t Ht. lra.
  - intros t Ht. split.
    + apply derive_near with (fun z => 1 - exp (- b * z) / 2) 0 (t + 1); [lra| |].
      * intros y Hy. apply Pos; lra.
      * auto_derive; [trivial|]. field.
    + apply derive_near with (fun z => exp (b * z) / 2) (- t - 1) 0; [lra| |].
      * intros y Hy. apply Neg; lra.
      * auto_derive; [trivial|]. replace (b * - t) with (- b * t) by ring. field.
  - apply (is_RInt_point (V := R_NormedModule)).
  - intros z Hz. apply antiderivative with F.
    + intros t. unfold F. auto_derive; [trivial|]. field. lra.
    + apply continuous_times; [exact Kc|apply continuous_sq].
    + unfold F. rewrite !Rmult_0_r, exp_0. field. lra.
  - intros eps He.
    exists (3 * (18 / (b ^ 2 * eps)) / b). intros z Hz Z0.
    replace (2 * (0 + (F z + 1 / b ^ 2)) - w ^ 2) with (2 * F z) by (rewrite <- BW; field; lra).
    set (y := b * z). assert (Y0 : 0 <= y) by (unfold y; nra).
    assert (B2 : 0 < b ^ 2) by (apply pow_lt; exact B).
    assert (Yb : 18 / (b ^ 2 * eps) <= y / 3).
    { unfold y. apply Rmult_le_reg_l with (3 / b). { apply Rdiv_lt_0_compat; lra. }
      replace (3 / b * (b * z / 3)) with z by (field; lra).
      replace (3 / b * (18 / (b ^ 2 * eps))) with (3 * (18 / (b ^ 2 * eps)) / b) by (field; split; lra). exact Hz. }
    assert (E3 : (1 + y / 3) ^ 3 <= exp y).
    { replace y with (y / 3 + y / 3 + y / 3) at 2 by field. rewrite !exp_plus.
      assert (1 + y / 3 <= exp (y / 3)).
      { destruct (Req_dec (y / 3) 0) as [-> | N]; [rewrite exp_0; lra|]. left. apply exp_ineq1. exact N. }
      replace ((1 + y / 3) ^ 3) with ((1 + y / 3) * (1 + y / 3) * (1 + y / 3)) by ring.
      apply Rmult_le_compat; [nra|lra| |exact H]. apply Rmult_le_compat; lra. }
    assert (EF : 2 * F z = - (exp (- y) * (y ^ 2 + 2 * y + 2) / b ^ 2)).
    { unfold F, y. replace (- b * z) with (- (b * z)) by ring. field. lra. }
    rewrite EF, Rabs_Ropp, Rabs_pos_eq.
    2: { apply Rmult_le_pos; [apply Rmult_le_pos; [left; apply exp_pos|nra]|left; apply Rinv_0_lt_compat; exact B2]. }
    rewrite exp_Ropp.
    assert (P3 : 0 < (1 + y / 3) ^ 3) by (apply pow_lt; lra).
    apply Rle_lt_trans with (18 / (b ^ 2 * (1 + y / 3))).
    + apply Rle_trans with (/ (1 + y / 3) ^ 3 * (18 * (1 + y / 3) ^ 2) / b ^ 2).
      * apply Rmult_le_compat_r; [left; apply Rinv_0_lt_compat; exact B2|].
        apply Rmult_le_compat; [left; apply Rinv_0_lt_compat, exp_pos|nra|apply Rinv_le_contravar; assumption|nra].
      * right. field. split; lra.
    + apply Rmult_lt_reg_r with ((1 + y / 3) / eps). { apply Rdiv_lt_0_compat; lra. }
      replace (18 / (b ^ 2 * (1 + y / 3)) * ((1 + y / 3) / eps)) with (18 / (b ^ 2 * eps)) by (field; repeat split; lra).
      replace (eps * ((1 + y / 3) / eps)) with (1 + y / 3) by (field; lra). lra.
Qed.

Lemma erf_variance : forall w, 0 < w -> variance_of_derivative (curve (Erf w)) (w ^ 2).
Proof.
  intros w W. assert (S2 := sqrt2_pos). assert (Q2 := sqrt2_sq). assert (SP := sqrt_PI_pos).
  set (sg := sqrt 2 * w). assert (P : 0 < sg) by (unfold sg; nra).
  assert (SG : sg * sg = 2 * w ^ 2) by (rewrite <- Q2; unfold sg; ring).
  apply variance_intro with (fun t => 0) (fun t => 1 / (sg * sqrt PI) * gauss (t / sg)) 0
    (fun z => sg ^ 2 * ((gauss_int (z / sg) - z / sg * gauss (z / sg)) / 2) / sqrt PI) 0.
  - lra.
  - intros t Ht. lra.
  - intros t Ht. split; [apply erf_curve_derive; exact W|].
    rewrite <- (gauss_even (t / sg)). replace (- (t / sg)) with (- t / sg) by (field; lra).
    apply erf_curve_derive; exact W.
  - apply (is_RInt_point (V := R_NormedModule)).
  - intros z Hz. apply (erf_integral w (fun t => t ^ 2)); [exact W|]. fold sg.
    assert (M := gauss_moment (z / sg)). apply (is_RInt_scal (V := R_NormedModule)) with (k := sg ^ 2) in M.
    apply (is_RInt_ext (V := R_NormedModule)) with (2 := M).
    intros t _. unfold scal; cbn; unfold mult; cbn. real_eq. ring.
  - intros eps He. assert (W2 : 0 < w ^ 2) by (apply pow_lt; exact W).
    destruct (erf_limit (eps / (2 * w ^ 2))) as [X [X0 HX]]. { apply Rdiv_lt_0_compat; lra. }
    set (K := 2 * w ^ 2 / sqrt PI). assert (PK : 0 < K). { apply Rdiv_lt_0_compat; lra. }
    exists (sg * (X + 2 * K / eps)). intros z Hz _. set (x := z / sg).
    assert (Q : 0 < 2 * K / eps). { apply Rdiv_lt_0_compat; lra. }
    assert (Hx : X + 2 * K / eps <= x).
    { apply Rmult_le_reg_l with sg; [exact P|]. replace (sg * x) with z by (unfold x; field; lra). exact Hz. }
    assert (Ex := HX x ltac:(lra)). assert (Eb := erf_bounds x).
    assert (G : x * gauss x <= / x).
    { unfold gauss. rewrite exp_Ropp. assert (1 + x ^ 2 < exp (x ^ 2)). { apply exp_ineq1. apply pow_nonzero; lra. }
      assert (0 < x) by lra. assert (0 < exp (x ^ 2)) by apply exp_pos.
      apply Rmult_le_reg_r with (x * exp (x ^ 2)); [nra|].
      replace (x * / exp (x ^ 2) * (x * exp (x ^ 2))) with (x ^ 2) by (field; lra).
      replace (/ x * (x * exp (x ^ 2))) with (exp (x ^ 2)) by (field; lra). lra. }
    assert (Gp : 0 <= x * gauss x). { apply Rmult_le_pos; [lra|left; apply gauss_pos]. }
    replace (2 * (0 + sg ^ 2 * ((gauss_int x - x * gauss x) / 2) / sqrt PI) - w ^ 2) with
      (w ^ 2 * (erf x - 1) - K * (x * gauss x)).
    2: { unfold K. rewrite erf_value. replace (sg ^ 2) with (2 * w ^ 2) by (rewrite <- SG; ring). field. lra. }
    assert (A1 : w ^ 2 * (1 - erf x) < eps / 2).
    { apply Rlt_le_trans with (w ^ 2 * (eps / (2 * w ^ 2))); [apply Rmult_lt_compat_l; lra|]. right. field. lra. }
    assert (A2 : K * (x * gauss x) <= eps / 2).
    { apply Rle_trans with (K * / x). { apply Rmult_le_compat_l; lra. }
      apply Rmult_le_reg_r with (x * 2 / eps). { apply Rdiv_lt_0_compat; lra. }
      replace (K * / x * (x * 2 / eps)) with (2 * K / eps) by (field; split; lra).
      replace (eps / 2 * (x * 2 / eps)) with x by (field; lra). lra. }
    assert (A3 : 0 <= w ^ 2 * (1 - erf x)) by (apply Rmult_le_pos; lra).
    assert (A4 : 0 <= K * (x * gauss x)) by (apply Rmult_le_pos; lra).
    apply Rabs_def1; lra.
Qed.

Lemma variance_ext : forall f g v, (forall z, f z = g z) -> variance_of_derivative f v -> variance_of_derivative g v.
Proof.
  intros f g v E F eps He. destruct (F eps He) as [Z HZ]. exists Z. intros z Hz.
  destruct (HZ z Hz) as (c & A & B). exists c. split; [|exact B].
  apply (is_RInt_ext (V := R_NormedModule)) with (2 := A). intros t _. rewrite (Derive_ext f g t E). reflexivity.
Qed.

Lemma variance_unique : forall f v1 v2, variance_of_derivative f v1 -> variance_of_derivative f v2 -> v1 = v2.
Proof.
  intros f v1 v2 H1 H2. destruct (Req_dec v1 v2) as [E|N]; [exact E|exfalso].
  assert (P : 0 < Rabs (v1 - v2) / 2). { assert (0 < Rabs (v1 - v2)) by (apply Rabs_pos_lt; lra). lra. }
  destruct (H1 _ P) as [Z1 K1]. destruct (H2 _ P) as [Z2 K2].
  destruct (K1 (Rmax Z1 Z2) (Rmax_l _ _)) as (c1 & I1 & B1).
  destruct (K2 (Rmax Z1 Z2) (Rmax_r _ _)) as (c2 & I2 & B2).
  assert (E : c1 = c2) by (rewrite <- (is_RInt_unique (V := R_CompleteNormedModule) _ _ _ _ I1); exact (is_RInt_unique (V := R_CompleteNormedModule) _ _ _ _ I2)). subst c2.
  assert (Rabs (v1 - v2) <= Rabs (c1 - v2) + Rabs (c1 - v1)).
  { replace (v1 - v2) with ((c1 - v2) - (c1 - v1)) by ring. unfold Rminus at 1.
    eapply Rle_trans; [apply Rabs_triang|]. rewrite Rabs_Ropp. lra. }
  lra.
Qed.

Lemma sinus_sine : forall w z, 0 < w -> curve (Sinus w) z = sine_curve (sinus_a * w) z.
Proof.
  intros w z W. assert (A := sinus_a_pos). cbn. unfold sine_curve.
  replace (- sinus_a * w) with (- (sinus_a * w)) by ring. f_equal. f_equal. f_equal. field. nra.
Qed.

Lemma pi2_8 : 1 < PI ^ 2 - 8.
Proof.
  assert (H := pi_3). nra.
Qed.

Lemma documented_a_pos : 0 < documented_a.
Proof. assert (H := pi2_8). apply Rdiv_lt_0_compat; [apply PI_RGT_0|apply sqrt_lt_R0; lra]. Qed.

Lemma documented_sine : forall w z, 0 < w -> documented_sinus w z = sine_curve (documented_a * w) z.
Proof.
  intros w z W. assert (A := documented_a_pos). assert (P : 0 < documented_a * w) by nra. unfold documented_sinus, sine_curve.
  destruct (Rlt_dec z _).
  - rewrite Rmax_right, Rmin_right by lra.
    replace (PI / (2 * (documented_a * w)) * - (documented_a * w)) with (- (PI / 2)) by (field; nra).
    rewrite sin_neg, sin_PI2. lra.
  - destruct (Rlt_dec (documented_a * w) z).
    + rewrite Rmax_left, Rmin_left by lra.
      replace (PI / (2 * (documented_a * w)) * (documented_a * w)) with (PI / 2) by (field; nra).
      rewrite sin_PI2. lra.
    + rewrite Rmax_left, Rmin_right by lra.
      replace (PI * z / (2 * documented_a * w)) with (PI / (2 * (documented_a * w)) * z) by (field; nra). lra.
Qed.

Lemma documented_variance : forall w, 0 < w -> variance_of_derivative (documented_sinus w) (w ^ 2).
Proof.
  intros w W. apply variance_ext with (sine_curve (documented_a * w)).
  { intros z. symmetry. apply documented_sine; exact W. }
  assert (A := documented_a_pos). assert (P := pi2_8). assert (PP := PI_RGT_0).
  assert (V := sine_variance (documented_a * w) ltac:(nra)).
  replace ((documented_a * w) ^ 2 * (1 - 8 / PI ^ 2)) with (w ^ 2) in V; [exact V|].
  unfold documented_a. assert (S := sqrt_sqrt (PI ^ 2 - 8) ltac:(lra)). assert (SP : 0 < sqrt (PI ^ 2 - 8)) by (apply sqrt_lt_R0; lra).
  replace ((PI / sqrt (PI ^ 2 - 8) * w) ^ 2) with (PI ^ 2 * w ^ 2 / (sqrt (PI ^ 2 - 8) * sqrt (PI ^ 2 - 8))) by (field; lra).
  rewrite S. field. split; lra.
Qed.

Lemma sinus_variance : forall w, 0 < w -> variance_of_derivative (curve (Sinus w)) (w ^ 2 / (PI ^ 2 - 8)).
Proof.
  intros w W. assert (A := sinus_a_pos). assert (P := pi2_8). assert (PP := PI_RGT_0).
  apply variance_ext with (sine_curve (sinus_a * w)). { intros z. symmetry. apply sinus_sine; exact W. }
  assert (V := sine_variance (sinus_a * w) ltac:(nra)).
  replace ((sinus_a * w) ^ 2 * (1 - 8 / PI ^ 2)) with (w ^ 2 / (PI ^ 2 - 8)) in V; [exact V|].
  unfold sinus_a. field. split; lra.
Qed.

Lemma profile_variance : forall p f, 0 < width_of p -> (forall w, p <> Sinus w) ->
  (forall z, profile_call p z = Some (f z)) -> variance_of_derivative f (width_of p ^ 2).
Proof.
  intros p f W N E. apply variance_ext with (curve p).
  { intros z. generalize (E z). rewrite call_curve by exact W. congruence. }
  destruct p; cbn [width_of] in *.
  - apply erf_variance; assumption. - apply exponential_variance; assumption.
  - apply linear_variance; assumption. - elim (N width); reflexivity.
Qed.

Lemma sinus_variance_wrong : forall w f, 0 < w -> (forall z, profile_call (Sinus w) z = Some (f z)) ->
  variance_of_derivative f (w ^ 2 / (PI ^ 2 - 8)) /\ ~ variance_of_derivative f (w ^ 2).
Proof.
  intros w f W E. assert (P := pi2_8).
  assert (V : variance_of_derivative f (w ^ 2 / (PI ^ 2 - 8))).
  { apply variance_ext with (curve (Sinus w)); [|apply sinus_variance; exact W].
    intros z. generalize (E z). rewrite call_curve by exact W. congruence. }
  split; [exact V|]. intros V'. assert (Q := variance_unique _ _ _ V V').
  assert (W2 : 0 < w ^ 2) by (apply pow_lt; exact W).
  assert (w ^ 2 / (PI ^ 2 - 8) < w ^ 2); [|lra]. apply Rlt_div_l; nra.
Qed.

(** At the edge of the modelled curve the documented one has not yet reached one. *)
Lemma sinus_documented_differs : exists z f,
  (forall z, profile_call (Sinus 1) z = Some (f z)) /\ f z = 1 /\ documented_sinus 1 z < 1.
Proof.
  assert (A := sinus_a_pos). assert (D := documented_a_pos). assert (P := pi2_8). assert (PP := PI_RGT_0).
  assert (L : sinus_a < documented_a).
  { unfold sinus_a, documented_a. apply Rmult_lt_compat_l; [exact PP|]. apply Rinv_lt_contravar.
    - apply Rmult_lt_0_compat; [apply sqrt_lt_R0; lra|lra].
    - assert (S := sqrt_sqrt (PI ^ 2 - 8) ltac:(lra)). assert (1 < sqrt (PI ^ 2 - 8)). { rewrite <- sqrt_1 at 1. apply sqrt_lt_1; lra. }
      nra. }
  exists sinus_a, (curve (Sinus 1)). split; [|split].
  - intros z. apply call_curve. cbn. lra.
  - rewrite sinus_sine by lra. unfold sine_curve. rewrite Rmult_1_r.
    rewrite Rmax_left by lra. rewrite Rmin_left by lra.
    replace (PI / (2 * sinus_a) * sinus_a) with (PI / 2) by (field; lra). rewrite sin_PI2. field.
  - rewrite documented_sine by lra. rewrite Rmult_1_r. unfold sine_curve. rewrite Rmax_left by lra. rewrite Rmin_right by lra.
    assert (X : 0 < PI / (2 * documented_a) * sinus_a < PI / 2).
    { split. { apply Rmult_lt_0_compat; [apply Rdiv_lt_0_compat; lra|lra]. }
      apply Rlt_le_trans with (PI / (2 * documented_a) * documented_a).
      - apply Rmult_lt_compat_l; [apply Rdiv_lt_0_compat; lra|exact L].
      - right. field. lra. }
    assert (sin (PI / (2 * documented_a) * sinus_a) < sin (PI / 2)). { apply sin_increasing_1; lra. }
    rewrite sin_PI2 in H. lra.
Qed.
