(** Stacks for the theorems about the field. *)
From Coq Require Import Reals List Bool Lra.
From Coquelicot Require Import Coquelicot.
From Verif Require Import Num NumLemmas ComplexModel ComplexLemmas ProfileModel LayerModel LayerSpec LayerProofs LayerTrivialProofs LayerCaseProofs StackSpec StackProofs.
Import ListNotations.
Open Scope C_scope.

(** A metal-like substrate with index (33 + 17 i)/50. *)
Definition metal : layer := Layer (Some (fun _ => (33 / 50, 17 / 50)%R)) 0 None.
Definition metal_cosine : C := (561 / 689, 400 / 689)%R.

Lemma metal_nz : (33 / 50, 17 / 50)%R <> (0 : C).
Proof. intros E. apply (f_equal fst) in E. cbn in E. lra. Qed.

Lemma metal_refracts : refracts 1 (RtoC (3 / 5)) (layer_n metal 1) metal_cosine.
Proof. split; [unfold metal_cosine; cbn [layer_n metal ly_chemical]; cnum | left; cbn; lra]. Qed.

Lemma cmod_sq : forall z : C, (Cmod z ^ 2 = Re z * Re z + Im z * Im z)%R.
Proof. intros z. unfold Cmod. rewrite pow2_sqrt; [unfold Re, Im; ring|]. nra. Qed.

Lemma ratio_sq : forall a b : C, b <> 0 -> (Cmod (a / b)%C ^ 2 = (Re a * Re a + Im a * Im a) / (Re b * Re b + Im b * Im b))%R.
Proof.
  intros a b B. rewrite Cmod_div by exact B. rewrite <- !cmod_sq. field. intros E. apply Cmod_eq_0 in E. contradiction.
Qed.

Lemma below_ratio : forall a b c, (0 < c -> a * c < b -> a < b / c)%R.
Proof. intros a b c C L. apply Rlt_div_r; assumption. Qed.
Lemma ratio_below : forall a b c, (0 < c -> b < a * c -> b / c < a)%R.
Proof. intros a b c C L. apply Rlt_div_l; assumption. Qed.

Definition metal_q : C := (50 * 11713 / 949442, - (50 * 22737) / 949442)%R.
Definition metal_a : C := (25 * 25313 / 474721, 25 * 3663 / 474721)%R.

Lemma metal_efficiency : exists R T, multilayer_efficiency 1 (RtoC (3 / 5)) 1 (ASequence []) (Some metal) false = (Some R, Some T) /\ (2 / 5 < R)%R.
Proof.
  eexists; eexists. split.
  - apply (bare_substrate 1 (RtoC (3 / 5)) 1 metal false (RtoC (3 / 5)) metal_q).
    + lra.
    + reflexivity.
    + exact metal_nz.
    + rewrite (q_p _ _ 1) by (try apply C1_neq_0; cring). f_equal. cnum.
    + intros c SC. change (layer_n metal 1) with ((33 / 50, 17 / 50)%R : C) in SC |- *. rewrite snell_value in SC by exact metal_nz.
      assert (E : c = metal_cosine).
      { apply (f_equal (fun o => match o with Some x => x | None => c end)) in SC. rewrite <- SC. symmetry.
        apply (refracts_iff 1 (RtoC (3 / 5)) _ metal_cosine metal_nz). exact metal_refracts. }
      rewrite E. rewrite (q_p _ _ (50 * 33 / 1378, - (50 * 17) / 1378)%R) by (first [exact metal_nz | cnum]).
      f_equal. unfold metal_q, metal_cosine. cnum.
    + intros E. apply (f_equal fst) in E. cbn in E. lra.
    + intros E. apply (f_equal fst) in E. cbn in E. lra.
  - rewrite ratio_sq; [|intros E; apply (f_equal fst) in E; cbn in E; lra]. cbn. apply below_ratio; lra.
Qed.

Lemma metal_field : exists r t, stack_field 1 false 1 (RtoC (3 / 5)) 1 r [] metal t /\ (Cmod r ^ 2 < 1 / 5)%R.
Proof.
  assert (A : RtoC (3 / 5) + metal_a <> 0) by (intros E; apply (f_equal fst) in E; cbn in E; lra).
  exists ((RtoC (3 / 5) - metal_a) / (RtoC (3 / 5) + metal_a)), (2 * RtoC (3 / 5) / (RtoC (3 / 5) + metal_a)). split.
  - exists metal_cosine. split; [exact metal_refracts|].
    replace (admittance false 1 (RtoC (3 / 5))) with (RtoC (3 / 5)) by (unfold admittance; field; apply C1_neq_0).
    replace (admittance false (layer_n metal 1) metal_cosine) with metal_a.
    + assert (T : (2 : C) = 1 + 1) by cring. unfold matched. split; rewrite T; field; exact A.
    + unfold admittance. change (layer_n metal 1) with ((33 / 50, 17 / 50)%R : C).
      assert (M := metal_nz). symmetry. 
      replace metal_cosine with (metal_a * (33 / 50, 17 / 50)%R : C) by (unfold metal_a, metal_cosine; cnum).
      field. exact M.
  - rewrite ratio_sq by exact A. cbn. apply ratio_below; lra.
Qed.

(** A glass film in vacuum, an eighth of a wavelength thick. *)
Definition vacuum : layer := substrate_layer None.

Lemma glass_coefficients : exists r t,
  multilayer_coefficients 16 1 1 (ASequence (map ALayer [glass])) (Some vacuum) true = (Some r, Some t) /\ t <> 0.
Proof.
  assert (N1 : RtoC 2 <> 0) by (apply RtoC_neq_0; lra).
  set (h := (1 / sqrt 2)%R).
  assert (HP : (0 < h)%R) by (unfold h; apply Rdiv_lt_0_compat; [lra | apply sqrt_lt_R0; lra]).
  assert (H2 : (h * h = / 2)%R).
  { unfold h. assert (X := sqrt_sqrt 2 ltac:(lra)). assert (Y := sqrt_lt_R0 2 ltac:(lra)).
    replace (1 / sqrt 2 * (1 / sqrt 2))%R with (1 / (sqrt 2 * sqrt 2))%R by (field; lra). rewrite X. lra. }
  assert (PR : propagation 16 1 1 2 = Some (Mat2 (h, - h)%R 0 0 (h, h)%R)).
  { rewrite propagation_value by lra. cbv zeta. f_equal.
    assert (A : (2 * PI * 1 / 16 * 2 = PI / 4)%R) by field.
    f_equal; unfold cexp.
    - replace (Re (- Ci * (RtoC (2 * PI * 1 / 16) * (2 * 1)))) with 0%R by (cparts; cbn; ring).
      replace (Im (- Ci * (RtoC (2 * PI * 1 / 16) * (2 * 1)))) with (- (PI / 4))%R by (rewrite <- A; cparts; cbn; ring).
      rewrite exp_0, cos_neg, sin_neg, cos_PI4, sin_PI4. fold h. f_equal; ring.
    - replace (Re (Ci * (RtoC (2 * PI * 1 / 16) * (2 * 1)))) with 0%R by (cparts; cbn; ring).
      replace (Im (Ci * (RtoC (2 * PI * 1 / 16) * (2 * 1)))) with (PI / 4)%R by (rewrite <- A; cparts; cbn; ring).
      rewrite exp_0, cos_PI4, sin_PI4. fold h. f_equal; ring. }
  assert (CM : (Cmod (h, - h)%R < 10 ^ 10)%R).
  { unfold Cmod. cbn [fst snd]. apply Rle_lt_trans with (sqrt 1); [apply sqrt_le_1_alt; nra | rewrite sqrt_1; lra]. }
  assert (MM := one_layer 16 true glass 1
     (let u := (3 / 2, 0)%R in let v := (- / 2, 0)%R in Mat2 u v v u) (Mat2 (h, - h)%R 0 0 (h, h)%R)
     (let u := (3 / 4, 0)%R in let v := (1 / 4, 0)%R in Mat2 u v v u) ltac:(lra) N1).
  assert (R1 : refraction 16 1 1 true 1 (layer_n glass 16) (ly_interface glass) =
     Some (let u := (3 / 2, 0)%R in let v := (- / 2, 0)%R in Mat2 u v v u)).
  { cbv zeta. apply (refraction_eq 16 1 1 true 1 2 None 1 2 1%R); try assumption; try reflexivity; try apply C1_neq_0.
    - rewrite q_s. f_equal. ring.
    - rewrite q_s. f_equal. ring.
    - intros Z; apply (f_equal Re) in Z; cbn in Z; lra.
    - cnum.
    - cnum. }
  assert (R2 : refraction 16 1 1 true (layer_n glass 16) 1 None =
     Some (let u := (3 / 4, 0)%R in let v := (1 / 4, 0)%R in Mat2 u v v u)).
  { cbv zeta. apply (refraction_eq 16 1 1 true 2 1 None 2 1 1%R); try assumption; try reflexivity.
    - rewrite q_s. f_equal. ring.
    - rewrite q_s. f_equal. ring.
    - intros Z; apply (f_equal Re) in Z; cbn in Z; lra.
    - cnum.
    - cnum. }
  specialize (MM R1 PR CM R2). clear R1 R2 PR.
  set (m := mat_mul _ _) in MM.
  assert (M0 : mxx m <> 0). { unfold m, mat_mul. intros Z. apply (f_equal Re) in Z. cbn in Z. lra. }
  change (multilayer_coefficients 16 1 1 (ASequence (map ALayer [glass])) (Some vacuum) true)
    with (multilayer_coefficients 16 1 1 (ASequence [ALayer glass]) None true).
  unfold multilayer_coefficients. rewrite MM. cbn [fst snd obind st_where]. rewrite !cdiv_nz by exact M0.
  eexists. eexists. split; [reflexivity|]. apply Cdiv_neq_0; [apply C1_neq_0 | exact M0].
Qed.

Lemma one_sq : forall c : C, (1 - c * c) = 0 -> Im c = 0%R.
Proof.
  intros [a b] E. apply (f_equal Re) in E as E1. apply (f_equal Im) in E. cbn in *. 
  assert (A : (a * b = 0)%R) by lra. apply Rmult_integral in A. destruct A as [-> | ->]; [nra | reflexivity].
Qed.

Lemma glass_real : real_cosine (1 * 1 * (1 - 1 * 1)) 16 glass.
Proof.
  intros c E. apply one_sq. change (layer_n glass 16) with (RtoC 2) in E.
  assert (D : RtoC 2 <> 0) by (apply RtoC_neq_0; lra).
  replace (1 - c * c) with (RtoC 2 * RtoC 2 * (1 - c * c) / (RtoC 2 * RtoC 2)) by (field; exact D). rewrite E. field. exact D.
Qed.

Lemma vacuum_real : real_cosine (1 * 1 * (1 - 1 * 1)) 16 vacuum.
Proof.
  intros c E. apply one_sq. change (layer_n vacuum 16) with (RtoC 1) in E. replace (1 - c * c) with (1 * 1 * (1 - c * c)) by ring. rewrite E. ring.
Qed.

Lemma glass_transparent : transparent (1 * 1 * (1 - 1 * 1)) 16 glass.
Proof.
  intros c E. apply glass_real in E. change (layer_n glass 16) with (RtoC 2).
  replace (Im (2 * c)) with 0%R by (destruct c as [a b]; cbn in *; rewrite E; ring). rewrite Rmult_0_r, exp_0. lra.
Qed.
