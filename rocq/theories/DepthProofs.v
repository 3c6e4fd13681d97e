(** The depth at which a photon is absorbed, and the probability of collecting its electrons. *)
From Coq Require Import Reals Lra.
From Coquelicot Require Import Coquelicot.
From Verif Require Import Num RamanathanModel SensorSpec SensorProofs.
Open Scope R_scope.

Lemma absorbed_pos : forall a D, 0 < a -> 0 < D -> 0 < 1 - exp (- a * D) < 1.
Proof.
  intros a D A P. assert (E := exp_pos (- a * D)). assert (L := exp_neg_lt1 (a * D) ltac:(nra)).
  replace (- a * D) with (- (a * D)) in * by ring. lra.
Qed.

Lemma depth_absorbing : forall a D y, 0 < a -> photon_depth a D y = - (1 / a) * ln (1 - y * (1 - exp (- a * D))).
Proof. intros a D y A. unfold photon_depth. destruct (Rlt_dec 0 a); [reflexivity | contradiction]. Qed.
Lemma depth_transparent : forall D y, photon_depth 0 D y = y * D.
Proof. intros D y. unfold photon_depth. destruct (Rlt_dec 0 0); [lra | reflexivity]. Qed.

Lemma depth_arg : forall a D y, 0 < a -> 0 < D -> y <= 1 -> exp (- a * D) <= 1 - y * (1 - exp (- a * D)).
Proof. intros a D y A P Y. assert (F := absorbed_pos a D A P). nra. Qed.

(** It inverts the cumulative distribution. *)
Lemma depth_cdf : forall a D y, 0 < a -> 0 < D -> y <= 1 ->
  1 - exp (- a * photon_depth a D y) = y * (1 - exp (- a * D)).
Proof.
  intros a D y A P Y. rewrite depth_absorbing by exact A.
  replace (- a * (- (1 / a) * ln (1 - y * (1 - exp (- a * D))))) with (ln (1 - y * (1 - exp (- a * D)))) by (field; lra).
  rewrite exp_ln; [ring|]. assert (H := depth_arg a D y A P Y). assert (E := exp_pos (- a * D)). lra.
Qed.

Lemma depth_inverse : forall a D z, 0 < a -> 0 < D -> photon_depth a D ((1 - exp (- a * z)) / (1 - exp (- a * D))) = z.
Proof.
  intros a D z A P. rewrite depth_absorbing by exact A. assert (F := absorbed_pos a D A P).
  replace (1 - (1 - exp (- a * z)) / (1 - exp (- a * D)) * (1 - exp (- a * D))) with (exp (- a * z)) by (field; lra).
  rewrite ln_exp. field. lra.
Qed.

Lemma depth_increasing : forall a D x y, 0 <= a -> 0 < D -> x < y -> y <= 1 -> photon_depth a D x < photon_depth a D y.
Proof.
  intros a D x y A P L Y. destruct A as [A| <-]; [|rewrite !depth_transparent; nra].
  assert (CX := depth_cdf a D x A P ltac:(lra)). assert (CY := depth_cdf a D y A P Y). assert (F := absorbed_pos a D A P).
  assert (E : exp (- a * photon_depth a D y) < exp (- a * photon_depth a D x)) by nra.
  apply exp_lt_inv in E. nra.
Qed.

Lemma depth_0 : forall a D, photon_depth a D 0 = 0.
Proof.
  intros a D. unfold photon_depth. destruct (Rlt_dec 0 a); [|ring]. rewrite Rmult_0_l, Rminus_0_r, ln_1. ring.
Qed.
Lemma depth_1 : forall a D, 0 <= a -> 0 < D -> photon_depth a D 1 = D.
Proof.
  intros a D [A| <-] P; [|rewrite depth_transparent; ring].
  assert (F := absorbed_pos a D A P). transitivity (photon_depth a D ((1 - exp (- a * D)) / (1 - exp (- a * D)))); [f_equal; field; lra | apply depth_inverse; assumption].
Qed.

Lemma depth_range : forall a D y, 0 <= a -> 0 < D -> 0 <= y < 1 -> 0 <= photon_depth a D y < D.
Proof.
  intros a D y A P [Y0 Y1]. split.
  - destruct Y0 as [Y0| <-]; [|rewrite depth_0; lra]. apply Rle_trans with (photon_depth a D 0); [rewrite depth_0; lra | apply Rlt_le, depth_increasing; lra].
  - apply Rlt_le_trans with (photon_depth a D 1); [apply depth_increasing; lra | rewrite depth_1; lra].
Qed.

Lemma depth_limit : forall D y, 0 < D -> 0 <= y <= 1 -> forall eps, 0 < eps -> exists delta, 0 < delta /\
  forall a, 0 < a < delta -> Rabs (photon_depth a D y - photon_depth 0 D y) < eps.
Proof.
  intros D y P Y eps E.
  assert (X : is_derive (fun a => - ln (1 - y * (1 - exp (- a * D)))) 0 (y * D)).
  { auto_derive.
    - replace (- 0 * D) with 0 by ring. rewrite exp_0. lra.
    - replace (- 0 * D) with 0 by ring. rewrite exp_0. field. }
  apply is_derive_Reals in X. destruct (X eps E) as [[delta L] H]. exists delta. split; [exact L|]. intros a [A1 A2].
  specialize (H a ltac:(lra)). cbn [pos] in H. rewrite Rabs_pos_eq in H by lra. specialize (H A2).
  rewrite depth_transparent, depth_absorbing by exact A1.
  match goal with |- Rabs ?u < _ => match type of H with Rabs ?v < _ => replace u with v; [exact H|] end end.
  replace (0 + a) with a by ring. replace (- 0 * D) with 0 by ring. rewrite exp_0. replace (1 - y * (1 - 1)) with 1 by ring. rewrite ln_1. field. lra.
Qed.

Lemma collection_range : forall h0 W z, 0 <= h0 <= 1 -> 0 <= W -> 0 <= z -> h0 <= collection_probability h0 W z <= 1.
Proof.
  intros h0 W z H P Z. unfold collection_probability. destruct (Rlt_dec z W) as [L|L]; [|lra].
  assert (Q : 0 <= z / W <= 1).
  { split; [apply Rcomplements.Rdiv_le_0_compat; lra|]. apply Rmult_le_reg_r with W; [lra|]. unfold Rdiv. rewrite Rmult_assoc, Rinv_l by lra. lra. }
  unfold Rdiv in *. rewrite Rmult_assoc. nra.
Qed.

(** The mean over a uniform draw is the mean over the truncated exponential distribution. *)
Lemma depth_law : forall (a D : R) (h : R -> R) (v : R), 0 < a -> 0 < D -> (forall z, 0 <= z <= D -> continuous h z) ->
  is_truncated_mean a D h v -> is_RInt (fun y => h (photon_depth a D y)) 0 1 v.
Proof.
  intros a D h v A P H T. assert (F := absorbed_pos a D A P).
  set (G := fun z => (1 - exp (- a * z)) / (1 - exp (- a * D))).
  assert (GM : forall z, 0 <= z <= D -> 0 <= G z <= 1).
  { intros z [Z0 Z1]. unfold G.
    assert (E1 : exp (- a * z) <= 1) by (rewrite <- exp_0; destruct Z0 as [Z0| <-]; [apply Rlt_le, exp_increasing; nra | right; f_equal; ring]).
    assert (E2 : exp (- a * D) <= exp (- a * z)) by (destruct Z1 as [Z1| ->]; [apply Rlt_le, exp_increasing; nra | lra]).
    split; [apply Rcomplements.Rdiv_le_0_compat; lra|]. apply Rmult_le_reg_r with (1 - exp (- a * D)); [lra|].
    unfold Rdiv. rewrite Rmult_assoc, Rinv_l by lra. lra. }
  assert (X : is_RInt (V := R_CompleteNormedModule) (fun z => scal (a * exp (- a * z) / (1 - exp (- a * D))) (h (photon_depth a D (G z)))) 0 D
     (RInt (V := R_CompleteNormedModule) (fun y => h (photon_depth a D y)) (G 0) (G D))).
  { apply (is_RInt_comp (fun y => h (photon_depth a D y)) G (fun z => a * exp (- a * z) / (1 - exp (- a * D)))).
    - intros z Z. rewrite Rmin_left, Rmax_right in Z by lra.
      apply (continuous_comp (photon_depth a D) h).
      + apply (continuous_ext (fun y => - (1 / a) * ln (1 - y * (1 - exp (- a * D))))).
        * intros y. symmetry. apply depth_absorbing, A.
        * apply (ex_derive_continuous (V := R_NormedModule)). auto_derive.
          assert (K := depth_arg a D (G z) A P (proj2 (GM z Z))). assert (E := exp_pos (- a * D)). lra.
      + unfold G. rewrite depth_inverse by assumption. apply H, Z.
    - intros z Z. split.
      + unfold G. auto_derive; [lra|]. field. lra.
      + apply (ex_derive_continuous (V := R_NormedModule)). auto_derive. lra. }
  replace (G 0) with 0 in X by (unfold G; replace (- a * 0) with 0 by ring; rewrite exp_0; field; lra).
  replace (G D) with 1 in X by (unfold G; field; lra).
  assert (Y : is_RInt (fun z => scal (a * exp (- a * z) / (1 - exp (- a * D))) (h (photon_depth a D (G z)))) 0 D v).
  { unfold is_truncated_mean in T. apply (is_RInt_scal (V := R_NormedModule) _ 0 D (/ (1 - exp (- a * D)))) in T.
    match type of T with is_RInt _ _ _ ?u => assert (V : u = v) by (unfold scal; cbn; unfold mult; cbn; field; lra); rewrite V in T end.
    eapply is_RInt_ext; [|exact T]. intros z _. cbv beta. unfold G. rewrite depth_inverse by assumption. unfold scal; cbn; unfold mult; cbn. field. lra. }
  assert (U : RInt (V := R_CompleteNormedModule) (fun y => h (photon_depth a D y)) 0 1 = v).
  { apply (is_RInt_unique (V := R_CompleteNormedModule)) in X. apply (is_RInt_unique (V := R_CompleteNormedModule)) in Y. rewrite <- X, <- Y. reflexivity. }
  rewrite <- U. apply (RInt_correct (V := R_CompleteNormedModule)).
  apply (ex_RInt_continuous (V := R_CompleteNormedModule)). intros y Z. rewrite Rmin_left, Rmax_right in Z by lra.
  apply (continuous_comp (photon_depth a D) h).
  - apply (continuous_ext (fun y => - (1 / a) * ln (1 - y * (1 - exp (- a * D))))).
    + intros x. symmetry. apply depth_absorbing, A.
    + apply (ex_derive_continuous (V := R_NormedModule)). auto_derive.
      assert (K := depth_arg a D y A P (proj2 Z)). assert (E := exp_pos (- a * D)). lra.
  - apply H. split.
    + destruct (proj1 Z) as [Y0| <-]; [|rewrite depth_0; lra]. apply Rle_trans with (photon_depth a D 0); [rewrite depth_0; lra | apply Rlt_le, depth_increasing; lra].
    + destruct (proj2 Z) as [Y1| ->]; [|rewrite depth_1; lra]. apply Rle_trans with (photon_depth a D 1); [apply Rlt_le, depth_increasing; lra | rewrite depth_1; lra].
Qed.
