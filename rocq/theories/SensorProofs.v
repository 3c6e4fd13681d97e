(** Collection efficiency, detector statistics, exposure. *)
From Coq Require Import Reals List Lra Lia.
From Coquelicot Require Import Coquelicot.
From Verif Require Import Vec Num NumLemmas ComplexModel ComplexLemmas LayerModel GaussLemmas RamanathanModel SensorModel SensorSpec DistSpec DistProofs.
Import ListNotations.
Open Scope R_scope.

(** ** The function (1 - exp(-x)) / x *)
Definition phi (x : R) : R := (1 - exp (- x)) / x.
Lemma exp_neg_lt : forall x, 0 < x -> 1 - exp (- x) < x.
Proof. intros x X. assert (H := exp_ineq1 (- x) ltac:(lra)). lra. Qed.
Lemma exp_neg_lt1 : forall x, 0 < x -> exp (- x) < 1.
Proof. intros x X. rewrite <- exp_0. apply exp_increasing. lra. Qed.
Lemma exp_neg_step : forall x, 0 < x -> x * exp (- x) < 1 - exp (- x).
Proof.
  intros x X. assert (H := exp_ineq1 x ltac:(lra)). assert (P := exp_pos (- x)).
  assert (E : exp x * exp (- x) = 1) by (rewrite <- exp_plus; replace (x + - x) with 0 by ring; apply exp_0). nra.
Qed.
Lemma phi_bounds : forall x, 0 < x -> 0 < phi x < 1.
Proof.
  intros x X. unfold phi. assert (A := exp_neg_lt x X). assert (B := exp_neg_lt1 x X). split.
  - apply Rdiv_lt_0_compat; lra.
  - apply Rmult_lt_reg_r with x; [exact X|]. unfold Rdiv. rewrite Rmult_assoc, Rinv_l by lra. lra.
Qed.
Lemma phi_decreasing : forall x y, 0 < x -> x < y -> phi y < phi x.
Proof.
  intros x y X Y. unfold phi.
  assert (A := exp_neg_step x X). assert (P := exp_pos (- x)).
  assert (E : exp (- y) = exp (- x) * exp (- (y - x))) by (rewrite <- exp_plus; f_equal; ring).
  assert (L := exp_ineq1_le (- (y - x))).
  assert (K : x * (1 - exp (- y)) < y * (1 - exp (- x))).
  { rewrite E. set (e := exp (- x)) in *. set (d := exp (- (y - x))) in *.
    assert (K1 : x * e * (1 - (y - x)) <= x * e * d) by (apply Rmult_le_compat_l; nra).
    assert (K2 : x * e * (y - x) < (1 - e) * (y - x)) by (apply Rmult_lt_compat_r; lra). nra. }
  apply Rmult_lt_reg_r with (x * y); [nra|].
  replace ((1 - exp (- y)) / y * (x * y)) with (x * (1 - exp (- y))) by (field; lra).
  replace ((1 - exp (- x)) / x * (x * y)) with (y * (1 - exp (- x))) by (field; lra). exact K.
Qed.
Lemma phi_near_1 : forall x, 0 < x -> 1 - x <= phi x.
Proof.
  intros x X. unfold phi. assert (H := exp_neg_step x X). assert (Q := exp_neg_lt x X).
  assert (P := exp_pos (- x)).
  apply Rmult_le_reg_r with x; [exact X|]. replace ((1 - exp (- x)) / x * x) with (1 - exp (- x)) by (field; lra).
  destruct (Rle_lt_dec 1 x); [nra|]. nra.
Qed.

(** ** Charge collection efficiency *)
Definition cce (x eta0 : R) : R := eta0 + (1 - eta0) * phi x.
Lemma cce_value : forall a W eta0, a * W <> 0 -> charge_collection_efficiency a W eta0 = Some (cce (a * W) eta0).
Proof. intros a W eta0 H. unfold charge_collection_efficiency, cce, phi. rewrite odiv_nz by exact H. cbn. f_equal. set (x := a * W) in *. field. exact H. Qed.
Lemma cce_none : forall a W eta0, a * W = 0 -> charge_collection_efficiency a W eta0 = None.
Proof. intros a W eta0 H. unfold charge_collection_efficiency. rewrite H, odiv_0. reflexivity. Qed.
Lemma cce_bounds : forall x eta0, 0 < x -> 0 <= eta0 <= 1 -> eta0 <= cce x eta0 <= 1 /\ 0 < cce x eta0.
Proof. intros x eta0 X E. destruct (phi_bounds x X). unfold cce. repeat split; nra. Qed.

Lemma cce_range : forall a W eta0, 0 < a -> 0 < W -> 0 <= eta0 <= 1 ->
  exists c, charge_collection_efficiency a W eta0 = Some c /\ eta0 <= c <= 1.
Proof.
  intros a W eta0 A P E. assert (X : 0 < a * W) by nra. exists (cce (a * W) eta0).
  split; [apply cce_value; lra | apply cce_bounds; assumption].
Qed.
Lemma cce_monotone : forall a b W eta0 ca cb, 0 < a -> a < b -> 0 < W -> 0 <= eta0 <= 1 ->
  charge_collection_efficiency a W eta0 = Some ca -> charge_collection_efficiency b W eta0 = Some cb ->
  cb <= ca /\ (eta0 < 1 -> cb < ca).
Proof.
  intros a b W eta0 ca cb A B P E HA HB. rewrite cce_value in HA, HB by nra. injection HA as <-. injection HB as <-.
  assert (D := phi_decreasing (a * W) (b * W) ltac:(nra) ltac:(nra)). unfold cce. split; [|intros]; nra.
Qed.
Lemma cce_thin : forall a eta0, 0 < a -> 0 <= eta0 <= 1 -> forall eps, 0 < eps -> exists delta, 0 < delta /\
  forall W, 0 < W < delta -> exists c, charge_collection_efficiency a W eta0 = Some c /\ 1 - eps < c <= 1.
Proof.
  intros a eta0 A E eps EP. exists (eps / a). split; [apply Rdiv_lt_0_compat; assumption|].
  intros W [W0 W1]. assert (X : 0 < a * W) by nra. exists (cce (a * W) eta0). split; [apply cce_value; lra|].
  destruct (cce_bounds _ _ X E) as [[_ U] _]. split; [|exact U].
  assert (L := phi_near_1 _ X). assert (XE : a * W < eps).
  { replace eps with (a * (eps / a)) by (field; lra). apply Rmult_lt_compat_l; assumption. }
  unfold cce. nra.
Qed.

(** ** Depth averages *)
Definition quad_primitive (a p q z : R) : R := - ((p + q * z) ^ 2 + 2 * q * (p + q * z) / a + 2 * q ^ 2 / (a * a)) * exp (- a * z).
Lemma quad_derive : forall a p q z, 0 < a ->
  is_derive (quad_primitive a p q) z ((p + q * z) ^ 2 * (a * exp (- a * z))).
Proof. intros a p q z A. unfold quad_primitive. auto_derive; [lra|]. field. lra. Qed.
Lemma quad_int : forall a p q u v, 0 < a ->
  is_RInt (fun z => (p + q * z) ^ 2 * (a * exp (- a * z))) u v (quad_primitive a p q v - quad_primitive a p q u).
Proof.
  intros a p q u v A. apply (is_RInt_derive (V := R_CompleteNormedModule) (quad_primitive a p q)).
  - intros z _. apply quad_derive, A.
  - intros z _. apply (ex_derive_continuous (V := R_NormedModule)). auto_derive. trivial.
Qed.
Definition lin_primitive (a p q z : R) : R := - ((p + q * z) + q / a) * exp (- a * z).
Lemma lin_derive : forall a p q z, 0 < a ->
  is_derive (lin_primitive a p q) z ((p + q * z) * (a * exp (- a * z))).
Proof. intros a p q z A. unfold lin_primitive. auto_derive; [lra|]. field. lra. Qed.
Lemma lin_int : forall a p q u v, 0 < a ->
  is_RInt (fun z => (p + q * z) * (a * exp (- a * z))) u v (lin_primitive a p q v - lin_primitive a p q u).
Proof.
  intros a p q u v A. apply (is_RInt_derive (V := R_CompleteNormedModule) (lin_primitive a p q)).
  - intros z _. apply lin_derive, A.
  - intros z _. apply (ex_derive_continuous (V := R_NormedModule)). auto_derive. trivial.
Qed.

(** A function of the differential efficiency, split at the implant boundary. *)
Lemma piecewise_int : forall (a W eta0 D I J : R) (h : R -> R), 0 <= D ->
  (is_RInt (fun z => h (eta0 + (1 - eta0) / W * z) * (a * exp (- a * z))) 0 (Rmin D W) I) ->
  (is_RInt (fun z => h 1 * (a * exp (- a * z))) (Rmin D W) D J) -> 0 < W ->
  is_RInt (fun z => h (differential_efficiency eta0 W z) * (a * exp (- a * z))) 0 D (I + J).
Proof.
  intros a W eta0 D I J h D0 HI HJ W0. apply (is_RInt_Chasles (V := R_NormedModule) _ 0 (Rmin D W) D).
  - eapply is_RInt_ext; [|exact HI]. intros z [Z1 Z2].
    rewrite Rmin_left in Z1 by (apply Rmin_glb; lra). rewrite Rmax_right in Z2 by (apply Rmin_glb; lra).
    assert (Z3 : z < W) by (eapply Rlt_le_trans; [exact Z2 | apply Rmin_r]).
    unfold differential_efficiency. destruct (Rlt_dec z W); [|contradiction].
    replace ((1 - eta0) / W * z) with ((1 - eta0) * z / W) by (field; lra). reflexivity.
  - eapply is_RInt_ext; [|exact HJ]. intros z [Z1 Z2].
    rewrite Rmin_left in Z1 by apply Rmin_l. rewrite Rmax_right in Z2 by apply Rmin_l.
    unfold differential_efficiency. destruct (Rlt_dec z W) as [L|L]; [|reflexivity].
    exfalso. unfold Rmin in Z1. destruct (Rle_dec D W); lra.
Qed.

Lemma efficiency_int : forall a W eta0 D, 0 < a -> 0 < W -> W <= D ->
  is_RInt (fun z => differential_efficiency eta0 W z * (a * exp (- a * z))) 0 D (cce (a * W) eta0 - exp (- a * D)).
Proof.
  intros a W eta0 D A P L.
  assert (H2 : is_RInt (fun z => 1 * (a * exp (- a * z))) (Rmin D W) D (lin_primitive a 1 0 D - lin_primitive a 1 0 (Rmin D W))).
  { eapply is_RInt_ext; [|apply (lin_int a 1 0), A]. intros z _. cbv beta. f_equal. ring. }
  assert (H := piecewise_int a W eta0 D _ _ (fun t => t) ltac:(lra) (lin_int a eta0 ((1 - eta0) / W) 0 (Rmin D W) A) H2 P).
  rewrite Rmin_right in H by exact L. cbv beta in H.
  match type of H with is_RInt _ _ _ ?v => replace (cce (a * W) eta0 - exp (- a * D)) with v; [exact H|] end.
  unfold lin_primitive, cce, phi. replace (- a * 0) with 0 by ring. rewrite exp_0.
  replace (- a * W) with (- (a * W)) by ring. field. lra.
Qed.

Lemma square_int : forall a W eta0 D m, 0 < a -> 0 < W -> W <= D ->
  is_RInt (fun z => (differential_efficiency eta0 W z - m) ^ 2 * (a * exp (- a * z))) 0 D
    (((1 - eta0) / (a * W)) ^ 2 * (1 - 2 * (a * W) * exp (- (a * W)) - exp (- (a * W)) ^ 2)
     + (cce (a * W) eta0 - m) ^ 2 - (1 - m) ^ 2 * exp (- a * D)).
Proof.
  intros a W eta0 D m A P L.
  assert (H1 : is_RInt (fun z => (eta0 + (1 - eta0) / W * z - m) ^ 2 * (a * exp (- a * z))) 0 (Rmin D W)
     (quad_primitive a (eta0 - m) ((1 - eta0) / W) (Rmin D W) - quad_primitive a (eta0 - m) ((1 - eta0) / W) 0)).
  { eapply is_RInt_ext; [|apply (quad_int a (eta0 - m) ((1 - eta0) / W)), A]. intros z _. cbv beta. f_equal. f_equal. ring. }
  assert (H2 : is_RInt (fun z => (1 - m) ^ 2 * (a * exp (- a * z))) (Rmin D W) D
     (quad_primitive a (1 - m) 0 D - quad_primitive a (1 - m) 0 (Rmin D W))).
  { eapply is_RInt_ext; [|apply (quad_int a (1 - m) 0), A]. intros z _. cbv beta. f_equal. f_equal. ring. }
  assert (H := piecewise_int a W eta0 D _ _ (fun t => (t - m) ^ 2) ltac:(lra) H1 H2 P).
  rewrite Rmin_right in H by exact L. cbv beta in H.
  match type of H with is_RInt _ _ _ ?v => match goal with |- is_RInt _ _ _ ?w => replace w with v; [exact H|] end end.
  unfold quad_primitive, cce, phi. replace (- a * 0) with 0 by ring. rewrite exp_0.
  replace (- a * W) with (- (a * W)) by ring. field. lra.
Qed.

Lemma exp_decay_lim : forall a k l, 0 < a -> is_lim (fun D => l - k * exp (- a * D)) p_infty l.
Proof.
  intros a k l A. apply is_lim_spec. intros [eps E]. cbn [pos].
  set (M := Rabs k + 1). assert (MP : 0 < M) by (unfold M; assert (H := Rabs_pos k); lra).
  exists (M / (a * eps)). intros D HD. assert (E0 : 0 < a * eps) by nra.
  assert (Q : M < a * eps * D).
  { apply Rmult_lt_compat_l with (r := a * eps) in HD; [|exact E0]. replace (a * eps * (M / (a * eps))) with M in HD by (field; lra). exact HD. }
  replace (l - k * exp (- a * D) - l) with (- (k * exp (- a * D))) by ring. rewrite Rabs_Ropp, Rabs_mult.
  rewrite (Rabs_pos_eq (exp _)) by (left; apply exp_pos).
  assert (DP : 0 < a * D) by nra.
  assert (X := exp_ineq1 (a * D) ltac:(lra)). assert (Y : exp (a * D) * exp (- a * D) = 1) by (rewrite <- exp_plus; replace (a * D + - a * D) with 0 by ring; apply exp_0).
  assert (Z := exp_pos (- a * D)). assert (U : a * D * exp (- a * D) < 1) by nra.
  assert (KM : Rabs k < M) by (unfold M; lra). assert (KP := Rabs_pos k).
  assert (V : M * exp (- a * D) < eps * (a * D * exp (- a * D))) by nra. nra.
Qed.
Lemma efficiency_continuity : forall a W eta0 (h : R -> R) D, 0 < W -> 0 <= D -> (forall x, continuous h x) ->
  ex_RInt (fun z => h (differential_efficiency eta0 W z) * (a * exp (- a * z))) 0 D.
Proof.
  intros a W eta0 h D P D0 H.
  assert (E : forall g u v, (forall x : R, continuous g x) -> ex_RInt (V := R_CompleteNormedModule) g u v)
    by (intros g u v G; apply (ex_RInt_continuous (V := R_CompleteNormedModule)); intros; apply G).
  assert (K : forall z, continuous (fun z => a * exp (- a * z)) z) by (intros z; apply (ex_derive_continuous (V := R_NormedModule)); auto_derive; trivial).
  destruct (E (fun z => h (eta0 + (1 - eta0) / W * z) * (a * exp (- a * z))) 0 (Rmin D W)) as [I HI].
  { intros z. apply (continuous_mult (K := R_AbsRing)); [|apply K].
    apply (continuous_comp (fun z => eta0 + (1 - eta0) / W * z) h); [|apply H].
    apply (ex_derive_continuous (V := R_NormedModule)). auto_derive. trivial. }
  destruct (E (fun z => h 1 * (a * exp (- a * z))) (Rmin D W) D) as [J HJ].
  { intros z. apply (continuous_mult (K := R_AbsRing)); [apply continuous_const | apply K]. }
  exists (I + J). apply piecewise_int; assumption.
Qed.
Lemma lim_eventually : forall (f g : R -> R) M l, (forall x, M < x -> f x = g x) -> is_lim g p_infty l -> is_lim f p_infty l.
Proof. intros f g M l H L. apply (is_lim_ext_loc g f); [|exact L]. exists M. intros x X. symmetry. apply H, X. Qed.

Lemma cce_depth_mean : forall a W eta0, 0 < a -> 0 < W ->
  is_depth_mean a (differential_efficiency eta0 W) (cce (a * W) eta0).
Proof.
  intros a W eta0 A P. split.
  - intros D D0. apply (efficiency_continuity a W eta0 (fun t => t)); [assumption..|]. intros x. apply continuous_id.
  - apply (lim_eventually _ (fun D => cce (a * W) eta0 - 1 * exp (- a * D)) W); [|apply exp_decay_lim, A].
    intros D L. apply is_RInt_unique. rewrite Rmult_1_l. apply efficiency_int; lra.
Qed.

(** The variance of the efficiency, over the square of the slope. *)
Lemma sinh_form : forall x, 2 * exp (- x) * (sinh x - x) = 1 - 2 * x * exp (- x) - exp (- x) ^ 2.
Proof.
  intros x. unfold sinh. assert (Y : exp x * exp (- x) = 1) by (rewrite <- exp_plus; replace (x + - x) with 0 by ring; apply exp_0).
  replace (2 * exp (- x) * ((exp x - exp (- x)) / 2 - x)) with (exp x * exp (- x) - exp (- x) ^ 2 - 2 * x * exp (- x)) by field.
  rewrite Y. ring.
Qed.
Definition var_cce (x eta0 : R) : R := ((1 - eta0) / x) ^ 2 * (2 * exp (- x) * (sinh x - x)).
Lemma vmr_cce_value : forall x eta0 c, x <> 0 -> c <> 0 -> vmr_cce x eta0 c = Some (var_cce x eta0 / c).
Proof.
  intros x eta0 c X C. unfold vmr_cce. rewrite odiv_nz by exact X. cbn [obind]. rewrite odiv_nz by exact C. f_equal.
  unfold var_cce. field. split; assumption.
Qed.
Lemma variance_depth_mean : forall a W eta0, 0 < a -> 0 < W ->
  is_depth_mean a (fun z => (differential_efficiency eta0 W z - cce (a * W) eta0) ^ 2) (var_cce (a * W) eta0).
Proof.
  intros a W eta0 A P. set (m := cce (a * W) eta0). split.
  - intros D D0. apply (efficiency_continuity a W eta0 (fun t => (t - m) ^ 2)); [assumption..|]. intros x.
    apply (ex_derive_continuous (V := R_NormedModule)). auto_derive. trivial.
  - apply (lim_eventually _ (fun D => var_cce (a * W) eta0 - (1 - m) ^ 2 * exp (- a * D)) W); [|apply exp_decay_lim, A].
    intros D L. apply is_RInt_unique.
    assert (H := square_int a W eta0 D m A P ltac:(lra)). fold m in H.
    match type of H with is_RInt _ _ _ ?v => match goal with |- is_RInt _ _ _ ?w => replace w with v; [exact H|] end end.
    unfold var_cce. rewrite sinh_form. unfold m. ring.
Qed.

(** The variance of a number between 0 and 1 is at most m (1 - m). *)
Lemma tanh_ineq : forall x, 0 <= x -> 0 <= x - 2 + (2 + x) * exp (- x).
Proof.
  intros x X. destruct (Req_dec x 0) as [->|N]; [rewrite Ropp_0, exp_0; lra|].
  set (f := fun x => x - 2 + (2 + x) * exp (- x)).
  assert (D : forall t, is_derive f t (1 - (1 + t) * exp (- t))) by (intros t; unfold f; auto_derive; [trivial | ring]).
  destruct (MVT_gen f 0 x (fun t => 1 - (1 + t) * exp (- t))) as (c & [C1 C2] & E).
  - intros t _. apply D.
  - intros t _. apply continuity_pt_filterlim. apply (ex_derive_continuous (V := R_NormedModule)). eexists. apply D.
  - rewrite Rmin_left in C1 by lra. rewrite Rmax_right in C2 by lra.
    assert (F0 : f 0 = 0) by (unfold f; rewrite Ropp_0, exp_0; ring).
    assert (G : 0 <= 1 - (1 + c) * exp (- c)).
    { destruct (Req_dec c 0) as [->|NC]; [rewrite Ropp_0, exp_0; lra|]. assert (S := exp_neg_step c ltac:(lra)). lra. }
    change (0 <= f x). rewrite F0 in E. nra.
Qed.
Lemma var_bounds : forall x eta0, 0 < x -> 0 <= eta0 <= 1 ->
  0 <= var_cce x eta0 <= cce x eta0 * (1 - cce x eta0).
Proof.
  intros x eta0 X E. unfold var_cce. rewrite sinh_form. set (e := exp (- x)).
  assert (S : e < 1) by (apply exp_neg_lt1, X). assert (EP : 0 < e) by apply exp_pos.
  assert (T := tanh_ineq x ltac:(lra)). fold e in T.
  assert (S2 : x * e < 1 - e) by (apply exp_neg_step, X).
  set (k := 1 - eta0). assert (K : 0 <= k <= 1) by (unfold k; lra).
  assert (V : var_cce x eta0 = (k / x) ^ 2 * (1 - 2 * x * e - e ^ 2)) by (unfold var_cce; rewrite sinh_form; reflexivity).
  split.
  - apply Rmult_le_pos; [apply pow2_ge_0|].
    (* sinh x >= x *)
    assert (Q : 0 <= 1 - 2 * x * e - e ^ 2).
    { set (f := fun x => 1 - 2 * x * exp (- x) - exp (- x) ^ 2).
      assert (D : forall t, is_derive f t (2 * exp (- t) * (t - 1 + exp (- t)))) by (intros t; unfold f; auto_derive; [trivial | ring]).
      destruct (MVT_gen f 0 x (fun t => 2 * exp (- t) * (t - 1 + exp (- t)))) as (c & [C1 C2] & ME).
      - intros t _. apply D.
      - intros t _. apply continuity_pt_filterlim. apply (ex_derive_continuous (V := R_NormedModule)). eexists. apply D.
      - rewrite Rmin_left in C1 by lra. rewrite Rmax_right in C2 by lra.
        assert (F0 : f 0 = 0) by (unfold f; rewrite Ropp_0, exp_0; ring).
        assert (G := exp_ineq1_le (- c)). assert (EC := exp_pos (- c)).
        change (0 <= f x). rewrite F0 in ME. assert (0 <= 2 * exp (- c) * (c - 1 + exp (- c))) by (apply Rmult_le_pos; nra). nra. }
    exact Q.
  - assert (PX : phi x * x = 1 - e) by (unfold phi, e; field; lra).
    destruct (phi_bounds x X) as [P0 P1].
    assert (C : cce x eta0 = 1 - k * (1 - phi x)) by (unfold cce, k; ring). rewrite C.
    assert (A : k ^ 2 * ((1 - phi x) * phi x) <= (1 - k * (1 - phi x)) * (1 - (1 - k * (1 - phi x)))).
    { set (p := phi x) in *. assert (0 <= k * (1 - p) * (1 - k)) by (apply Rmult_le_pos; [apply Rmult_le_pos|]; lra). nra. }
    eapply Rle_trans; [|exact A].
    replace ((k / x) ^ 2 * (1 - 2 * x * e - e ^ 2)) with (k ^ 2 * ((1 - 2 * x * e - e ^ 2) / (x * x))) by (field; lra).
    apply Rmult_le_compat_l; [apply pow2_ge_0|].
    apply Rmult_le_reg_r with (x * x); [nra|].
    replace ((1 - 2 * x * e - e ^ 2) / (x * x) * (x * x)) with (1 - 2 * x * e - e ^ 2) by (field; lra).
    replace ((1 - phi x) * phi x * (x * x)) with ((x - phi x * x) * (phi x * x)) by ring. rewrite PX. nra.
Qed.
