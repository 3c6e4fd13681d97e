(** The Gaussian integral and the error function of ProfileModel. *)
From Coq Require Import Reals Lra Psatz.
From Coquelicot Require Import Coquelicot.
From Verif Require Import ProfileModel.
Open Scope R_scope.

(** An equation between real numbers seen as elements of a module. *)
Ltac real_eq := match goal with |- @eq _ ?a ?b => change (@eq R a b) end.

Definition gauss (t : R) : R := exp (- t ^ 2).
Definition gauss_int (x : R) : R := RInt gauss 0 x.

Lemma gauss_continuous : forall t, continuous gauss t.
Proof. intros t. apply (ex_derive_continuous gauss). unfold gauss. auto_derive. trivial. Qed.

Lemma gauss_ex : forall a b, ex_RInt gauss a b.
Proof. intros. apply (ex_RInt_continuous (V := R_CompleteNormedModule)). intros; apply gauss_continuous. Qed.

Lemma gauss_pos : forall t, 0 < gauss t.
Proof. intros; apply exp_pos. Qed.

Lemma gauss_int_derive : forall x, is_derive gauss_int x (gauss x).
Proof.
  intros x. apply (is_derive_RInt gauss gauss_int 0 x).
  - apply filter_forall. intros y. apply (RInt_correct (V := R_CompleteNormedModule)), gauss_ex.
  - apply gauss_continuous.
Qed.

Lemma gauss_int_0 : gauss_int 0 = 0.
Proof. unfold gauss_int. apply (RInt_point (V := R_CompleteNormedModule)). Qed.

(** The auxiliary integral. *)
Definition aux (x t : R) : R := exp (- x ^ 2 * (1 + t ^ 2)) / (1 + t ^ 2).
Definition aux_int (x : R) : R := RInt (aux x) 0 1.

Lemma one_plus_sq : forall t, 0 < 1 + t ^ 2.
Proof. intros t. assert (H := pow2_ge_0 t). lra. Qed.

Lemma aux_ex : forall x a b, ex_RInt (aux x) a b.
Proof.
  intros. apply (ex_RInt_continuous (V := R_CompleteNormedModule)). intros t _. apply (ex_derive_continuous (aux x)).
  unfold aux. auto_derive. assert (H := one_plus_sq t). cbn in H. lra.
Qed.

Lemma aux_derive : forall x t, is_derive (fun x => aux x t) x (- 2 * x * exp (- x ^ 2 * (1 + t ^ 2))).
Proof.
  intros x t. assert (H := one_plus_sq t). unfold aux. auto_derive; [trivial|]. cbn [pow] in *. field. lra.
Qed.

Lemma aux_int_derive : forall x, is_derive aux_int x (RInt (fun t => - 2 * x * exp (- x ^ 2 * (1 + t ^ 2))) 0 1).
Proof.
  intros x.
  assert (E : forall u t, Derive (fun z => aux z t) u = - 2 * u * exp (- u ^ 2 * (1 + t ^ 2))).
  { intros u t. apply is_derive_unique, aux_derive. }
  assert (D := is_derive_RInt_param aux 0 1 x).
  replace (RInt (fun t => - 2 * x * exp (- x ^ 2 * (1 + t ^ 2))) 0 1) with (RInt (fun t => Derive (fun u => aux u t) x) 0 1)
    by (apply (RInt_ext (V := R_CompleteNormedModule)); intros; apply E).
  apply D.
  - apply filter_forall. intros y t _. eexists. apply aux_derive.
  - intros t _. apply (continuity_2d_pt_ext (fun u v => - 2 * u * exp (- u ^ 2 * (1 + v ^ 2)))).
    + intros u v. symmetry. apply E.
    + apply continuity_2d_pt_mult.
      * apply continuity_2d_pt_mult; [apply continuity_2d_pt_const | apply continuity_2d_pt_id1].
      * apply (continuity_1d_2d_pt_comp exp (fun u v => - u ^ 2 * (1 + v ^ 2))).
        -- apply derivable_continuous_pt, derivable_pt_exp.
        -- apply continuity_2d_pt_mult.
           ++ apply continuity_2d_pt_opp. apply (continuity_1d_2d_pt_comp (fun z => z ^ 2) (fun u v => u)); [|apply continuity_2d_pt_id1].
              apply derivable_continuous_pt. apply derivable_pt_pow.
           ++ apply continuity_2d_pt_plus; [apply continuity_2d_pt_const|].
              apply (continuity_1d_2d_pt_comp (fun z => z ^ 2) (fun u v => v)); [|apply continuity_2d_pt_id2].
              apply derivable_continuous_pt. apply derivable_pt_pow.
  - apply filter_forall. intros y. apply aux_ex.
Qed.

Lemma gauss_scale : forall x, RInt (fun t => x * gauss (x * t)) 0 1 = gauss_int x.
Proof.
  intros x. unfold gauss_int. assert (H := RInt_comp_lin (V := R_CompleteNormedModule) gauss x 0 0 1).
  replace (x * 0 + 0) with 0 in H by ring. replace (x * 1 + 0) with x in H by ring. rewrite <- H by apply gauss_ex.
  apply (RInt_ext (V := R_CompleteNormedModule)). intros t _. unfold scal; cbn; unfold mult; cbn. rewrite Rplus_0_r. reflexivity.
Qed.

Lemma gauss_sum_derive : forall x, is_derive (fun x => gauss_int x ^ 2 + aux_int x) x 0.
Proof.
  intros x.
  assert (D1 := gauss_int_derive x). assert (D2 := aux_int_derive x).
  assert (E : RInt (fun t => - 2 * x * exp (- x ^ 2 * (1 + t ^ 2))) 0 1 = - 2 * gauss x * gauss_int x).
  { rewrite <- (gauss_scale x). rewrite <- (RInt_scal (V := R_CompleteNormedModule)).
    - apply (RInt_ext (V := R_CompleteNormedModule)). intros t _. transitivity ((- 2 * gauss x) * (x * gauss (x * t))); [|reflexivity]. unfold gauss.
      replace (- x ^ 2 * (1 + t ^ 2)) with (- x ^ 2 + - (x * t) ^ 2) by ring. rewrite exp_plus. real_eq. ring.
    - apply (ex_RInt_continuous (V := R_CompleteNormedModule)). intros t _. apply (ex_derive_continuous (fun t => x * gauss (x * t))).
      unfold gauss. auto_derive. trivial. }
  rewrite E in D2.
  replace 0 with (2 * gauss x * gauss_int x + - 2 * gauss x * gauss_int x) by ring.
  apply (is_derive_plus (V := R_NormedModule) (fun x => gauss_int x ^ 2) aux_int); [|exact D2].
  assert (P := is_derive_pow gauss_int 2 x (gauss x) D1). cbn in P.
  replace (2 * gauss x * gauss_int x) with ((1 + 1) * gauss x * (gauss_int x * 1)) by ring. exact P.
Qed.

Lemma gauss_sum : forall x, gauss_int x ^ 2 + aux_int x = PI / 4.
Proof.
  intros x.
  assert (A0 : aux_int 0 = PI / 4).
  { unfold aux_int. transitivity (RInt (fun t => / (1 + t ^ 2)) 0 1).
    - apply (RInt_ext (V := R_CompleteNormedModule)). intros t _. unfold aux. replace (- 0 ^ 2 * (1 + t ^ 2)) with 0 by ring.
      rewrite exp_0. unfold Rdiv. real_eq. ring.
    - apply is_RInt_unique. replace (PI / 4) with (minus (atan 1) (atan 0)) by (rewrite atan_1, atan_0; unfold minus, plus, opp; cbn; ring).
      apply (is_RInt_derive (V := R_CompleteNormedModule) atan (fun t => / (1 + t ^ 2)) 0 1).
      + intros t _. apply is_derive_Reals, derivable_pt_lim_atan.
      + intros t _. apply (ex_derive_continuous (fun t => / (1 + t ^ 2))). auto_derive. assert (H := one_plus_sq t). cbn in H. lra. }
  assert (C : forall a b, gauss_int a ^ 2 + aux_int a = gauss_int b ^ 2 + aux_int b).
  { intros a b. destruct (MVT_gen (fun x => gauss_int x ^ 2 + aux_int x) a b (fun _ => 0)) as (c & _ & H).
    - intros y _. apply gauss_sum_derive.
    - intros y _. apply derivable_continuous_pt. exists 0. apply is_derive_Reals, gauss_sum_derive.
    - lra. }
  rewrite (C x 0), A0, gauss_int_0. ring.
Qed.

Lemma aux_bounds : forall x, 0 < aux_int x <= gauss x.
Proof.
  intros x. unfold aux_int. split.
  - apply RInt_gt_0; [lra | |].
    + intros t _. unfold aux. apply Rdiv_lt_0_compat; [apply exp_pos | apply one_plus_sq].
    + intros t _. apply (ex_derive_continuous (aux x)). unfold aux. auto_derive. assert (H := one_plus_sq t). cbn in H. lra.
  - replace (gauss x) with (RInt (fun _ => gauss x) 0 1) by (rewrite (RInt_const (V := R_CompleteNormedModule)); unfold scal; cbn; unfold mult; cbn; ring).
    apply RInt_le; [lra | apply aux_ex | apply (ex_RInt_const (V := R_CompleteNormedModule)) |].
    intros t _. unfold aux, gauss. assert (H := one_plus_sq t). assert (T := pow2_ge_0 t). assert (X := pow2_ge_0 x).
    apply Rle_div_l; [exact H|]. assert (P := exp_pos (- x ^ 2)).
    apply Rle_trans with (exp (- x ^ 2)); [|nra].
    assert (Q : 0 <= x ^ 2 * t ^ 2) by (apply Rmult_le_pos; assumption).
    destruct (Req_dec (- x ^ 2 * (1 + t ^ 2)) (- x ^ 2)) as [-> | N]; [lra|]. left. apply exp_increasing. lra.
Qed.

(** ** The error function *)
Lemma erf_value : forall x, erf x = 2 / sqrt PI * gauss_int x.
Proof. reflexivity. Qed.

Lemma sqrt_PI_pos : 0 < sqrt PI.
Proof. apply sqrt_lt_R0, PI_RGT_0. Qed.

Lemma erf_derive : forall x, is_derive erf x (2 / sqrt PI * gauss x).
Proof.
  intros x. apply (is_derive_ext (fun x => 2 / sqrt PI * gauss_int x)); [reflexivity|].
  apply (is_derive_scal gauss_int x). apply gauss_int_derive.
Qed.

Lemma erf_0 : erf 0 = 0.
Proof. rewrite erf_value, gauss_int_0. ring. Qed.

Lemma gauss_int_opp : forall x, gauss_int (- x) = - gauss_int x.
Proof.
  intros x. unfold gauss_int. assert (H := RInt_comp_lin (V := R_CompleteNormedModule) gauss (-1) 0 0 x).
  replace (-1 * 0 + 0) with 0 in H by ring. replace (-1 * x + 0) with (- x) in H by ring. rewrite <- H by apply gauss_ex.
  transitivity (RInt (fun t => opp (gauss t)) 0 x); [|apply (RInt_opp (V := R_CompleteNormedModule)), gauss_ex].
  apply (RInt_ext (V := R_CompleteNormedModule)). intros t _. transitivity (-1 * gauss (-1 * t + 0)); [reflexivity|].
  transitivity (- gauss t); [|reflexivity]. replace (gauss (-1 * t + 0)) with (gauss t) by (unfold gauss; f_equal; ring). real_eq. ring.
Qed.

Lemma erf_opp : forall x, erf (- x) = - erf x.
Proof. intros x. rewrite !erf_value, gauss_int_opp. ring. Qed.

Lemma erf_increasing : forall x y, x < y -> erf x < erf y.
Proof.
  intros x y H. rewrite !erf_value. apply Rmult_lt_compat_l; [apply Rdiv_lt_0_compat; [lra | apply sqrt_PI_pos]|].
  destruct (MVT_gen gauss_int x y gauss) as (c & _ & E).
  - intros; apply gauss_int_derive.
  - intros z _. apply derivable_continuous_pt. exists (gauss z). apply is_derive_Reals, gauss_int_derive.
  - assert (P := gauss_pos c). nra.
Qed.

Lemma erf_sq : forall x, erf x ^ 2 = 1 - 4 / PI * aux_int x.
Proof.
  intros x. assert (P := PI_RGT_0). assert (S := sqrt_sqrt PI ltac:(lra)). assert (SP := sqrt_PI_pos).
  rewrite erf_value. assert (G := gauss_sum x). 
  replace ((2 / sqrt PI * gauss_int x) ^ 2) with (4 / (sqrt PI * sqrt PI) * gauss_int x ^ 2) by (field; lra).
  rewrite S. replace (gauss_int x ^ 2) with (PI / 4 - aux_int x) by lra. field. lra.
Qed.

Lemma erf_bounds : forall x, -1 < erf x < 1.
Proof.
  intros x. assert (E := erf_sq x). destruct (aux_bounds x) as [A _]. assert (P := PI_RGT_0).
  assert (0 < 4 / PI * aux_int x) by (apply Rmult_lt_0_compat; [apply Rdiv_lt_0_compat; lra | exact A]). nra.
Qed.

Lemma gauss_small : forall x, 0 < x -> gauss x < / x.
Proof.
  intros x X. unfold gauss. rewrite exp_Ropp. apply Rinv_lt_contravar; [apply Rmult_lt_0_compat; [exact X | apply exp_pos]|].
  destruct (Rlt_le_dec x 1).
  - apply Rlt_le_trans with 1; [assumption|]. rewrite <- exp_0. destruct (Req_dec (x ^ 2) 0) as [E | E]; [rewrite E; lra|].
    left. apply exp_increasing. assert (H := pow2_ge_0 x). lra.
  - assert (H := exp_ineq1 (x ^ 2) ltac:(apply pow_nonzero; lra)). nra.
Qed.

Lemma erf_limit : forall eps, 0 < eps -> exists Z, 0 < Z /\ forall x, Z <= x -> 1 - eps < erf x.
Proof.
  intros eps E. assert (P := PI_RGT_0). exists (4 / PI / eps + 1).
  assert (Q : 0 < 4 / PI / eps) by (apply Rdiv_lt_0_compat; [apply Rdiv_lt_0_compat; lra | exact E]).
  split; [lra|]. intros x X. assert (S := erf_sq x). destruct (aux_bounds x) as [_ A]. assert (G := gauss_small x ltac:(lra)).
  assert (E0 : 0 < erf x) by (rewrite <- erf_0; apply erf_increasing; lra). destruct (erf_bounds x) as [_ E1].
  assert (T : 4 / PI * aux_int x < eps).
  { apply Rle_lt_trans with (4 / PI * gauss x); [apply Rmult_le_compat_l; [left; apply Rdiv_lt_0_compat; lra | exact A]|].
    apply Rlt_le_trans with (4 / PI * / x); [apply Rmult_lt_compat_l; [apply Rdiv_lt_0_compat; lra | exact G]|].
    apply Rmult_le_reg_r with (x / eps); [apply Rdiv_lt_0_compat; lra|].
    replace (4 / PI * / x * (x / eps)) with (4 / PI / eps) by (field; lra). replace (eps * (x / eps)) with x by (field; lra). lra. }
  nra.
Qed.

(** ** The transform of the Gaussian *)
Definition gauss_cos (z s : R) : R := RInt (fun t => gauss t * cos (s * t)) 0 z.

Lemma gauss_cos_ex : forall s a b, ex_RInt (fun t => gauss t * cos (s * t)) a b.
Proof.
  intros. apply (ex_RInt_continuous (V := R_CompleteNormedModule)). intros t _.
  apply (ex_derive_continuous (fun t => gauss t * cos (s * t))). unfold gauss. auto_derive. trivial.
Qed.

Lemma gauss_cos_derive : forall z s,
  is_derive (gauss_cos z) s (gauss z * sin (s * z) / 2 - s / 2 * gauss_cos z s).
Proof.
  intros z s. unfold gauss_cos.
  assert (D : forall u t, is_derive (fun u => gauss t * cos (u * t)) u (- (t * gauss t * sin (u * t)))).
  { intros u t. auto_derive; [trivial|]. ring. }
  assert (E : forall u t, Derive (fun u => gauss t * cos (u * t)) u = - (t * gauss t * sin (u * t))).
  { intros u t. apply is_derive_unique, D. }
  assert (P := is_derive_RInt_param (fun u t => gauss t * cos (u * t)) 0 z s).
  assert (V : RInt (fun t => Derive (fun u => gauss t * cos (u * t)) s) 0 z =
              gauss z * sin (s * z) / 2 - s / 2 * RInt (fun t => gauss t * cos (s * t)) 0 z).
  { transitivity (RInt (fun t => - (t * gauss t * sin (s * t))) 0 z).
    { apply (RInt_ext (V := R_CompleteNormedModule)). intros t _. apply E. }
    apply is_RInt_unique.
    apply (is_RInt_ext (V := R_NormedModule)) with
      (fun t => minus (- t * gauss t * sin (s * t) + s / 2 * (gauss t * cos (s * t))) (scal (s / 2) (gauss t * cos (s * t)))).
    { intros t _. unfold minus, plus, opp, scal; cbn; unfold mult; cbn. real_eq. ring. }
    apply (is_RInt_minus (V := R_NormedModule)).
    - assert (H := is_RInt_derive (V := R_CompleteNormedModule) (fun t => gauss t * sin (s * t) / 2)
        (fun t => - t * gauss t * sin (s * t) + s / 2 * (gauss t * cos (s * t))) 0 z).
      replace (gauss z * sin (s * z) / 2) with (minus (gauss z * sin (s * z) / 2) (gauss 0 * sin (s * 0) / 2)).
      2: { rewrite Rmult_0_r, sin_0. unfold minus, plus, opp; cbn. real_eq. field. }
      apply H.
      + intros t _. unfold gauss. auto_derive; [trivial|]. cbn [pow]. field.
      + intros t _. apply (ex_derive_continuous (fun t => - t * gauss t * sin (s * t) + s / 2 * (gauss t * cos (s * t)))).
        unfold gauss. auto_derive. trivial.
    - apply (is_RInt_scal (V := R_NormedModule)). apply (RInt_correct (V := R_CompleteNormedModule)), gauss_cos_ex. }
  rewrite <- V. apply P.
  - apply filter_forall. intros y t _. eexists. apply D.
  - intros t _. apply (continuity_2d_pt_ext (fun u v => - (v * gauss v * sin (u * v)))).
    + intros u v. symmetry. apply E.
    + apply continuity_2d_pt_opp, continuity_2d_pt_mult.
      * apply (continuity_1d_2d_pt_comp (fun v => v * gauss v) (fun u v => v)); [|apply continuity_2d_pt_id2].
        apply derivable_continuous_pt. unfold gauss. eexists. apply is_derive_Reals. auto_derive; [trivial|reflexivity].
      * apply (continuity_1d_2d_pt_comp sin (fun u v => u * v)).
        -- apply derivable_continuous_pt, derivable_pt_sin.
        -- apply continuity_2d_pt_mult; [apply continuity_2d_pt_id1|apply continuity_2d_pt_id2].
  - apply filter_forall. intros y. apply gauss_cos_ex.
Qed.

Lemma gauss_cos_0 : forall z, gauss_cos z 0 = gauss_int z.
Proof.
  intros z. unfold gauss_cos, gauss_int. apply (RInt_ext (V := R_CompleteNormedModule)).
  intros t _. rewrite Rmult_0_l, cos_0. real_eq. ring.
Qed.

(** The transform differs from its limit by little. *)
Lemma gauss_cos_close : forall z s, 0 <= z ->
  Rabs (gauss_cos z s - exp (- s ^ 2 / 4) * gauss_int z) <= Rabs s * gauss z.
Proof.
  intros z s Hz.
  set (F := fun u => exp (u ^ 2 / 4) * gauss_cos z u).
  assert (D : forall u, is_derive F u (exp (u ^ 2 / 4) * (gauss z * sin (u * z) / 2))).
  { intros u. unfold F.
    replace (exp (u ^ 2 / 4) * (gauss z * sin (u * z) / 2)) with
      (plus (mult (exp (u ^ 2 / 4) * (u / 2)) (gauss_cos z u))
            (mult (exp (u ^ 2 / 4)) (gauss z * sin (u * z) / 2 - u / 2 * gauss_cos z u))).
    2: { unfold plus, mult; cbn. real_eq. field. }
    apply (is_derive_mult (fun u => exp (u ^ 2 / 4)) (gauss_cos z)).
    - auto_derive; [trivial|]. cbn [pow]. unfold Rdiv. real_eq. field.
    - apply gauss_cos_derive.
    - apply Rmult_comm. }
  destruct (MVT_gen F 0 s (fun u => exp (u ^ 2 / 4) * (gauss z * sin (u * z) / 2))) as (c & Hc & H).
  { intros y _. apply D. }
  { intros y _. apply derivable_continuous_pt. eexists. apply is_derive_Reals, D. }
  unfold F in H. rewrite gauss_cos_0 in H. replace (0 ^ 2 / 4) with 0 in H by field. rewrite exp_0 in H.
  assert (C2 : c ^ 2 <= s ^ 2).
  { unfold Rmin, Rmax in Hc. destruct (Rle_dec 0 s); nra. }
  replace (gauss_cos z s - exp (- s ^ 2 / 4) * gauss_int z) with
    (exp (- s ^ 2 / 4) * (exp (s ^ 2 / 4) * gauss_cos z s - 1 * gauss_int z)).
  2: { rewrite Rmult_minus_distr_l, <- Rmult_assoc, <- exp_plus. replace (- s ^ 2 / 4 + s ^ 2 / 4) with 0 by field. rewrite exp_0. ring. }
  rewrite H.
  replace (exp (- s ^ 2 / 4) * (exp (c ^ 2 / 4) * (gauss z * sin (c * z) / 2) * (s - 0))) with
    (s * (gauss z * (exp (- s ^ 2 / 4 + c ^ 2 / 4) * (sin (c * z) / 2)))) by (rewrite exp_plus; field).
  rewrite !Rabs_mult. apply Rmult_le_compat_l; [apply Rabs_pos|].
  rewrite (Rabs_pos_eq (gauss z)) by (left; apply gauss_pos).
  rewrite <- (Rmult_1_r (gauss z)) at 2. apply Rmult_le_compat_l; [left; apply gauss_pos|].
  rewrite (Rabs_pos_eq (exp _)) by (left; apply exp_pos).
  assert (exp (- s ^ 2 / 4 + c ^ 2 / 4) <= 1).
  { rewrite <- exp_0. destruct (Req_dec (- s ^ 2 / 4 + c ^ 2 / 4) 0) as [-> | N]; [lra|]. left. apply exp_increasing. lra. }
  assert (Rabs (sin (c * z) / 2) <= 1). { apply Rabs_le. generalize (SIN_bound (c * z)). lra. }
  generalize (exp_pos (- s ^ 2 / 4 + c ^ 2 / 4)) (Rabs_pos (sin (c * z) / 2)). nra.
Qed.

(** The second moment. *)
Lemma gauss_moment : forall z, is_RInt (V := R_NormedModule) (fun t => gauss t * t ^ 2) 0 z ((gauss_int z - z * gauss z) / 2).
Proof.
  intros z.
  replace ((gauss_int z - z * gauss z) / 2) with
    (minus ((gauss_int z - z * gauss z) / 2) ((gauss_int 0 - 0 * gauss 0) / 2)).
  2: { rewrite gauss_int_0. unfold minus, plus, opp; cbn. real_eq. field. }
  apply (is_RInt_derive (V := R_CompleteNormedModule) (fun z => (gauss_int z - z * gauss z) / 2)).
  - intros t _.
    replace (gauss t * t ^ 2) with (scal (1 / 2) (minus (gauss t) (gauss t + t * (- 2 * t * gauss t)))).
    2: { unfold scal; cbn; unfold mult, minus, plus, opp; cbn. real_eq. field. }
    apply is_derive_ext with (fun z => scal (1 / 2) (minus (gauss_int z) (z * gauss z))).
    { intros u. unfold scal; cbn; unfold mult, minus, plus, opp; cbn. real_eq. field. }
    apply (is_derive_scal (fun z => minus (gauss_int z) (z * gauss z)) t (1 / 2)).
    apply (is_derive_minus (V := R_NormedModule)).
    + apply gauss_int_derive.
    + unfold gauss. auto_derive; [trivial|]. cbn [pow]. ring.
  - intros t _. apply (ex_derive_continuous (fun t => gauss t * t ^ 2)). unfold gauss. auto_derive. trivial.
Qed.
