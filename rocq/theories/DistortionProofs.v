From Coq Require Import Reals Lra.
From Verif Require Import Num NumLemmas DistortionModel.
Open Scope R_scope.
Open Scope opt_scope.

Lemma spv_eq a b :
  sp_wavelength a = sp_wavelength b -> sp_x a = sp_x b -> sp_y a = sp_y b -> a = b.
Proof. destruct a, b; cbn; intros; subst; reflexivity. Qed.

Lemma sp_inverse_some m : sp_det m <> 0 -> exists i, sp_inverse m = Some i.
Proof. intros H; unfold sp_inverse; cbv zeta; rewrite (odiv_nz _ _ H); cbn; eauto. Qed.

Lemma sp_inverse_left m i v : sp_inverse m = Some i -> sp_matvec i (sp_matvec m v) = v.
Proof.
  unfold sp_inverse; cbv zeta; destruct (odiv 1 (sp_det m)) as [q|] eqn:Q; [|discriminate].
  apply odiv_some in Q as (Z & Q & _); subst q; cbn [obind]; intros [= <-].
  destruct m as [[a1 a2 a3] [b1 b2 b3] [c1 c2 c3]], v as [x y z].
  unfold sp_det in *; cbn in *; apply spv_eq; unfold sp_matvec, sp_dot; cbn; field; exact Z.
Qed.
Lemma sp_inverse_right m i v : sp_inverse m = Some i -> sp_matvec m (sp_matvec i v) = v.
Proof.
  unfold sp_inverse; cbv zeta; destruct (odiv 1 (sp_det m)) as [q|] eqn:Q; [|discriminate].
  apply odiv_some in Q as (Z & Q & _); subst q; cbn [obind]; intros [= <-].
  destruct m as [[a1 a2 a3] [b1 b2 b3] [c1 c2 c3]], v as [x y z].
  unfold sp_det in *; cbn in *; apply spv_eq; unfold sp_matvec, sp_dot; cbn; field; exact Z.
Qed.

Lemma sp_sub_add a b : sp_sub (sp_add a b) b = a.
Proof. apply spv_eq; cbn; ring. Qed.
Lemma sp_add_sub a b : sp_add (sp_sub a b) b = a.
Proof. apply spv_eq; cbn; ring. Qed.

Lemma linear_round_trip a c0 b c : sp_det a <> 0 ->
  let m := mkLinear (Some a) c0 b in
  (let* d := distort m c in undistort m d) = Some c
  /\ (let* d := undistort m c in distort m d) = Some c.
Proof.
  intros H m; destruct (sp_inverse_some a H) as [i I].
  unfold distort, undistort, m; cbn [obind ld_matrix ld_center ld_intercept]; rewrite I; cbn [obind].
  split; f_equal; rewrite sp_sub_add.
  - rewrite (sp_inverse_left _ _ _ I); apply sp_add_sub.
  - rewrite (sp_inverse_right _ _ _ I); apply sp_add_sub.
Qed.

Lemma simple_matrix_eq d : sd_plate_scale d <> 0 -> sd_dispersion d <> 0 ->
  simple_matrix d = Some (mkSpm (mkSpv 1 0 0)
    (mkSpv (1 / sd_dispersion d) (cos (sd_angle d) / sd_plate_scale d) (- sin (sd_angle d) / sd_plate_scale d))
    (mkSpv (0 / sd_dispersion d) (sin (sd_angle d) / sd_plate_scale d) (cos (sd_angle d) / sd_plate_scale d))).
Proof.
  intros P D; unfold simple_matrix; cbv zeta; rewrite !(odiv_nz _ _ P), !(odiv_nz _ _ D); reflexivity.
Qed.

Lemma simple_det d a : sd_plate_scale d <> 0 -> sd_dispersion d <> 0 ->
  simple_matrix d = Some a -> sp_det a = 1 / (sd_plate_scale d * sd_plate_scale d).
Proof.
  intros P D; rewrite (simple_matrix_eq d P D); intros [= <-]; unfold sp_det; cbn.
  pose proof (sin2_cos2 (sd_angle d)) as T; unfold Rsqr in T.
  transitivity ((sin (sd_angle d) * sin (sd_angle d) + cos (sd_angle d) * cos (sd_angle d)) / (sd_plate_scale d * sd_plate_scale d)).
  - field; auto.
  - rewrite T; reflexivity.
Qed.

Lemma simple_round_trip d c : sd_plate_scale d <> 0 -> sd_dispersion d <> 0 ->
  (let* e := distort (simple_model d) c in undistort (simple_model d) e) = Some c
  /\ (let* e := undistort (simple_model d) c in distort (simple_model d) e) = Some c.
Proof.
  intros P D; unfold simple_model; pose proof (simple_matrix_eq d P D) as M.
  rewrite M; apply linear_round_trip; rewrite (simple_det d _ P D M).
  unfold Rdiv; rewrite Rmult_1_l; apply Rinv_neq_0_compat, Rmult_integral_contrapositive; auto.
Qed.

Lemma simple_wavelength d c e : distort (simple_model d) c = Some e -> sp_wavelength e = sp_wavelength c.
Proof.
  unfold distort, simple_model; cbn [ld_matrix ld_center ld_intercept].
  destruct (simple_matrix d) as [a|] eqn:A; [|discriminate]; cbn [obind]; intros [= <-].
  unfold simple_matrix in A; cbv zeta in A.
  repeat match type of A with (obind (odiv ?x ?y) _) = _ =>
    let q := fresh in destruct (odiv x y) as [q|]; [cbn [obind] in A | discriminate] end.
  injection A as <-; cbn; unfold sp_dot; cbn; unfold simple_center, simple_intercept; cbn; ring.
Qed.

Lemma simple_wavelength_inv d c e : undistort (simple_model d) c = Some e -> sp_wavelength e = sp_wavelength c.
Proof.
  unfold undistort, simple_model; cbn [ld_matrix ld_center ld_intercept].
  destruct (simple_matrix d) as [a|] eqn:A; [|discriminate]; cbn [obind].
  destruct (sp_inverse a) as [i|] eqn:I; [|discriminate]; cbn [obind]; intros [= <-].
  pose proof (sp_inverse_right a i (sp_sub c (simple_intercept d)) I) as E.
  unfold simple_matrix in A; cbv zeta in A.
  repeat match type of A with (obind (odiv ?x ?y) _) = _ =>
    let q := fresh in destruct (odiv x y) as [q|]; [cbn [obind] in A | discriminate] end.
  injection A as <-; apply (f_equal sp_wavelength) in E.
  unfold sp_matvec at 1 in E; cbn in E; unfold sp_dot at 1 in E; cbn [sp_wavelength sp_x sp_y] in E.
  unfold sp_add; cbn [sp_wavelength]; unfold simple_center, simple_intercept in *; cbn in *; lra.
Qed.

Lemma simple_reference d : sd_plate_scale d <> 0 -> sd_dispersion d <> 0 ->
  distort (simple_model d) (mkSpv (sp_wavelength (sd_reference d)) 0 0) = Some (sd_reference d).
Proof.
  intros P D; unfold distort, simple_model; cbn [ld_matrix ld_center ld_intercept].
  rewrite (simple_matrix_eq d P D); cbn [obind]; f_equal; unfold simple_center, simple_intercept.
  apply spv_eq; cbn; unfold sp_dot; cbn; unfold Rdiv; ring.
Qed.

Lemma simple_distort_eq d c : sd_plate_scale d <> 0 -> sd_dispersion d <> 0 ->
  exists e, distort (simple_model d) c = Some e
    /\ sp_wavelength e = sp_wavelength c
    /\ sp_x e = sp_x (sd_reference d)
        + (cos (sd_angle d) * sp_x c - sin (sd_angle d) * sp_y c) / sd_plate_scale d
        + (sp_wavelength c - sp_wavelength (sd_reference d)) / sd_dispersion d
    /\ sp_y e = sp_y (sd_reference d)
        + (sin (sd_angle d) * sp_x c + cos (sd_angle d) * sp_y c) / sd_plate_scale d.
Proof.
  intros P D; unfold distort, simple_model; cbn [ld_matrix ld_center ld_intercept].
  rewrite (simple_matrix_eq d P D); cbn [obind]; eexists; split; [reflexivity|].
  unfold simple_center, simple_intercept; cbn; unfold sp_dot; cbn; repeat split; field; auto.
Qed.

Lemma simple_scale d c1 c2 e1 e2 : sd_plate_scale d <> 0 -> sd_dispersion d <> 0 ->
  sp_wavelength c1 = sp_wavelength c2 ->
  distort (simple_model d) c1 = Some e1 -> distort (simple_model d) c2 = Some e2 ->
  sqrt ((sp_x e1 - sp_x e2) * (sp_x e1 - sp_x e2) + (sp_y e1 - sp_y e2) * (sp_y e1 - sp_y e2))
  = sqrt ((sp_x c1 - sp_x c2) * (sp_x c1 - sp_x c2) + (sp_y c1 - sp_y c2) * (sp_y c1 - sp_y c2))
    / Rabs (sd_plate_scale d).
Proof.
  intros P D W H1 H2.
  destruct (simple_distort_eq d c1 P D) as (f1 & F1 & _ & X1 & Y1).
  destruct (simple_distort_eq d c2 P D) as (f2 & F2 & _ & X2 & Y2).
  rewrite H1 in F1; injection F1 as <-; rewrite H2 in F2; injection F2 as <-.
  assert (A : 0 < Rabs (sd_plate_scale d)) by (apply Rabs_pos_lt; exact P).
  rewrite <- (sqrt_Rsqr (Rabs (sd_plate_scale d))) by lra; rewrite <- Rsqr_abs.
  unfold Rdiv; rewrite <- sqrt_inv.
  rewrite <- sqrt_mult_alt by (apply Rplus_le_le_0_compat; apply Rle_0_sqr).
  f_equal; rewrite X1, X2, Y1, Y2, W; unfold Rsqr.
  pose proof (sin2_cos2 (sd_angle d)) as T; unfold Rsqr in T.
  set (s := sin _) in *; set (c := cos _) in *.
  set (u := sp_x c1 - sp_x c2); set (v := sp_y c1 - sp_y c2).
  transitivity ((s * s + c * c) * (u * u + v * v) * / (sd_plate_scale d * sd_plate_scale d)).
  - unfold u, v; field; auto.
  - rewrite T; ring.
Qed.

Lemma simple_dispersion d w1 w2 x y e1 e2 : sd_plate_scale d <> 0 -> sd_dispersion d <> 0 ->
  distort (simple_model d) (mkSpv w1 x y) = Some e1 ->
  distort (simple_model d) (mkSpv w2 x y) = Some e2 ->
  sp_x e2 - sp_x e1 = (w2 - w1) / sd_dispersion d /\ sp_y e2 = sp_y e1.
Proof.
  intros P D H1 H2.
  destruct (simple_distort_eq d (mkSpv w1 x y) P D) as (f1 & F1 & _ & X1 & Y1).
  destruct (simple_distort_eq d (mkSpv w2 x y) P D) as (f2 & F2 & _ & X2 & Y2).
  rewrite H1 in F1; injection F1 as <-; rewrite H2 in F2; injection F2 as <-; cbn in *.
  rewrite X1, X2, Y1, Y2; split; [field; auto | reflexivity].
Qed.

Lemma simple_undefined d c : sd_plate_scale d = 0 \/ sd_dispersion d = 0 ->
  distort (simple_model d) c = None /\ undistort (simple_model d) c = None.
Proof.
  intros Z; unfold distort, undistort, simple_model; cbn [ld_matrix].
  assert (E : simple_matrix d = None).
  { unfold simple_matrix; cbv zeta.
    destruct Z as [Z | Z]; rewrite Z, !odiv_0; cbn; [destruct (odiv 1 _)|]; reflexivity. }
  rewrite E; split; reflexivity.
Qed.
