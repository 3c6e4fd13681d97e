(** Affine maps, illumination, and the witnesses about fits. *)
From Coq Require Import Reals List Bool Arith Lra Lia.
From Verif Require Import Vec Num NumLemmas RayModel DistortionModel FitModel FitSpec FitProofs.
Import ListNotations.
Open Scope R_scope.
Open Scope opt_scope.

Lemma poly_line : forall d k0 k1 k2 k3, is_polynomial (S d) (fun c => k0 + k1 * sp_wavelength c + k2 * sp_x c + k3 * sp_y c).
Proof.
  intros. exists [(0%nat, 0%nat, 0%nat, k0); (1%nat, 0%nat, 0%nat, k1); (0%nat, 1%nat, 0%nat, k2); (0%nat, 0%nat, 1%nat, k3)].
  split; [repeat (apply Forall_cons; [lia|]); apply Forall_nil|]. intros c. cbn. ring.
Qed.
Lemma poly_mul_line : forall d f k0 k1 k2 k3, is_polynomial d f ->
  is_polynomial (S d) (fun c => (k0 + k1 * sp_wavelength c + k2 * sp_x c + k3 * sp_y c) * f c).
Proof.
  intros d f k0 k1 k2 k3 F.
  apply (poly_ext _ (fun c => (k0 * f c + k1 * (sp_wavelength c * f c)) + (k2 * (sp_x c * f c) + k3 * (sp_y c * f c)))); [intros; ring|].
  assert (F' : is_polynomial (S d) f) by (apply (poly_le d); [lia|exact F]).
  apply poly_add; apply poly_add; apply poly_scale; try exact F'.
  - apply (poly_up _ sp_wavelength); auto.
  - apply (poly_up _ sp_x); auto.
  - apply (poly_up _ sp_y); auto.
Qed.
Lemma poly_affine : forall a b c e wx wy x0 y0 d f, is_polynomial d f -> is_polynomial d (fun p => f (affine a b c e wx wy x0 y0 p)).
Proof.
  intros a b c e wx wy x0 y0 d f (l & L & F).
  apply (poly_ext _ (fun p => rsum (map (fun t => (let '(i, j, k, q) := t in fun p =>
     q * (sp_wavelength p ^ i * (x0 + wx * sp_wavelength p + a * sp_x p + b * sp_y p) ^ j * (y0 + wy * sp_wavelength p + c * sp_x p + e * sp_y p) ^ k)) p) l))).
  { intros p. rewrite F. f_equal. apply map_ext. intros [[[i j] k] q]. cbn. f_equal. f_equal; [f_equal|]; f_equal; ring. }
  apply poly_sum. intros [[[i j] k] q] I. rewrite Forall_forall in L. specialize (L _ I). cbn in L.
  apply poly_scale. apply (poly_le (i + j + k)); [exact L|]. clear.
  set (u := fun p => x0 + wx * sp_wavelength p + a * sp_x p + b * sp_y p). set (v := fun p => y0 + wy * sp_wavelength p + c * sp_x p + e * sp_y p).
  assert (K : forall n, is_polynomial n (fun p => v p ^ n)).
  { intros n. induction n as [|n IH]; [exact (poly_const 0 1)|]. apply (poly_ext _ (fun p => v p * v p ^ n)); [reflexivity|]. apply poly_mul_line, IH. }
  assert (J : forall n, is_polynomial (n + k) (fun p => u p ^ n * v p ^ k)).
  { intros n. induction n as [|n IH]; [apply (poly_ext _ (fun p => v p ^ k)); [intros; cbn; ring|apply K]|].
    apply (poly_ext _ (fun p => u p * (u p ^ n * v p ^ k))); [intros; cbn; ring|]. apply poly_mul_line, IH. }
  induction i as [|i IH]; [apply (poly_ext _ (fun p => u p ^ j * v p ^ k)); [intros; cbn; unfold u, v; ring|apply J]|].
  apply (poly_ext _ (fun p => sp_wavelength p * (sp_wavelength p ^ i * u p ^ j * v p ^ k))); [intros; unfold u, v; cbn; ring|].
  apply (poly_up _ sp_wavelength); [auto|exact IH].
Qed.

(** Both fits of affine data are exact, and inverse to one another. *)
Lemma affine_round_trip : forall solve d points l a b c e wx wy x0 y0, least_squares solve -> (1 <= d)%nat ->
  points <> [] -> all_numbers points -> measured points l -> unisolvent d (map fst l) -> a * e - b * c <> 0 ->
  (forall p, In p l -> sensor_spv p = affine a b c e wx wy x0 y0 (fst p)) ->
  forall q, poly_distort solve d points q = Some (affine a b c e wx wy x0 y0 q) /\
    poly_undistort solve d points (affine a b c e wx wy x0 y0 q) = Some q /\
    exists r, poly_undistort solve d points q = Some r /\ poly_distort solve d points r = Some q.
Proof.
  intros solve d points l a b c e wx wy x0 y0 LS D N A M U DET E.
  destruct d as [|d]; [lia|].
  set (F := affine a b c e wx wy x0 y0) in *.
  set (D' := a * e - b * c) in *.
  set (gx := fun q : spv => (e * (sp_x q - x0 - wx * sp_wavelength q) - b * (sp_y q - y0 - wy * sp_wavelength q)) / D').
  set (gy := fun q : spv => (a * (sp_y q - y0 - wy * sp_wavelength q) - c * (sp_x q - x0 - wx * sp_wavelength q)) / D').
  assert (GF : forall q, mkSpv (sp_wavelength q) (gx (F q)) (gy (F q)) = q).
  { intros [w x y]. unfold gx, gy, F, affine. cbn. f_equal; unfold D' in *; field; exact DET. }
  assert (FG : forall q, F (mkSpv (sp_wavelength q) (gx q) (gy q)) = q).
  { intros [w x y]. unfold gx, gy, F, affine. cbn. f_equal; unfold D' in *; field; exact DET. }
  assert (PX : is_polynomial (S d) gx).
  { apply (poly_ext _ (fun q => (- e * x0 + b * y0) / D' + (- e * wx + b * wy) / D' * sp_wavelength q + e / D' * sp_x q + - b / D' * sp_y q)); [|apply poly_line].
    intros q. unfold gx. field. exact DET. }
  assert (PY : is_polynomial (S d) gy).
  { apply (poly_ext _ (fun q => (- a * y0 + c * x0) / D' + (- a * wy + c * wx) / D' * sp_wavelength q + - c / D' * sp_x q + a / D' * sp_y q)); [|apply poly_line].
    intros q. unfold gy. field. exact DET. }
  assert (FX : is_polynomial (S d) (fun q => sp_x (F q))).
  { apply (poly_ext _ (fun q => x0 + wx * sp_wavelength q + a * sp_x q + b * sp_y q)); [|apply poly_line]. intros q. cbn. ring. }
  assert (FY : is_polynomial (S d) (fun q => sp_y (F q))).
  { apply (poly_ext _ (fun q => y0 + wy * sp_wavelength q + c * sp_x q + e * sp_y q)); [|apply poly_line]. intros q. cbn. ring. }
  assert (US : unisolvent (S d) (map sensor_spv l)).
  { intros f Pf Z q. rewrite <- (FG q). apply (U (fun p => f (F p))); [apply poly_affine, Pf|].
    intros p I. apply in_map_iff in I. destruct I as (p' & <- & I). rewrite <- (E p' I). apply Z. apply in_map_iff. eauto. }
  assert (DE : forall q, poly_distort solve (S d) points q = Some (F q)).
  { intros q. destruct (distort_exact solve (S d) points l _ _ LS N M FX FY) as [_ X].
    - intros p I. assert (Ep := E p I). unfold sensor_spv in Ep. destruct p as [s [x y]]. cbn [fst snd] in *. rewrite <- Ep. reflexivity.
    - rewrite (X U). f_equal. }
  assert (UE : forall q, poly_undistort solve (S d) points q = Some (mkSpv (sp_wavelength q) (gx q) (gy q))).
  { intros q. destruct (undistort_exact solve (S d) points l _ _ LS N A M PX PY) as [_ X].
    - intros p I. rewrite (E p I). assert (G := GF (fst p)). split; [exact (f_equal sp_x G)|exact (f_equal sp_y G)].
    - apply X, US. }
  intros q. split; [apply DE|]. split; [rewrite UE; f_equal; exact (GF q)|].
  eexists. split; [apply UE|]. rewrite DE. f_equal. apply FG.
Qed.

(** * Polynomials of degree one *)

Lemma degree_one : forall f, is_polynomial 1 f -> exists k0 k1 k2 k3, forall c, f c = k0 + k1 * sp_wavelength c + k2 * sp_x c + k3 * sp_y c.
Proof.
  intros f (l & L & F).
  assert (X : exists k0 k1 k2 k3, forall c, rsum (map (fun t => let '(i, j, k, a) := t in a * (sp_wavelength c ^ i * sp_x c ^ j * sp_y c ^ k)) l)
     = k0 + k1 * sp_wavelength c + k2 * sp_x c + k3 * sp_y c).
  { clear F f. induction l as [|[[[i j] k] a] l IH]; [exists 0, 0, 0, 0; intros; cbn; ring|].
    inversion L as [|? ? L1 L2]; subst. destruct (IH L2) as (k0 & k1 & k2 & k3 & E).
    assert (H : (i, j, k) = (0, 0, 0)%nat \/ (i, j, k) = (1, 0, 0)%nat \/ (i, j, k) = (0, 1, 0)%nat \/ (i, j, k) = (0, 0, 1)%nat).
    { destruct i as [|[|i]], j as [|[|j]], k as [|[|k]]; cbn in L1; try lia; auto. }
    destruct H as [H|[H|[H|H]]]; injection H as -> -> ->.
    - exists (k0 + a), k1, k2, k3. intros c. cbn [map rsum fold_right]. unfold rsum in E. rewrite E. cbn. ring.
    - exists k0, (k1 + a), k2, k3. intros c. cbn [map rsum fold_right]. unfold rsum in E. rewrite E. cbn. ring.
    - exists k0, k1, (k2 + a), k3. intros c. cbn [map rsum fold_right]. unfold rsum in E. rewrite E. cbn. ring.
    - exists k0, k1, k2, (k3 + a). intros c. cbn [map rsum fold_right]. unfold rsum in E. rewrite E. cbn. ring. }
  destruct X as (k0 & k1 & k2 & k3 & X). exists k0, k1, k2, k3. intros c. rewrite F. apply X.
Qed.
Definition corners : list spv := [mkSpv 0 0 0; mkSpv 1 0 0; mkSpv 0 1 0; mkSpv 0 0 1].
Lemma corners_unisolvent : unisolvent 1 corners.
Proof.
  intros f F Z c. destruct (degree_one f F) as (k0 & k1 & k2 & k3 & E).
  assert (Z0 := Z (mkSpv 0 0 0)). assert (Z1 := Z (mkSpv 1 0 0)). assert (Z2 := Z (mkSpv 0 1 0)). assert (Z3 := Z (mkSpv 0 0 1)).
  rewrite E in Z0, Z1, Z2, Z3. cbn in *. rewrite E.
  assert (k0 = 0) by (rewrite <- Z0 by auto; ring).
  assert (k1 = 0) by (assert (T := Z1 ltac:(auto)); lra).
  assert (k2 = 0) by (assert (T := Z2 ltac:(auto)); lra).
  assert (k3 = 0) by (assert (T := Z3 ltac:(auto 6)); lra). subst. ring.
Qed.

(** * A system of magnification two and a dispersion of one *)

Definition doubled : spv -> spv := affine 2 0 0 2 1 0 0 0.
Definition arriving (p : vec3) : ray := mkRay 1 (Some p) (Some (V3 0 0 1)) (Some 1) 0 1 true.
(** A ray that misses a surface: its position is NaN and it is vignetted. *)
Definition missing : ray := mkRay 1 None None None 0 1 false.
Definition bundle (s : spv) : spv * list ray :=
  (s, [arriving (V3 (sp_x (doubled s) - 1) (sp_y (doubled s)) 0); arriving (V3 (sp_x (doubled s) + 1) (sp_y (doubled s)) 0); missing]).
Definition good_bundles : list (spv * list ray) := map bundle corners.
Definition bad_bundles : list (spv * list ray) := good_bundles ++ [(mkSpv 0 5 5, [missing])].
Definition corner_data : list (spv * (R * R)) := map (fun s => (s, (sp_x (doubled s), sp_y (doubled s)))) corners.

Lemma bundle_calibration : forall s, ray_calibration (fst (bundle s)) (snd (bundle s)) = mkCalibration s (Some (sp_x (doubled s), sp_y (doubled s))) true.
Proof.
  intros s. unfold ray_calibration, bundle. cbn [fst snd arriving missing existsb r_unvignetted orb filter negb map r_position all_of obind].
  unfold mean. cbn [map rsum fold_right length vx vy]. rewrite !odiv_nz by (cbn; lra). cbn [obind]. f_equal. f_equal. f_equal; cbn; field.
Qed.
Lemma good_measured : measured (system_calibration good_bundles) corner_data.
Proof.
  unfold measured, system_calibration, good_bundles, corners. cbn [map]. rewrite !bundle_calibration. reflexivity.
Qed.
Lemma bad_measured : measured (system_calibration bad_bundles) corner_data.
Proof.
  unfold measured, system_calibration, bad_bundles, good_bundles, corners. cbn [map app]. rewrite !bundle_calibration. reflexivity.
Qed.
Lemma good_numbers : all_numbers (system_calibration good_bundles).
Proof.
  intros k I. unfold system_calibration, good_bundles in I. rewrite map_map in I. apply in_map_iff in I. destruct I as (s & <- & _).
  rewrite bundle_calibration. discriminate.
Qed.
Lemma corner_unisolvent : unisolvent 1 (map fst corner_data).
Proof. unfold corner_data. rewrite map_map. cbn [fst]. rewrite map_id. exact corners_unisolvent. Qed.
Lemma corner_affine : forall p, In p corner_data -> sensor_spv p = doubled (fst p).
Proof. intros p I. unfold corner_data in I. apply in_map_iff in I. destruct I as (s & <- & _). reflexivity. Qed.
Lemma bad_undistort : forall solve d c, poly_undistort solve d (system_calibration bad_bundles) c = None.
Proof.
  intros solve d c. unfold poly_undistort, fit_backward, fit.
  replace (all_of (map inverse_input (system_calibration bad_bundles))) with (@None (list spv)); [reflexivity|].
  unfold system_calibration, bad_bundles, good_bundles, corners. cbn [map app]. rewrite !bundle_calibration. reflexivity.
Qed.

(** * Illumination *)

Lemma fraction_open : forall rays, rays <> [] -> fraction rays = Some (open_fraction rays).
Proof.
  intros rays N. unfold fraction, mean. rewrite map_length, odiv_nz.
  - unfold open_fraction. f_equal. f_equal. clear N. induction rays as [|r l IH]; [reflexivity|].
    cbn [map rsum fold_right filter]. unfold rsum in IH. rewrite IH. destruct (r_unvignetted r); [|ring]. cbn [length]. rewrite S_INR. ring.
  - destruct rays; [congruence|]. apply not_0_INR. cbn. lia.
Qed.
Lemma open_pos : forall rays, existsb r_unvignetted rays = true -> 0 < open_fraction rays.
Proof.
  intros rays H. apply existsb_exists in H. destruct H as (r & I & U). unfold open_fraction.
  apply Rdiv_lt_0_compat; apply lt_0_INR.
  - assert (J : In r (filter r_unvignetted rays)) by (apply filter_In; auto). destruct (filter r_unvignetted rays); [destruct J|cbn; lia].
  - destruct rays; [destruct I|cbn; lia].
Qed.
Lemma all_of_map : forall (A B : Type) (f : A -> option B) g l, (forall a, In a l -> f a = Some (g a)) -> all_of (map f l) = Some (map g l).
Proof.
  intros A B f g l. induction l as [|a l IH]; intros H; [reflexivity|]. cbn. rewrite H by (left; reflexivity). cbn.
  rewrite IH; [reflexivity|]. intros b I. apply H. right. exact I.
Qed.
Lemma illumination_normalized : forall field, (forall rays, In rays field -> rays <> []) ->
  (exists rays, In rays field /\ existsb r_unvignetted rays = true) ->
  exists k, 0 < k /\ illumination field = map (fun rays => Some (k * open_fraction rays)) field /\
    rsum (map (fun rays => k * open_fraction rays) (filter (existsb r_unvignetted) field)) = INR (length (filter (existsb r_unvignetted) field)).
Proof.
  intros field N (r0 & I0 & U0). set (sel := filter (existsb r_unvignetted) field).
  assert (SN : sel <> []). { assert (J : In r0 sel) by (apply filter_In; auto). intros E. rewrite E in J. destruct J. }
  assert (LP : 0 < INR (length sel)) by (apply lt_0_INR; destruct sel; [congruence|cbn; lia]).
  assert (SP : 0 < rsum (map open_fraction sel)).
  { assert (X : forall l, (forall a, In a l -> 0 < open_fraction a) -> l <> [] -> 0 < rsum (map open_fraction l)).
    { intros [|a l] H Hn; [congruence|]. cbn [map rsum fold_right]. assert (0 < open_fraction a) by (apply H; left; reflexivity).
      assert (0 <= rsum (map open_fraction l)) by (apply rsum_map_nonneg; intros b J; left; apply H; right; exact J). unfold rsum in *. lra. }
    apply X; [|exact SN]. intros a J. apply filter_In in J. apply open_pos, J. }
  exists (INR (length sel) / rsum (map open_fraction sel)). split; [apply Rdiv_lt_0_compat; assumption|]. split.
  - unfold illumination. fold sel. rewrite (all_of_map _ _ fraction open_fraction).
    2:{ intros a J. apply fraction_open, N. apply filter_In in J. apply J. }
    cbn [obind]. unfold mean. rewrite map_length, odiv_nz by lra. cbn [obind]. apply map_ext_in. intros rays J.
    rewrite fraction_open by (apply N, J). cbn [obind]. rewrite odiv_nz.
    + f_equal. field. split; lra.
    + assert (0 < rsum (map open_fraction sel) / INR (length sel)) by (apply Rdiv_lt_0_compat; assumption). lra.
  - rewrite rsum_map_scale. field. lra.
Qed.

Lemma vignetting_exact : forall solve d points l f, least_squares solve -> points <> [] ->
  map fst (filter snd points) = map (fun p => (fst p, Some (snd p))) l ->
  is_polynomial d f -> (forall p, In p l -> snd p = f (fst p)) -> (forall c, 0 < f c) ->
  (forall p, In p l -> poly_vignetting solve d points (fst p) = Some (snd p) /\ vignetting_inverse solve d points (fst p) = Some (/ snd p)) /\
  (unisolvent d (map fst l) -> forall c, poly_vignetting solve d points c = Some (f c) /\ vignetting_inverse solve d points c = Some (/ f c)).
Proof.
  intros solve d points l f S N M F E P.
  destruct (sp_mean_some (map (fun p : spv * option R * bool => fst (fst p)) points)) as [o O]; [intros X; apply map_eq_nil in X; congruence|].
  destruct (fit_best solve d o l S) as (g & G1 & G2 & G3).
  assert (V : forall c, poly_vignetting solve d points c = Some (g c)).
  { intros c. unfold poly_vignetting. rewrite O.
    replace (map (fun p : spv * option R * bool => omap (fun i => (fst (fst p), i)) (snd (fst p))) (filter snd points)) with (map Some l); [apply G2|].
    transitivity (map (fun q : spv * option R => omap (fun i => (fst q, i)) (snd q)) (map fst (filter snd points))).
    - rewrite M, map_map. apply map_ext. intros [s i]. reflexivity.
    - rewrite map_map. reflexivity. }
  assert (EG : forall p, In p l -> g (fst p) = snd p).
  { apply (best_exact d f g l F G3). intros p I. symmetry. apply E, I. }
  assert (VI : forall c, 0 < g c -> vignetting_inverse solve d points c = Some (/ g c)).
  { intros c H. unfold vignetting_inverse. rewrite V. cbn [obind]. rewrite odiv_nz by lra. f_equal. field. lra. }
  split.
  - intros p I. rewrite V, VI, (EG p I); [split; reflexivity|]. rewrite (EG p I), (E p I). apply P.
  - intros U c. assert (Z := U (fun c => g c - f c) (poly_sub _ _ _ G1 F)). cbn beta in Z.
    assert (GF : g c = f c).
    { apply Rminus_diag_uniq, Z. intros p I. apply in_map_iff in I. destruct I as (q & <- & I). rewrite (EG q I), (E q I). ring. }
    rewrite V, VI, GF; [split; reflexivity|]. rewrite GF. apply P.
Qed.

(** Three field positions, the outer ones half vignetted. *)
Definition vignetted_field : list (list ray) :=
  [[arriving (V3 0 0 0); missing]; [arriving (V3 0 0 0); arriving (V3 0 0 0)]; [arriving (V3 0 0 0); missing]].
Lemma vignetted_field_illumination : illumination vignetted_field = [Some (3/4); Some (3/2); Some (3/4)].
Proof.
  unfold illumination, vignetted_field, fraction, mean.
  cbn [arriving missing existsb r_unvignetted orb filter map all_of rsum fold_right length].
  rewrite !odiv_nz by (cbn; lra). cbn [obind all_of length map rsum fold_right]. rewrite !odiv_nz by (cbn; lra). cbn [obind].
  rewrite !odiv_nz by (cbn; lra). f_equal; [f_equal; cbn; field|f_equal; [f_equal; cbn; field|f_equal; f_equal; cbn; field]].
Qed.
