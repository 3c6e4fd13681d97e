(** C81: polynomial models of distortion and vignetting. *)
From Coq Require Import Reals List Bool Arith Lra Lia.
From Verif Require Import Vec Num RayModel DistortionModel FitModel FitSpec FitProofs FitSolver FitMapProofs.
Import ListNotations.
Open Scope R_scope.

(** The forward fit is the polynomial of least squares at the selected points, although it is
    written in powers of the distance from a center that depends on all points. *)
Theorem C81_best_partial : forall solve d points l, least_squares solve -> points <> [] -> measured points l -> exists g h,
  is_polynomial d g /\ is_polynomial d h /\
  (forall c, poly_distort solve d points c = Some (mkSpv (sp_wavelength c) (g c) (h c))) /\
  forall f, is_polynomial d f ->
    squares g (map (fun p => (fst p, fst (snd p))) l) <= squares f (map (fun p => (fst p, fst (snd p))) l) /\
    squares h (map (fun p => (fst p, snd (snd p))) l) <= squares f (map (fun p => (fst p, snd (snd p))) l).
Proof. exact distort_best. Qed.
Print Assumptions C81_best_partial.

(** A distortion that is a polynomial of the degree of the model is reproduced at the selected
    points, and everywhere if they determine such polynomials. *)
Theorem C81_exact_partial : forall solve d points l fx fy, least_squares solve -> points <> [] -> measured points l ->
  is_polynomial d fx -> is_polynomial d fy ->
  (forall p, In p l -> snd p = (fx (fst p), fy (fst p))) ->
  (forall p, In p l -> poly_distort solve d points (fst p) = Some (mkSpv (sp_wavelength (fst p)) (fx (fst p)) (fy (fst p)))) /\
  (unisolvent d (map fst l) -> forall c, poly_distort solve d points c = Some (mkSpv (sp_wavelength c) (fx c) (fy c))).
Proof. exact distort_exact. Qed.
Print Assumptions C81_exact_partial.

(** The same for the inverse, if no position on the sensor is NaN. *)
Theorem C81_inverse_partial : forall solve d points l fx fy, least_squares solve -> points <> [] -> all_numbers points -> measured points l ->
  is_polynomial d fx -> is_polynomial d fy ->
  (forall p, In p l -> fx (sensor_spv p) = sp_x (fst p) /\ fy (sensor_spv p) = sp_y (fst p)) ->
  (forall p, In p l -> poly_undistort solve d points (sensor_spv p) = Some (fst p)) /\
  (unisolvent d (map sensor_spv l) -> forall c, poly_undistort solve d points c = Some (mkSpv (sp_wavelength c) (fx c) (fy c))).
Proof. exact undistort_exact. Qed.
Print Assumptions C81_inverse_partial.

(** For affine distortions, [distort] and [undistort] are inverse to one another everywhere. *)
Theorem C81_round_trip_partial : forall solve d points l a b c e wx wy x0 y0, least_squares solve -> (1 <= d)%nat ->
  points <> [] -> all_numbers points -> measured points l -> unisolvent d (map fst l) -> a * e - b * c <> 0 ->
  (forall p, In p l -> sensor_spv p = affine a b c e wx wy x0 y0 (fst p)) ->
  forall q, poly_distort solve d points q = Some (affine a b c e wx wy x0 y0 q) /\
    poly_undistort solve d points (affine a b c e wx wy x0 y0 q) = Some q /\
    exists r, poly_undistort solve d points q = Some r /\ poly_distort solve d points r = Some q.
Proof. exact affine_round_trip. Qed.
Print Assumptions C81_round_trip_partial.

(** The calibration points that a system gives: the mean of the positions of the rays that are
    not lost, and a point is selected if there is such a ray. *)
Theorem C81_calibration_partial : forall scene rays,
  k_scene (ray_calibration scene rays) = scene /\
  (k_where (ray_calibration scene rays) = true <-> exists r, In r rays /\ r_unvignetted r = true) /\
  forall ps, ps <> [] -> map r_position (filter r_unvignetted rays) = map Some ps ->
    k_sensor (ray_calibration scene rays) = Some (rsum (map vx ps) / INR (length ps), rsum (map vy ps) / INR (length ps)).
Proof.
  intros scene rays. destruct (calibration_where scene rays) as [A B]. split; [exact A|]. split; [exact B|].
  intros ps N E. rewrite (calibration_of_rays scene rays ps N E). reflexivity.
Qed.
Print Assumptions C81_calibration_partial.

(** Points excluded by [where] do not matter, whatever the data: for the forward fit, and for
    the inverse if no position is NaN. *)
Theorem C81_masked_partial : forall solve d points points' l, least_squares solve -> points <> [] -> points' <> [] ->
  measured points l -> measured points' l ->
  (unisolvent d (map fst l) -> forall c, poly_distort solve d points c = poly_distort solve d points' c) /\
  (unisolvent d (map sensor_spv l) -> all_numbers points -> all_numbers points' ->
     forall c, poly_undistort solve d points c = poly_undistort solve d points' c).
Proof.
  intros solve d points points' l S N N' M M'. split.
  - intros U. exact (distort_masked solve d points points' l S N N' M M' U).
  - intros U A A'. exact (undistort_masked solve d points points' l S N N' A A' M M' U).
Qed.
Print Assumptions C81_masked_partial.

(** False in general: one field point of which every ray is lost is excluded from the fit, but
    its NaN position makes the center of the inverse fit NaN, and with it every result.  The
    remaining points are an affine distortion, determined by them. *)
Theorem C81_masked_refuted : exists bundles l a b c e wx wy x0 y0,
  measured (system_calibration bundles) l /\ unisolvent 1 (map fst l) /\ a * e - b * c <> 0 /\
  (forall p, In p l -> sensor_spv p = affine a b c e wx wy x0 y0 (fst p)) /\
  (forall solve, least_squares solve -> forall q, poly_distort solve 1 (system_calibration bundles) q = Some (affine a b c e wx wy x0 y0 q)) /\
  (forall solve q, poly_undistort solve 1 (system_calibration bundles) q = None).
Proof.
  exists bad_bundles, corner_data, 2, 0, 0, 2, 1, 0, 0, 0. split; [exact bad_measured|]. split; [exact corner_unisolvent|].
  split; [lra|]. split; [exact corner_affine|]. split.
  - intros solve S q. rewrite (distort_masked solve 1 _ (system_calibration good_bundles) corner_data S); try discriminate;
      [|exact bad_measured|exact good_measured|exact corner_unisolvent].
    apply (affine_round_trip solve 1 (system_calibration good_bundles) corner_data 2 0 0 2 1 0 0 0 S); try lia; try lra; try discriminate;
      [exact good_numbers|exact good_measured|exact corner_unisolvent|exact corner_affine].
  - intros solve q. apply bad_undistort.
Qed.
Print Assumptions C81_masked_refuted.

(** The illumination of [vignetting] is in proportion to the fraction of rays that are not
    vignetted, and one on average over the field points that have any. *)
Theorem C81_illumination_partial : forall field, (forall rays, In rays field -> rays <> []) ->
  (exists rays, In rays field /\ existsb r_unvignetted rays = true) ->
  exists k, 0 < k /\ illumination field = map (fun rays => Some (k * (INR (length (filter r_unvignetted rays)) / INR (length rays)))) field /\
    rsum (map (fun rays => k * (INR (length (filter r_unvignetted rays)) / INR (length rays))) (filter (existsb r_unvignetted) field))
    = INR (length (filter (existsb r_unvignetted) field)).
Proof. exact illumination_normalized. Qed.
Print Assumptions C81_illumination_partial.

(** A positive illumination of the degree of the model is reproduced, and [inverse] is its
    reciprocal. *)
Theorem C81_vignetting_partial : forall solve d points l f, least_squares solve -> points <> [] ->
  map fst (filter snd points) = map (fun p => (fst p, Some (snd p))) l ->
  is_polynomial d f -> (forall p, In p l -> snd p = f (fst p)) -> (forall c, 0 < f c) ->
  (forall p, In p l -> poly_vignetting solve d points (fst p) = Some (snd p) /\ vignetting_inverse solve d points (fst p) = Some (/ snd p)) /\
  (unisolvent d (map fst l) -> forall c, poly_vignetting solve d points c = Some (f c) /\ vignetting_inverse solve d points c = Some (/ f c)).
Proof. exact vignetting_exact. Qed.
Print Assumptions C81_vignetting_partial.

(** False: the illumination is not one at the center of the field of view, as the documentation
    of the models says (_vignetting.py:24-28). *)
Theorem C81_center_refuted : exists left center right i,
  open_fraction left = open_fraction right /\ open_fraction center = 1 /\
  illumination [left; center; right] = [i; Some (3/2); i].
Proof.
  exists [arriving (V3 0 0 0); missing], [arriving (V3 0 0 0); arriving (V3 0 0 0)], [arriving (V3 0 0 0); missing], (Some (3/4)).
  split; [reflexivity|]. split; [unfold open_fraction; cbn; field|]. exact vignetted_field_illumination.
Qed.
Print Assumptions C81_center_refuted.

(** A least-squares solver exists; four points determine the polynomials of degree one, the
    calibration comes from bundles of rays, some of them lost. *)
Example C81_nonvacuous :
  map r_position (filter r_unvignetted [arriving (V3 1 0 0); missing; arriving (V3 3 2 0)]) = map Some [V3 1 0 0; V3 3 2 0] /\
  least_squares gram /\ system_calibration good_bundles <> [] /\ all_numbers (system_calibration good_bundles) /\
  measured (system_calibration good_bundles) corner_data /\ unisolvent 1 (map fst corner_data) /\
  (forall p, In p corner_data -> sensor_spv p = affine 2 0 0 2 1 0 0 0 (fst p)) /\
  (exists rays, In rays vignetted_field /\ existsb r_unvignetted rays = true) /\
  is_polynomial 1 (fun _ => 2) /\
  map fst (filter snd (map (fun c => (c, Some 2, true)) corners)) = map (fun p => (fst p, Some (snd p))) (map (fun c => (c, 2)) corners).
Proof.
  split; [reflexivity|]. split; [exact gram_least_squares|]. split; [discriminate|]. split; [exact good_numbers|]. split; [exact good_measured|].
  split; [exact corner_unisolvent|]. split; [exact corner_affine|]. split; [|split; [apply poly_const|reflexivity]].
  eexists. split; [left; reflexivity|reflexivity].
Qed.
