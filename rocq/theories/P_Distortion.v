(** Theorems on the linear distortion models: C60. *)
From Coq Require Import Reals Lra.
From Verif Require Import Num NumLemmas DistortionModel DistortionProofs.
Open Scope R_scope.
Open Scope opt_scope.

(** [distort] and [undistort] are inverse to one another at every coordinate. *)
Theorem C60_round_trip : forall d c, sd_plate_scale d <> 0 -> sd_dispersion d <> 0 ->
  (let* e := distort (simple_model d) c in undistort (simple_model d) e) = Some c /\
  (let* e := undistort (simple_model d) c in distort (simple_model d) e) = Some c.
Proof. exact simple_round_trip. Qed.
Print Assumptions C60_round_trip.

(** The same for every affine model with an invertible matrix. *)
Theorem C60_linear_round_trip : forall matrix center intercept c, sp_det matrix <> 0 ->
  let m := mkLinear (Some matrix) center intercept in
  (let* e := distort m c in undistort m e) = Some c /\
  (let* e := undistort m c in distort m e) = Some c.
Proof. exact linear_round_trip. Qed.
Print Assumptions C60_linear_round_trip.

Theorem C60_wavelength : forall d c e,
  (distort (simple_model d) c = Some e -> sp_wavelength e = sp_wavelength c) /\
  (undistort (simple_model d) c = Some e -> sp_wavelength e = sp_wavelength c).
Proof. intros; split; [exact (simple_wavelength d c e) | exact (simple_wavelength_inv d c e)]. Qed.
Print Assumptions C60_wavelength.

(** The centre of the field at the reference wavelength is mapped to the reference. *)
Theorem C60_reference : forall d, sd_plate_scale d <> 0 -> sd_dispersion d <> 0 ->
  distort (simple_model d) (mkSpv (sp_wavelength (sd_reference d)) 0 0) = Some (sd_reference d).
Proof. exact simple_reference. Qed.
Print Assumptions C60_reference.

(** The image of the field is rotated by [angle], scaled, moved to the reference and
    displaced along x in proportion to the wavelength. *)
Theorem C60_position : forall d c, sd_plate_scale d <> 0 -> sd_dispersion d <> 0 ->
  exists e, distort (simple_model d) c = Some e
    /\ sp_wavelength e = sp_wavelength c
    /\ sp_x e = sp_x (sd_reference d)
        + (cos (sd_angle d) * sp_x c - sin (sd_angle d) * sp_y c) / sd_plate_scale d
        + (sp_wavelength c - sp_wavelength (sd_reference d)) / sd_dispersion d
    /\ sp_y e = sp_y (sd_reference d)
        + (sin (sd_angle d) * sp_x c + cos (sd_angle d) * sp_y c) / sd_plate_scale d.
Proof. exact simple_distort_eq. Qed.
Print Assumptions C60_position.

(** At one wavelength all distances are divided by the plate scale. *)
Theorem C60_scale : forall d c1 c2 e1 e2, sd_plate_scale d <> 0 -> sd_dispersion d <> 0 ->
  sp_wavelength c1 = sp_wavelength c2 ->
  distort (simple_model d) c1 = Some e1 -> distort (simple_model d) c2 = Some e2 ->
  sqrt ((sp_x e1 - sp_x e2) * (sp_x e1 - sp_x e2) + (sp_y e1 - sp_y e2) * (sp_y e1 - sp_y e2))
  = sqrt ((sp_x c1 - sp_x c2) * (sp_x c1 - sp_x c2) + (sp_y c1 - sp_y c2) * (sp_y c1 - sp_y c2))
    / Rabs (sd_plate_scale d).
Proof. exact simple_scale. Qed.
Print Assumptions C60_scale.

(** At one position the image moves by the difference in wavelength over the dispersion. *)
Theorem C60_dispersion : forall d w1 w2 x y e1 e2, sd_plate_scale d <> 0 -> sd_dispersion d <> 0 ->
  distort (simple_model d) (mkSpv w1 x y) = Some e1 ->
  distort (simple_model d) (mkSpv w2 x y) = Some e2 ->
  sp_x e2 - sp_x e1 = (w2 - w1) / sd_dispersion d /\ sp_y e2 = sp_y e1.
Proof. exact simple_dispersion. Qed.
Print Assumptions C60_dispersion.

(** Without a plate scale or a dispersion there is no result. *)
Theorem C60_undefined : forall d c, sd_plate_scale d = 0 \/ sd_dispersion d = 0 ->
  distort (simple_model d) c = None /\ undistort (simple_model d) c = None.
Proof. exact simple_undefined. Qed.
Print Assumptions C60_undefined.

(** The example of the documentation: one arcsecond and two nanometres per pixel. *)
Example C60_nonvacuous :
  let d := mkSimple 1 2 (PI / 2) (mkSpv 550 10 20) in
  sd_plate_scale d <> 0 /\ sd_dispersion d <> 0 /\
  distort (simple_model d) (mkSpv 560 3 4) = Some (mkSpv 560 11 23) /\
  sp_det (mkSpm (mkSpv 1 0 0) (mkSpv 1 2 3) (mkSpv 1 1 4)) <> 0.
Proof.
  cbv zeta; cbn [sd_plate_scale sd_dispersion]; split; [lra|]; split; [lra|]; split; [|unfold sp_det; cbn; lra].
  destruct (simple_distort_eq (mkSimple 1 2 (PI / 2) (mkSpv 550 10 20)) (mkSpv 560 3 4)) as (e & E & W & X & Y); cbn; try lra.
  rewrite E; f_equal; cbn in *; rewrite cos_PI2, sin_PI2 in *; apply spv_eq; cbn; lra.
Qed.
