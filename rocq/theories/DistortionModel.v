(** optika/distortion/_distortion.py: the linear distortion models. *)
From Coq Require Import Reals.
From Verif Require Import Num.
Open Scope R_scope.
Open Scope opt_scope.

(** [na.SpectralPositionalVectorArray] with a two-dimensional position, one element. *)
Record spv := mkSpv { sp_wavelength : R; sp_x : R; sp_y : R }.
(** [na.SpectralPositionalMatrixArray] with a [na.Cartesian2dMatrixArray] position: three rows. *)
Record spm := mkSpm { row_wavelength : spv; row_x : spv; row_y : spv }.

(** Elementwise addition and subtraction, the product of a matrix and a vector (external,
    named_arrays). *)
Definition sp_add (a b : spv) : spv :=
  mkSpv (sp_wavelength a + sp_wavelength b) (sp_x a + sp_x b) (sp_y a + sp_y b).
Definition sp_sub (a b : spv) : spv :=
  mkSpv (sp_wavelength a - sp_wavelength b) (sp_x a - sp_x b) (sp_y a - sp_y b).
Definition sp_dot (a b : spv) : R :=
  sp_wavelength a * sp_wavelength b + sp_x a * sp_x b + sp_y a * sp_y b.
Definition sp_matvec (m : spm) (v : spv) : spv :=
  mkSpv (sp_dot (row_wavelength m) v) (sp_dot (row_x m) v) (sp_dot (row_y m) v).

(** [matrix.inverse] (external, named_arrays): adjugate over determinant, NaN when singular. *)
Definition sp_det (m : spm) : R :=
  let a := row_wavelength m in let b := row_x m in let c := row_y m in
  sp_wavelength a * (sp_x b * sp_y c - sp_y b * sp_x c)
  - sp_x a * (sp_wavelength b * sp_y c - sp_y b * sp_wavelength c)
  + sp_y a * (sp_wavelength b * sp_x c - sp_x b * sp_wavelength c).
Definition sp_inverse (m : spm) : option spm :=
  let a := row_wavelength m in let b := row_x m in let c := row_y m in
  let* i := odiv 1 (sp_det m) in
  Some (mkSpm
    (mkSpv (i * (sp_x b * sp_y c - sp_y b * sp_x c))
           (i * (sp_y a * sp_x c - sp_x a * sp_y c))
           (i * (sp_x a * sp_y b - sp_y a * sp_x b)))
    (mkSpv (i * (sp_y b * sp_wavelength c - sp_wavelength b * sp_y c))
           (i * (sp_wavelength a * sp_y c - sp_y a * sp_wavelength c))
           (i * (sp_y a * sp_wavelength b - sp_wavelength a * sp_y b)))
    (mkSpv (i * (sp_wavelength b * sp_x c - sp_x b * sp_wavelength c))
           (i * (sp_x a * sp_wavelength c - sp_wavelength a * sp_x c))
           (i * (sp_wavelength a * sp_x b - sp_x a * sp_wavelength b)))).

(** Lines 102-112, [AbstractLinearDistortionModel]: its three abstract attributes; [distort]
    and [undistort]. *)
Record linear_distortion := mkLinear { ld_matrix : option spm; ld_center : spv; ld_intercept : spv }.
Definition distort (m : linear_distortion) (c : spv) : option spv :=
  let* a := ld_matrix m in
  Some (sp_add (sp_matvec a (sp_sub c (ld_center m))) (ld_intercept m)).
Definition undistort (m : linear_distortion) (c : spv) : option spv :=
  let* a := ld_matrix m in
  let* i := sp_inverse a in
  Some (sp_add (sp_matvec i (sp_sub c (ld_intercept m))) (ld_center m)).

(** Lines 115-227, [SimpleDistortionModel]; units are not modelled. *)
Record simple_distortion := mkSimple
  { sd_plate_scale : R; sd_dispersion : R; sd_angle : R; sd_reference : spv }.
(** Lines 183-213 *)
Definition simple_matrix (d : simple_distortion) : option spm :=
  let c := cos (sd_angle d) in
  let s := sin (sd_angle d) in
  let* xw := odiv 1 (sd_dispersion d) in
  let* xx := odiv c (sd_plate_scale d) in
  let* xy := odiv (- s) (sd_plate_scale d) in
  let* yw := odiv 0 (sd_dispersion d) in
  let* yx := odiv s (sd_plate_scale d) in
  let* yy := odiv c (sd_plate_scale d) in
  Some (mkSpm (mkSpv 1 0 0) (mkSpv xw xx xy) (mkSpv yw yx yy)).
(** Lines 215-224 *)
Definition simple_center (d : simple_distortion) : spv :=
  mkSpv (sp_wavelength (sd_reference d)) 0 0.
Definition simple_intercept (d : simple_distortion) : spv := sd_reference d.
Definition simple_model (d : simple_distortion) : linear_distortion :=
  mkLinear (simple_matrix d) (simple_center d) (simple_intercept d).
