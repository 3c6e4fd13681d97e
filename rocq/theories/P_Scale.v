(** C96: the result of a ray trace does not depend on the unit of length. *)
From Coq Require Import Reals List Bool ZArith Lra.
From Coquelicot Require Import Coquelicot.
From Verif Require Import Vec VecLemmas Num NumLemmas RayModel SurfaceModel SagModel ApertureModel RulingModel MaterialModel LayerModel ProfileModel CoatingModel
  StopRayModel SnellSpec ScaleSpec ScaleLayerSpec ScaleProofs ScaleClassProofs ScalePartProofs ScaleLayerProofs ScaleExamples.
Import ListNotations.
Open Scope R_scope.

(** Every ray through every list of surfaces whose parts are the same in the other unit.  Missing
    for the full claim: conics below the threshold and small stops, where it is false. *)
Theorem C96_trace_partial : forall k ss ss', 0 < k -> Forall2 (same_surface k) ss ss' -> forall r,
  propagate_rays surface_propagate (Sequence ss') (scale_ray k r)
    = scale_ray k (propagate_rays surface_propagate (Sequence ss) r) /\
  accumulate_rays surface_propagate (Sequence ss') (scale_ray k r)
    = map (scale_ray k) (accumulate_rays surface_propagate (Sequence ss) r).
Proof. exact scale_trace. Qed.
Print Assumptions C96_trace_partial.

(** The sags with their lengths in the other unit, with or without a transformation. *)
Theorem C96_sags_partial : forall k c solver solver' t, 0 < k -> same_search k c solver solver' -> (forall u, above_threshold k c u) ->
  same_sag k (make_sag solver c t) (make_sag solver' (scale_class k c) (scale_rigid k t)).
Proof. exact make_sag_scale. Qed.
Print Assumptions C96_sags_partial.
(** The same for one direction, as no conic is above the threshold in every direction. *)
Theorem C96_intercept_partial : forall k c solver solver' o u, 0 < k -> same_search k c solver solver' -> above_threshold k c u ->
  class_intercept solver' (scale_class k c) (vscale k o) u = omap (vscale k) (class_intercept solver c o u).
Proof. exact class_intercept_scale. Qed.
Print Assumptions C96_intercept_partial.
Theorem C96_height_partial : forall k c x y, 0 < k ->
  class_z (scale_class k c) (k * x) (k * y) = omap (Rmult k) (class_z c x y).
Proof. exact class_z_scale. Qed.
Print Assumptions C96_height_partial.

(** Apertures, given that the library's test of a point in a polygon does not depend on the unit. *)
Theorem C96_apertures_partial : forall k pip a, 0 < k -> same_pip k pip ->
  same_aperture k (as_aperture pip a) (as_aperture pip (scale_aperture k a)).
Proof. exact aperture_scale. Qed.
Print Assumptions C96_apertures_partial.

(** Rulings of every profile, and each of the three spacings. *)
Theorem C96_rulings_partial : forall k p i, 0 < k ->
  (forall c g, same_rulings k (make_rulings p i (constant_spacing c g))
     (make_rulings (scale_profile k p) i (constant_spacing (k * c) g))) /\
  (forall l g t, same_rulings k (make_rulings p i (polynomial_spacing l g t))
     (make_rulings (scale_profile k p) i (polynomial_spacing (scale_coefficients k l) g (scale_rigid k t)))) /\
  (forall x1 x2 w d1 d2 t, same_rulings k (make_rulings p i (holographic_spacing x1 x2 w d1 d2 t))
     (make_rulings (scale_profile k p) i (holographic_spacing (vscale k x1) (vscale k x2) (k * w) d1 d2 (scale_rigid k t)))).
Proof. exact every_rulings_scale. Qed.
Print Assumptions C96_rulings_partial.

(** Materials, among them coatings of any layers, whose optical constants are looked up in the old
    unit. *)
Theorem C96_materials_partial : forall k, 0 < k ->
  same_material k vacuum vacuum /\ same_material k mirror mirror /\
  (forall l, same_material k (measured_mirror l) (measured_mirror (map (fun n => (k * fst n, snd n)) l))) /\
  (forall b1 b2 b3 c1 c2 c3, same_material k (glass b1 b2 b3 c1 c2 c3) (glass b1 b2 b3 (k * k * c1) (k * k * c2) (k * k * c3))) /\
  (forall l, same_material k (film l) (film (scale_alayer k l))) /\
  (forall l sub, same_material k (coated l sub) (coated (scale_alayer k l) (omap (scale_layer k) sub))).
Proof. exact every_material_scale. Qed.
Print Assumptions C96_materials_partial.
Theorem C96_layers_partial : forall k w d n l sub s, 0 < k ->
  multilayer_efficiency (k * w) d n (scale_alayer k l) (omap (scale_layer k) sub) s = multilayer_efficiency w d n l sub s.
Proof. exact efficiency_scale. Qed.
Print Assumptions C96_layers_partial.

Example C96_nonvacuous : Forall2 (same_surface 1000) (spectrograph 1) (spectrograph 1000) /\
  r_position (propagate_rays surface_propagate (Sequence (spectrograph 1)) falling) = Some (V3 4 0 2) /\
  r_position (propagate_rays surface_propagate (Sequence (spectrograph 1000)) (scale_ray 1000 falling)) = Some (V3 4000 0 2000).
Proof.
  split; [exact metres_millimetres|]. split; [exact grating_struck|].
  rewrite (proj1 (C96_trace_partial 1000 _ _ ltac:(lra) metres_millimetres falling)). unfold scale_ray at 1. cbn [r_position].
  rewrite grating_struck. cbn [omap]. f_equal. apply vec_eq; cbn; ring.
Qed.
Example C96_threshold_nonvacuous : above_threshold 1000 (ConicSag 2 (-1/2)) (V3 (3/5) 0 (4/5)).
Proof. split; unfold conic_a; cbn; rewrite Rabs_right; lra. Qed.
Example C96_pip_nonvacuous : same_pip 1000 (fun vs x y => forallb (fun v => rle x (vx v)) vs).
Proof.
  intros vs x y. induction vs as [|v vs IH]; [reflexivity|]. cbn [map forallb]. rewrite IH. f_equal. apply (rle_scale 1000 x (vx v)). lra.
Qed.

(** A paraboloid of one metre radius given as a conic: with the radius in metres the ray strikes at
    [x]; with the radius in nanometres the quadratic coefficient is taken for zero, and the ray ends
    more than a tenth of a millimetre from there. *)
Theorem C96_conic_refuted : exists o u x x', is_unit u /\
  conic_intercept 1 (-1) o u = Some x /\
  conic_intercept (10 ^ 9 * 1) (-1) (vscale (10 ^ 9) o) u = Some x' /\
  10 ^ 5 < vlen (vsub x' (vscale (10 ^ 9) x)).
Proof. exact conic_unit. Qed.
Print Assumptions C96_conic_refuted.

(** A stop one centimetre wide: in millimetres the solver of the stop rays is a hundred times as
    strict as in metres. *)
Theorem C96_tolerance_refuted : exists k scale, 0 < k /\ 0 < scale /\ tolerance (k * scale) = k * tolerance scale / 100.
Proof. exact tolerance_unit. Qed.
Print Assumptions C96_tolerance_refuted.
Theorem C96_tolerance_partial : forall k scale, 0 < k -> 1 <= scale -> 1 <= k * scale -> tolerance (k * scale) = k * tolerance scale.
Proof. exact tolerance_scales. Qed.
Print Assumptions C96_tolerance_partial.
Example C96_tolerance_nonvacuous : 0 < 1000 /\ 1 <= 50 /\ 1 <= 1000 * 50.
Proof. lra. Qed.
