(** C97: ray traces have the symmetries of the surfaces. *)
From Coq Require Import Reals List Bool ZArith Lra.
From Coquelicot Require Import Coquelicot.
From Verif Require Import Vec VecLemmas Num NumLemmas RayModel SurfaceModel SagModel ApertureModel RulingModel MaterialModel LayerModel CoatingModel
  SequenceExamples SystemTraceProofs ScaleExamples SymmetrySpec SymmetryProofs SymmetryClassProofs SymmetryPartProofs SymmetryExamples.
Import ListNotations.
Open Scope R_scope.

(** Every symmetry of every surface is one of the trace.  Missing for the full claim: the
    efficiencies of grooves, for which it is false. *)
Theorem C97_trace_partial : forall q ss, orthogonal q -> List.Forall (symmetric_surface q) ss -> forall r,
  propagate_rays surface_propagate (Sequence ss) (image_ray q r) = image_ray q (propagate_rays surface_propagate (Sequence ss) r) /\
  accumulate_rays surface_propagate (Sequence ss) (image_ray q r) = map (image_ray q) (accumulate_rays surface_propagate (Sequence ss) r).
Proof. exact symmetric_trace. Qed.
Print Assumptions C97_trace_partial.

(** Whatever the efficiencies, the paths are symmetric ... *)
Theorem C97_paths_partial : forall q ss, orthogonal q -> List.Forall (symmetric_figure q) ss -> forall r,
  Forall2 same_path (accumulate_rays surface_propagate (Sequence ss) (image_ray q r)) (map (image_ray q) (accumulate_rays surface_propagate (Sequence ss) r)).
Proof. exact symmetric_paths. Qed.
Print Assumptions C97_paths_partial.
(** ... so that a ray in a plane of symmetry or on an axis of symmetry never leaves it. *)
Theorem C97_fixed_partial : forall q ss, orthogonal q -> List.Forall (symmetric_figure q) ss -> forall r, image_ray q r = r ->
  List.Forall (fun out => (forall p, r_position out = Some p -> mapply q p = p) /\ (forall d, r_direction out = Some d -> mapply q d = d))
    (accumulate_rays surface_propagate (Sequence ss) r).
Proof. exact symmetric_fixed. Qed.
Print Assumptions C97_fixed_partial.

(** Planes, spheres, conics and paraboloids have every symmetry about the z axis ... *)
Theorem C97_revolution_partial : forall q solver c t, axial q -> of_revolution c -> for_option (symmetric_rigid q) t ->
  symmetric_sag q (make_sag solver c t).
Proof. exact revolution_symmetric. Qed.
Print Assumptions C97_revolution_partial.
(** ... and cylinders and toroids have the planes of symmetry x = 0 and y = 0. *)
Theorem C97_planes_partial : forall q solver c t, flips q -> symmetric_search q c solver -> for_option (symmetric_rigid q) t ->
  symmetric_sag q (make_sag solver c t).
Proof. exact flips_symmetric. Qed.
Print Assumptions C97_planes_partial.

Theorem C97_circle_partial : forall q pip r active inverted t on, axial q -> for_option (symmetric_rigid q) t ->
  symmetric_aperture q (as_aperture pip (mkApertureObj (Circular r) active inverted t on)).
Proof. exact circle_symmetric. Qed.
Print Assumptions C97_circle_partial.
Theorem C97_apertures_partial : forall q pip s active inverted t on, flips q ->
  match s with Circular _ | Elliptical _ _ | Rectangular _ _ => True | _ => False end -> for_option (symmetric_rigid q) t ->
  symmetric_aperture q (as_aperture pip (mkApertureObj s active inverted t on)).
Proof. exact box_symmetric. Qed.
Print Assumptions C97_apertures_partial.

(** Grooves whose vector or sources are in the plane of symmetry; the efficiency is symmetric if it
    is not computed from the profile. *)
Theorem C97_grooves_partial : forall q p i, orthogonal q ->
  (forall c g, mapply q g = g -> symmetric_grooves q (make_rulings p i (constant_spacing c g))) /\
  (forall l g t, mapply q g = g -> for_option (symmetric_rigid q) t -> symmetric_grooves q (make_rulings p i (polynomial_spacing l g t))) /\
  (forall x1 x2 w d1 d2 t, mapply q x1 = x1 -> mapply q x2 = x2 -> symmetric_grooves q (make_rulings p i (holographic_spacing x1 x2 w d1 d2 t))).
Proof. exact spacings_symmetric. Qed.
Print Assumptions C97_grooves_partial.
Theorem C97_rulings_partial : forall q p i spacing, match p with Ideal | Measured _ => True | _ => False end ->
  symmetric_grooves q (make_rulings p i spacing) -> symmetric_rulings q (make_rulings p i spacing).
Proof. intros q p i spacing H. apply efficiencies_symmetric. destruct p; try contradiction; reflexivity. Qed.
Print Assumptions C97_rulings_partial.
Theorem C97_materials_partial : forall q, orthogonal q ->
  symmetric_material q vacuum /\ symmetric_material q mirror /\
  (forall l, symmetric_material q (measured_mirror l)) /\
  (forall b1 b2 b3 c1 c2 c3, symmetric_material q (glass b1 b2 b3 c1 c2 c3)) /\
  (forall l, symmetric_material q (film l)) /\
  (forall l sub, symmetric_material q (coated l sub)).
Proof. exact materials_symmetric. Qed.
Print Assumptions C97_materials_partial.

(** A telescope and a rotation by the angle of the triangle 3, 4, 5. *)
Example C97_nonvacuous : axial turn345 /\ List.Forall (symmetric_surface turn345) telescope /\
  r_position (propagate_rays surface_propagate (Sequence telescope) falling) = Some (V3 4 0 2) /\
  r_position (propagate_rays surface_propagate (Sequence telescope) (image_ray turn345 falling)) = Some (V3 (12/5) (16/5) 2).
Proof.
  split; [exact turn345_axial|]. split; [exact (telescope_symmetric _ turn345_axial)|]. split; [exact telescope_struck|].
  rewrite (proj1 (C97_trace_partial turn345 telescope (proj1 turn345_axial) (telescope_symmetric _ turn345_axial) falling)).
  unfold image_ray. cbn [r_position]. rewrite telescope_struck. cbn [omap]. f_equal. apply vec_eq; cbn; unfold dot; cbn; lra.
Qed.
(** A spectrograph with the plane of symmetry y = 0, and a ray in it. *)
Example C97_fixed_nonvacuous : flips flip_y /\ List.Forall (symmetric_figure flip_y) (spectrograph 1) /\ image_ray flip_y falling = falling /\
  r_position (propagate_rays surface_propagate (Sequence (spectrograph 1)) falling) = Some (V3 4 0 2).
Proof. split; [exact flip_y_flips|]. split; [exact spectrograph_figure|]. split; [exact falling_fixed|exact grating_struck]. Qed.
(** A shift along the axis is in every axial symmetry, a tilt about y in the reflection of y. *)
Example C97_rigid_nonvacuous : for_option (symmetric_rigid turn345) (shift (V3 0 0 7)) /\
  symmetric_rigid flip_y (mkRigid (M3 (V3 (3/5) 0 (4/5)) (V3 0 1 0) (V3 (-4/5) 0 (3/5))) (V3 1 0 2)).
Proof.
  split; [apply shift_symmetric; exact turn345_axial|]. split; [|split].
  - intros v. apply vec_eq; cbn; unfold dot; cbn; unfold dot; cbn; ring.
  - apply vec_eq; cbn; unfold dot; cbn; ring.
  - unfold is_rigid, orthogonal. apply mat_eq; apply vec_eq; cbn; unfold dot; cbn; lra.
Qed.
Example C97_search_nonvacuous : symmetric_search flip_y (ToroidalSag 2 3) (fun o u => Some (vz o * vz u)).
Proof. intros o u. f_equal. cbn. unfold dot. cbn. ring. Qed.

(** Square grooves: a ray from one side keeps more than half of its light, its mirror image none. *)
Theorem C97_grooves_refuted : exists q s r i, flips q /\ symmetric_figure q s /\
  r_intensity (surface_propagate s r) = Some i /\ 1/2 < i /\ r_intensity (surface_propagate s (image_ray q r)) = Some 0.
Proof. exact grooves_asymmetric. Qed.
Print Assumptions C97_grooves_refuted.
