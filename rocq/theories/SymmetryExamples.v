(** Examples for C97. *)
From Coq Require Import Reals List Bool ZArith Lra.
From Coquelicot Require Import Coquelicot.
From Verif Require Import Vec VecLemmas Num NumLemmas RayModel SnellSpec SurfaceModel SagModel ApertureModel RulingModel MaterialModel LayerModel ProfileModel
  CoatingModel SequenceExamples SystemTraceProofs CurvedExamples RulingProofs GrooveProofs ScaleExamples SymmetrySpec SymmetryProofs SymmetryClassProofs SymmetryPartProofs.
Import ListNotations.
Open Scope R_scope.
Open Scope opt_scope.

Definition turn345 : mat3 := M3 (V3 (3/5) (-4/5) 0) (V3 (4/5) (3/5) 0) (V3 0 0 1).
Definition flip_y : mat3 := M3 (V3 1 0 0) (V3 0 (-1) 0) (V3 0 0 1).
Lemma turn345_axial : axial turn345.
Proof.
  split; [unfold orthogonal; apply mat_eq; apply vec_eq; cbn; unfold dot; cbn; lra|]. apply vec_eq; cbn; unfold dot; cbn; lra.
Qed.
Lemma flip_y_flips : flips flip_y.
Proof. exists 1, (-1). auto. Qed.
Lemma shift_symmetric : forall q z, axial q -> for_option (symmetric_rigid q) (shift (V3 0 0 z)).
Proof.
  intros q z A t E. unfold shift in E. replace t with (mkRigid mid (V3 0 0 z)) by congruence. split; [|split].
  - intros v. cbn [rg_mat]. rewrite !mapply_mid. reflexivity.
  - cbn [rg_shift]. assert (F := axial_flat q A 0 z vzero). rewrite !Rmult_0_l in F. exact F.
  - apply orthogonal_mid.
Qed.

(** A window and a coated spherical mirror with a round aperture. *)
Definition dish : surface :=
  mkSurface (make_sag no_solver (SphericalSag 5) None) (coated (ASequence [ALayer aluminium]) (Some aluminium))
            (Some (as_aperture (fun _ _ _ => true) (mkApertureObj (Circular 10) true false None true))) None None.
Definition telescope : list surface := [window (shift (V3 0 0 3)); dish].
Lemma no_option : forall {A} (P : A -> Prop), for_option P None. Proof. intros A P a E. discriminate E. Qed.
Lemma telescope_symmetric : forall q, axial q -> List.Forall (symmetric_surface q) telescope.
Proof.
  intros q A. destruct (materials_symmetric q (proj1 A)) as (Mv & _ & _ & _ & _ & Mc). constructor; [|constructor; [|constructor]].
  - split; [apply revolution_symmetric; [exact A|exact I|apply no_option]|]. split; [exact Mv|]. split; [apply no_option|]. split; [apply no_option|].
    apply shift_symmetric. exact A.
  - split; [apply revolution_symmetric; [exact A|exact I|apply no_option]|]. split; [apply Mc|]. split; [|split; apply no_option].
    intros a E. cbn in E. injection E as <-. apply circle_symmetric; [exact A|apply no_option].
Qed.
Lemma dish_intercept : sphere_intercept 5 (V3 4 0 3) (V3 0 0 (-1)) = Some (V3 4 0 2).
Proof.
  unfold sphere_intercept. cbn [vx vy vz]. unfold osqrt. destruct (Rle_dec _ _) as [_|X]; [|exfalso; apply X; lra].
  cbn [obind]. match goal with |- context [sqrt ?e] => replace (sqrt e) with 3 by (replace e with (3 * 3) by lra; rewrite sqrt_square by lra; reflexivity) end.
  replace (rsign (5 * -1)) with (-1) by (unfold rsign; destruct (Rlt_dec _ _); [exfalso; lra|]; destruct (Rlt_dec _ _); [reflexivity|exfalso; lra]).
  f_equal. apply vec_eq; cbn; lra.
Qed.
Lemma telescope_struck : r_position (propagate_rays surface_propagate (Sequence telescope) falling) = Some (V3 4 0 2).
Proof.
  unfold propagate_rays, telescope. cbn [as_list propagate_list].
  destruct (window_step (V3 0 0 3) falling (V3 4 0 8) (V3 0 0 (-1)) eq_refl eq_refl eq_refl ltac:(unfold is_unit, norm2, dot; cbn; lra) ltac:(cbn; lra)) as (_ & D & P).
  set (r := surface_propagate (window _) falling) in *.
  assert (P' : r_position r = Some (V3 4 0 3)) by (rewrite P; f_equal; apply vec_eq; cbn; lra).
  unfold surface_propagate, dish. cbn [sf_transformation apply_transformation apply_inverse].
  unfold surface_local. cbn [sf_aperture]. unfold clip_rays. cbn [r_position set_unvignetted].
  unfold surface_incident. cbn [sf_rulings]. unfold sag_propagate. cbn [sf_sag]. cbn [set_intensity set_position r_position].
  rewrite P', D. cbn [obind]. exact dish_intercept.
Qed.

(** The spectrograph of C96 has the plane of symmetry y = 0. *)
Lemma spectrograph_figure : List.Forall (symmetric_figure flip_y) (spectrograph 1).
Proof.
  assert (F := flip_y_flips). assert (A := flips_axial _ F). constructor; [|constructor; [|constructor]].
  - split; [apply revolution_symmetric; [exact A|exact I|apply no_option]|].
    split; [intros r r' H; destruct H as (_ & _ & _ & E1 & E2 & _); split; reflexivity|].
    split; [apply no_option|]. split; [apply no_option|]. apply shift_symmetric. exact A.
  - split; [apply revolution_symmetric; [exact A|exact I|apply no_option]|].
    split; [intros r r' H; destruct H as (_ & _ & _ & E1 & E2 & _); split; [exact E2|exact E1]|].
    split; [intros a E; cbn in E; injection E as <-; apply circle_symmetric; [exact A|apply no_option]|].
    split; [|apply no_option]. intros g E. cbn in E. injection E as <-. apply spacings_symmetric; [exact (proj1 A)|].
    apply vec_eq; cbn; unfold dot; cbn; ring.
Qed.
Lemma falling_fixed : image_ray flip_y falling = falling.
Proof. unfold image_ray, falling. cbn [r_wavelength r_position r_direction r_intensity r_attenuation r_index r_unvignetted omap]. f_equal; f_equal; apply vec_eq; cbn; unfold dot; cbn; ring. Qed.

(** Square grooves along y in a plane mirror, seen from either side of the plane y = 0. *)
Definition ridges : rulings := make_rulings (Square (1/20)) 0 (constant_spacing 1 (V3 1 0 0)).
Definition ridged : surface := mkSurface plane mirror None (Some ridges) None.
Definition slanting (y : R) : ray := mkRay 1 (Some (V3 0 0 0)) (Some (V3 0 y (4/5))) (Some 1) 0 1 true.
Lemma slanting_image : forall y, image_ray flip_y (slanting y) = slanting (- y).
Proof. intros y. unfold image_ray, slanting. cbn [r_wavelength r_position r_direction r_intensity r_attenuation r_index r_unvignetted omap]. f_equal; f_equal; apply vec_eq; cbn; unfold dot; cbn; ring. Qed.
Lemma ridged_figure : symmetric_figure flip_y ridged.
Proof.
  assert (F := flip_y_flips). assert (A := flips_axial _ F).
  split; [apply revolution_symmetric; [exact A|exact I|apply no_option]|].
  split; [intros r r' H; destruct H as (_ & _ & _ & E1 & E2 & _); split; [exact E2|exact E1]|].
  split; [apply no_option|]. split; [|apply no_option]. intros g E. cbn in E. injection E as <-.
  apply spacings_symmetric; [exact (proj1 A)|]. apply vec_eq; cbn; unfold dot; cbn; ring.
Qed.
Lemma slanting_efficiency : forall y, 4/5 + y <> 0 ->
  rulings_efficiency (Square (1/20)) 0 (constant_spacing 1 (V3 1 0 0)) (slanting y) (Some (V3 0 0 (-1))) = Some (square (cos (PI / (10 * (4/5 + y))))).
Proof.
  intros y Y. assert (P := PI_RGT_0). unfold rulings_efficiency. cbn [uses_angle slanting r_position r_direction obind]. unfold constant_spacing. cbn [obind].
  assert (Lk : vlen (vscale 1 (V3 1 0 0)) = 1) by (apply vlen_1; unfold norm2, dot; cbn; ring).
  rewrite groove_cosine_eq by lra.
  replace (cross (V3 0 0 (-1)) (vscale 1 (V3 1 0 0))) with (V3 0 (-1) 0) by (apply vec_eq; cbn; ring).
  rewrite normalized_nz by (rewrite vlen_1; [lra|unfold norm2, dot; cbn; ring]). rewrite (vlen_1 (V3 0 (-1) 0)) by (unfold norm2, dot; cbn; ring). cbn [obind].
  match goal with |- profile_efficiency _ _ _ ?c = _ => replace c with (4/5 + y) by (unfold dot; cbn; field) end.
  cbn [profile_efficiency]. rewrite odiv_nz by lra. cbn [obind]. rewrite odiv_nz by (cbn [r_wavelength slanting]; lra). cbn [obind Z.eqb].
  match goal with |- Some (square (cos ?e)) = _ => replace e with (PI / (10 * (4/5 + y))); [reflexivity|] end. cbn [r_wavelength slanting]. field. repeat split; lra.
Qed.
Lemma slanting_intensity : forall y, 4/5 + y <> 0 ->
  r_intensity (surface_propagate ridged (slanting y)) = Some (square (cos (PI / (10 * (4/5 + y))))).
Proof.
  intros y Y.
  assert (S : sag_propagate plane (slanting y) = slanting y).
  { unfold sag_propagate. cbn [slanting r_position r_direction obind]. rewrite (plane_intercept _ _ (V3 0 0 0)); [|cbn; lra|apply vec_eq; cbn; field].
    unfold slanting, set_position, set_intensity. cbn [obind r_intensity r_attenuation r_position r_wavelength r_direction r_index r_unvignetted]. f_equal. f_equal.
    rewrite Ropp_0, Rmult_0_l, exp_0. ring. }
  assert (E : rul_efficiency ridges (rulings_effective ridges (slanting y) (Some (V3 0 0 (-1)))) (Some (V3 0 0 (-1))) = Some (square (cos (PI / (10 * (4/5 + y)))))).
  { rewrite <- slanting_efficiency by exact Y.
    apply (effective_same_efficiency (Square (1/20)) 0 (constant_spacing 1 (V3 1 0 0)) (slanting y) (V3 0 0 0) (V3 0 y (4/5)) (V3 0 0 (-1)) (vscale 1 (V3 1 0 0)) eq_refl eq_refl).
    - cbn. lra.
    - unfold is_unit, norm2, dot; cbn; lra.
    - reflexivity.
    - intros Z. assert (X := f_equal vx Z). cbn in X. lra.
    - unfold dot; cbn; ring. }
  unfold surface_propagate, ridged. cbn [sf_transformation apply_transformation apply_inverse]. unfold surface_local, surface_incident. cbn [sf_aperture sf_rulings sf_sag r_intensity].
  rewrite S. change (surface_normal (mkSurface plane mirror None (Some ridges) None) (slanting y)) with (Some (V3 0 0 (-1))).
  change (surface_normal (mkSurface plane mirror None (Some ridges) None) (rulings_effective ridges (slanting y) (Some (V3 0 0 (-1))))) with (Some (V3 0 0 (-1))).
  unfold surface_efficiency. cbn [sf_material sf_rulings]. rewrite E. cbn [mirror mat_efficiency obind].
  change (r_intensity (rulings_effective ridges (slanting y) (Some (V3 0 0 (-1))))) with (Some 1). cbn [obind]. f_equal. ring.
Qed.
Lemma grooves_asymmetric : exists q s r i, flips q /\ symmetric_figure q s /\
  r_intensity (surface_propagate s r) = Some i /\ 1/2 < i /\ r_intensity (surface_propagate s (image_ray q r)) = Some 0.
Proof.
  assert (P := PI_RGT_0).
  exists flip_y, ridged, (slanting (3/5)), (square (cos (PI / (10 * (4/5 + 3/5))))). split; [exact flip_y_flips|]. split; [exact ridged_figure|].
  split; [apply slanting_intensity; lra|]. split.
  - replace (PI / (10 * (4/5 + 3/5))) with (PI / 14) by (field). 
    assert (C : cos (PI / 4) < cos (PI / 14)) by (apply cos_decreasing_1; lra).
    rewrite cos_PI4 in C. assert (Q : 0 < 1 / sqrt 2) by (apply Rdiv_lt_0_compat; [lra|apply sqrt_lt_R0; lra]).
    unfold square. assert (E : 1 / sqrt 2 * (1 / sqrt 2) = 1/2).
    { assert (T := sqrt_sqrt 2 ltac:(lra)). assert (T0 : sqrt 2 <> 0) by (intro Z; rewrite Z in T; lra). apply (Rmult_eq_reg_r (sqrt 2 * sqrt 2)); [|nra].
      replace (1 / sqrt 2 * (1 / sqrt 2) * (sqrt 2 * sqrt 2)) with 1 by (field; exact T0). rewrite T. lra. }
    nra.
  - rewrite slanting_image, slanting_intensity by lra. f_equal. replace (PI / (10 * (4/5 + - (3/5)))) with (PI / 2) by (field). rewrite cos_PI2. unfold square. ring.
Qed.
