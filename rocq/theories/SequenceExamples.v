(** A concrete system used to show that the hypotheses of the theorems about
    sequences are met: a plane of glass (index 3/2) at z = 1 with a circular
    aperture of radius 2, then a tilted plane mirror at z = 5. *)
From Coq Require Import Reals List Bool Lra.
From Verif Require Import Vec VecLemmas Num NumLemmas RayModel SnellModel SnellSpec SnellProofs
  SurfaceModel MaterialModel SagModel SequenceSpec SequenceProofs.
Import ListNotations.
Open Scope R_scope.
Open Scope opt_scope.

Definition no_solver (o u : vec3) : option R := None.
Definition plane : sag := make_sag no_solver NoSag None.
Definition shift_z (z : R) : rigid := mkRigid mid (V3 0 0 z).
Definition tilt : mat3 := M3 (V3 1 0 0) (V3 0 (4/5) (-3/5)) (V3 0 (3/5) (4/5)).
Definition circle2 : aperture :=
  mkAperture true (fun p => match p with
    | Some v => if Rle_dec (vx v * vx v + vy v * vy v) 4 then true else false
    | None => false end).

Definition ex_glass : material := glass (5/4) 0 0 0 0 0.
Definition ex_s1 : surface := mkSurface plane ex_glass (Some circle2) None (Some (shift_z 1)).
Definition ex_s2 : surface := mkSurface plane mirror None None (Some (mkRigid tilt (V3 0 0 5))).
Definition ex_system : list surface := [ex_s1; ex_s2].
Definition ex_ray : ray := mkRay 1 (Some (V3 0 0 0)) (Some (V3 0 0 1)) (Some 1) 2 1 true.

Lemma ex_tilt : orthogonal tilt.
Proof. unfold orthogonal, tilt, mmul, mtrans, mid; simpl. unfold dot; simpl. f_equal; f_equal; lra. Qed.
Lemma ex_shift z : is_rigid (shift_z z).
Proof. unfold is_rigid, orthogonal, shift_z, mmul, mtrans, mid; simpl. unfold dot; simpl. f_equal; f_equal; lra. Qed.

Lemma ex_rigid : Forall rigid_surface ex_system.
Proof. repeat constructor; unfold rigid_surface; simpl. apply ex_shift. apply ex_tilt. Qed.
Lemma ex_unit : Forall unit_normals ex_system.
Proof.
  repeat constructor; unfold unit_normals, is_unit; simpl; intros x u E; inversion E; subst;
    unfold norm2, dot; simpl; lra.
Qed.
Lemma ex_passive : Forall passive ex_system.
Proof.
  assert (P1 : passive ex_s1).
  { split; [|split]; simpl; [intros r u e E; inversion E; lra|intros; lra|discriminate]. }
  assert (P2 : passive ex_s2).
  { split; [|split]; simpl; [intros r u e E; inversion E; lra|intros; auto|discriminate]. }
  repeat apply Forall_cons; auto.
Qed.

Lemma plane_intercept o u q : vz u <> 0 -> q = vadd o (vscale (- vz o / vz u) u) ->
  sag_intercept plane o u = Some q.
Proof.
  intros H ->. unfold plane, make_sag; simpl. unfold flat_intercept.
  rewrite odiv_nz by auto. reflexivity.
Qed.

#[local] Arguments glass_index : simpl never.
Lemma one_resonance : forall b c w, w * w <> 0 -> w * w - c <> 0 -> 0 <= 1 + b * (w * w) / (w * w - c) ->
  glass_index b 0 0 c 0 0 w = Some (sqrt (1 + b * (w * w) / (w * w - c))).
Proof.
  intros b c w Z N P. unfold glass_index, sellmeier_term. rewrite !odiv_nz by (try rewrite Rminus_0_r; assumption). cbn [obind].
  replace (1 + (b * (w * w) / (w * w - c) + 0 * (w * w) / (w * w - 0) + 0 * (w * w) / (w * w - 0)))
    with (1 + b * (w * w) / (w * w - c)) by (unfold Rdiv; ring).
  unfold osqrt. destruct (Rle_dec 0 (1 + b * (w * w) / (w * w - c))); [reflexivity | contradiction].
Qed.
Lemma ex_index : glass_index (5/4) 0 0 0 0 0 1 = Some (3/2).
Proof.
  rewrite one_resonance by lra. f_equal.
  replace (1 + 5 / 4 * (1 * 1) / (1 * 1 - 0)) with ((3/2) * (3/2)) by field.
  apply sqrt_square; lra.
Qed.

Definition ex_mid : ray :=
  mkRay (3/2) (Some (V3 0 0 1)) (Some (V3 0 0 1)) (Some (exp (- 2))) 0 (3/2) true.
Definition ex_out : ray :=
  mkRay (3/2) (Some (V3 0 0 5)) (Some (V3 0 (24/25) (-7/25))) (Some (exp (- 2))) 0 (3/2) true.

Ltac comp := apply vec_eq; cbv -[Rplus Rmult Rminus Ropp Rdiv Rinv IZR]; field.

Lemma ex_step1 : surface_propagate ex_s1 ex_ray = ex_mid.
Proof.
  unfold surface_propagate, ex_s1. cbn [sf_transformation apply_inverse apply_transformation].
  replace (ray_transform (rigid_inv (shift_z 1)) ex_ray)
    with (mkRay 1 (Some (V3 0 0 (-1))) (Some (V3 0 0 1)) (Some 1) 2 1 true)
    by (unfold ray_transform, ex_ray; simpl; f_equal; f_equal; comp).
  unfold surface_local, surface_incident. cbn [sf_rulings sf_sag].
  replace (sag_propagate plane (mkRay 1 (Some (V3 0 0 (-1))) (Some (V3 0 0 1)) (Some 1) 2 1 true))
    with (mkRay 1 (Some (V3 0 0 0)) (Some (V3 0 0 1)) (Some (exp (- 2))) 2 1 true).
  2:{ unfold sag_propagate. cbn [r_position r_direction obind r_attenuation r_intensity].
      rewrite (plane_intercept _ _ (V3 0 0 0)); [|simpl; lra|comp].
      cbn [obind]. unfold set_intensity, set_position; cbn. f_equal. f_equal.
      rewrite Rmult_1_r. f_equal. unfold vlen.
      replace (norm2 (vsub (V3 0 0 0) (V3 0 0 (-1)))) with (1 * 1)
        by (unfold norm2, vsub, dot; simpl; ring).
      rewrite sqrt_square; lra. }
  unfold surface_normal, surface_efficiency. cbn. rewrite ex_index.
  rewrite (snells_law_complete (V3 0 0 1) 1 (3/2) false (V3 0 0 (-1)) (V3 0 0 1)).
  - unfold clip_rays, set_unvignetted, ray_transform, ex_mid; cbn.
    destruct (Rle_dec (0 * 0 + 0 * 0) 4) as [_|n]; [|exfalso; apply n; lra].
    f_equal; try (f_equal; comp); try (f_equal; ring). field.
  - lra.
  - lra.
  - unfold is_unit, norm2, dot; simpl; lra.
  - unfold dot; simpl; lra.
  - unfold is_unit, norm2, dot; simpl; lra.
  - comp.
  - unfold dot; simpl; lra.
Qed.

Lemma ex_step2 : surface_propagate ex_s2 ex_mid = ex_out.
Proof.
  unfold surface_propagate, ex_s2. cbn [sf_transformation apply_inverse apply_transformation].
  replace (ray_transform (rigid_inv (mkRigid tilt (V3 0 0 5))) ex_mid)
    with (mkRay (3/2) (Some (V3 0 (-12/5) (-16/5))) (Some (V3 0 (3/5) (4/5))) (Some (exp (- 2))) 0 (3/2) true)
    by (unfold ray_transform, ex_mid; simpl; f_equal; f_equal; comp).
  unfold surface_local, surface_incident. cbn [sf_rulings sf_sag].
  match goal with |- context [sag_propagate plane ?r] =>
    replace (sag_propagate plane r)
      with (mkRay (3/2) (Some (V3 0 0 0)) (Some (V3 0 (3/5) (4/5))) (Some (exp (- 2))) 0 (3/2) true) end.
  2:{ unfold sag_propagate. cbn [r_position r_direction obind r_attenuation r_intensity].
      rewrite (plane_intercept _ _ (V3 0 0 0)); [|simpl; lra|comp].
      cbn [obind]. unfold set_intensity, set_position; cbn. f_equal. f_equal.
      replace (- (0) * vlen (vsub (V3 0 0 0) (V3 0 (-12/5) (-16/5)))) with 0 by ring.
      rewrite exp_0; ring. }
  unfold surface_normal, surface_efficiency. cbn.
  rewrite (snells_law_complete (V3 0 (3/5) (4/5)) (3/2) (3/2) true (V3 0 0 (-1)) (V3 0 (3/5) (-4/5))).
  - unfold ray_transform, ex_out; cbn.
    f_equal; try (f_equal; comp); try (f_equal; ring). field.
  - lra.
  - lra.
  - unfold is_unit, norm2, dot; simpl; lra.
  - unfold dot; simpl; lra.
  - unfold is_unit, norm2, dot; simpl; lra.
  - comp.
  - unfold dot; simpl; lra.
Qed.

Lemma ex_trace :
  propagate_rays surface_propagate (Sequence ex_system) ex_ray = ex_out /\
  accumulate_rays surface_propagate (Sequence ex_system) ex_ray = [ex_mid; ex_out].
Proof.
  unfold ex_system. rewrite !accumulate_cons. unfold propagate_rays; simpl.
  rewrite ex_step1, ex_step2. split; reflexivity.
Qed.

(** C17 counterexamples. *)
Lemma wavelength_refuted : exists (s : surface) (r : ray),
  rigid_surface s /\ unit_normals s /\ passive s /\
  r_wavelength (surface_propagate s r) <> r_wavelength r.
Proof.
  assert (H1 := ex_rigid). assert (H2 := ex_unit). assert (H3 := ex_passive).
  inversion H1; inversion H2; inversion H3; subst.
  exists ex_s1, ex_ray. rewrite ex_step1. simpl.
  split; [auto|split; [auto|split; [auto|lra]]].
Qed.

(** A glass whose index depends on the wavelength: n^2 = 1 + w^2 / (w^2 - 1/2). *)
Definition ex_flint : material := glass 1 0 0 (1/2) 0 0.
Definition ex_s3 : surface := mkSurface plane ex_flint None None (Some (shift_z 5)).
Lemma dispersion_refuted : exists (s1 s2 : surface) (r : ray),
  r_index r = 1 /\
  r_index (propagate_rays surface_propagate (Sequence [s1; s2]) r)
  <> mat_index (sf_material s2) r.
Proof.
  exists ex_s1, ex_s3, ex_ray. split; [reflexivity|].
  unfold propagate_rays; cbn [as_list propagate_list]. rewrite ex_step1.
  unfold surface_propagate, surface_local. cbn.
  rewrite !one_resonance by lra. intros E. apply sqrt_inj in E; lra.
Qed.

Lemma shifted_plane_intercept z o u : vz u <> 0 ->
  sag_intercept (make_sag no_solver NoSag (Some (shift_z z))) o u
  = Some (vadd o (vscale ((z - vz o) / vz u) u)).
Proof.
  destruct o as [ox oy oz], u as [ux uy uz]. cbn [vz]. intros H.
  cbn [make_sag sag_intercept sag_intercept_t class_intercept omap obind]. unfold flat_intercept.
  replace (rigid_vector (rigid_inv (shift_z z)) (V3 ux uy uz)) with (V3 ux uy uz)
    by (unfold rigid_vector, rigid_inv, shift_z; simpl; vec_ring).
  replace (rigid_point (rigid_inv (shift_z z)) (V3 ox oy oz)) with (V3 ox oy (oz - z))
    by (unfold rigid_point, rigid_inv, shift_z; simpl; vec_ring).
  cbn [vz]. rewrite odiv_nz by auto. cbn [omap obind]. f_equal.
  unfold rigid_point, shift_z; simpl. vec_unfold. f_equal; field; auto.
Qed.
