(** A grating on a sphere of radius 5 with a source on its Rowland circle. *)
From Coq Require Import Reals Lra List Psatz.
From Coquelicot Require Import Coquelicot.
From Verif Require Import Vec VecLemmas Num NumLemmas RayModel SnellModel SnellSpec SnellProofs SurfaceModel MaterialModel RulingModel
  SagModel SagSpec FocusSpec FocusExamples InvariantExamples FermatSpec RowlandSpec RowlandProofs.
Import ListNotations.
Open Scope R_scope.
Open Scope opt_scope.

Definition ruling : rulings := mkRulings (-1) (constant_spacing (5/7) (V3 1 0 0)) (fun _ _ => Some 1).
Definition rowland_grating : surface := mkSurface (make_sag no_solver (SphericalSag 5) None) mirror None (Some ruling) None.
(** The same with grooves whose distance grows by 1/49 per length. *)
Definition growing : list (nat * R) := [(0%nat, 5/7); (1%nat, 1/49)].
Definition varied_ruling : rulings := mkRulings (-1) (polynomial_spacing growing (V3 1 0 0) None) (fun _ _ => Some 1).
Definition varied_grating : surface := mkSurface (make_sag no_solver (SphericalSag 5) None) mirror None (Some varied_ruling) None.
Definition slit : vec3 := V3 (-12/5) 0 (16/5).
Definition fan (t : R) : vec3 := V3 (3/5 * cos t + 4/5 * sin t) 0 (-4/5 * cos t + 3/5 * sin t).
Definition slit_light (t : R) : ray := light 1 slit (fan t).

Lemma fan_0 : fan 0 = V3 (3/5) 0 (-4/5).
Proof. unfold fan. rewrite cos_0, sin_0. apply vec_eq; cbn; lra. Qed.

Lemma chief_class s k g : sf_transformation s = None -> sf_sag s = make_sag no_solver k None -> reflects s -> sf_rulings s = Some g ->
  rul_spacing g (V3 0 0 0) (V3 0 0 (-1)) = Some (V3 (5/7) 0 0) -> rul_order g = -1 ->
  class_intercept no_solver k slit (V3 (3/5) 0 (-4/5)) = Some (V3 0 0 0) -> class_normal k (V3 0 0 0) = Some (V3 0 0 (-1)) ->
  r_direction (surface_propagate s (slit_light 0)) = Some (V3 (-4/5) 0 (3/5)).
Proof.
  intros TR SG RE RU SP OR IT NO.
  destruct (ruled_out no_solver s k (5/7) (slit_light 0) slit (V3 (3/5) 0 (-4/5)) 1 1 (V3 0 0 0) (V3 0 0 (-1)) g TR SG RE
    RU SP ltac:(lra) ltac:(lra) eq_refl ltac:(cbn; rewrite fan_0; reflexivity) eq_refl eq_refl IT NO) as [_ O2].
  rewrite O2, OR. rewrite rsign_pos by (vec_unfold; lra). apply snells_law_complete; try lra.
  * unfold is_unit; vec_unfold; lra.
  * vec_unfold; cbn; lra.
  * unfold is_unit; vec_unfold; lra.
  * unfold tangential; apply vec_eq; vec_unfold; cbn; lra.
  * vec_unfold; cbn; lra.
Qed.
Lemma chief s g : sf_transformation s = None -> sf_sag s = make_sag no_solver (SphericalSag 5) None -> reflects s -> sf_rulings s = Some g ->
  rul_spacing g (V3 0 0 0) (V3 0 0 (-1)) = Some (V3 (5/7) 0 0) -> rul_order g = -1 ->
  r_direction (surface_propagate s (slit_light 0)) = Some (V3 (-4/5) 0 (3/5)).
Proof.
  intros TR SG RE RU SP OR. apply (chief_class s (SphericalSag 5) g TR SG RE RU SP OR); cbn [class_intercept class_normal].
  + unfold sphere_intercept, slit; cbn [vx vy vz]. rewrite rsign_neg by lra.
    match goal with |- context [osqrt ?a] => replace a with (4 * 4) by lra end. rewrite osqrt_nonneg by lra. rewrite sqrt_square by lra. cbn [obind].
    f_equal. apply vec_eq; cbn; lra.
  + unfold sphere_normal; cbn [vx vy vz]. rewrite odiv_nz by lra. cbn [obind]. replace (1 - 1 / 5 * 0 * (1 / 5 * 0) - 1 / 5 * 0 * (1 / 5 * 0)) with 1 by lra.
    rewrite osqrt_nonneg by lra. rewrite sqrt_1. cbn [obind]. f_equal. apply vec_eq; cbn; lra.
Qed.

Lemma ex_rowland : concave_grating no_solver rowland_grating 5 (5/7) /\ rowland 5 slit /\ pencil slit_light slit 1 1 fan (V3 (4/5) 0 (3/5)) /\
  on_line slit (fan 0) (V3 0 0 0) /\ r_direction (surface_propagate rowland_grating (slit_light 0)) = Some (V3 (-4/5) 0 (3/5)) /\
  rowland 5 (V3 (-12/5) 0 (9/5)).
Proof.
  assert (F0 := fan_0).
  assert (GR : concave_grating no_solver rowland_grating 5 (5/7)).
  { split; [reflexivity|]. split; [reflexivity|]. split; [split; reflexivity|]. exists ruling. split; reflexivity. }
  split; [exact GR|]. split; [|split; [|split; [|split]]].
  - split; [reflexivity|]. split; [cbn; lra|]. intros Z. injection Z. lra.
  - split.
    + apply filter_forall. intros t. repeat split.
      unfold is_unit, norm2, dot, fan. cbn [vx vy vz]. assert (P := sin2_cos2 t). unfold Rsqr in P. lra.
    + split; [reflexivity|]. split; [reflexivity|]. unfold fan; cbn [vx vy vz]. split; [|split].
      * auto_derive; [auto|]. rewrite cos_0, sin_0. lra.
      * apply (is_derive_const 0 0).
      * auto_derive; [auto|]. rewrite cos_0, sin_0. lra.
  - exists 4. rewrite F0. unfold slit. apply vec_eq; cbn; lra.
  - apply (chief rowland_grating ruling); try reflexivity; [split; reflexivity|]. cbn. unfold constant_spacing. f_equal. apply vec_eq; cbn; lra.
  - split; [reflexivity|]. split; [cbn; lra|]. intros Z. injection Z. lra.
Qed.

Lemma growing_0 : rul_spacing varied_ruling (V3 0 0 0) (V3 0 0 (-1)) = Some (V3 (5/7) 0 0).
Proof.
  assert (P0 : polynomial growing 0 = 5/7) by (unfold polynomial, growing; cbn [fold_left fst snd]; rewrite pow_O, pow_1; lra).
  cbn [varied_ruling rul_spacing]. unfold polynomial_spacing.
  replace (dot (V3 0 0 0) (V3 1 0 0)) with 0 by (vec_unfold; ring). rewrite P0. f_equal. apply vec_eq; cbn; lra.
Qed.

Lemma ex_varied : ruled_surface no_solver varied_grating (SphericalSag 5) (polynomial growing) /\ round (SphericalSag 5) (vx (fan 0)) (1/5) (1/5) /\ polynomial growing 0 = 5/7 /\ is_derive (polynomial growing) 0 (1/49) /\
  slit = vscale (-4) (fan 0) /\ r_direction (surface_propagate varied_grating (slit_light 0)) = Some (V3 (-4/5) 0 (3/5)) /\
  -4/5 * (-4/5) / 4 + 3/5 * (3/5) / (9/2) + (-4/5 - 3/5) * (1/5) = (-4/5 - 3/5) * (1/49) / (5/7).
Proof.
  assert (P0 : polynomial growing 0 = 5/7) by (unfold polynomial, growing; cbn [fold_left fst snd]; rewrite pow_O, pow_1; lra).
  split; [|split; [|split; [|split; [|split; [|split]]]]].
  - apply (polynomial_ruled no_solver varied_grating (SphericalSag 5) growing varied_ruling); try reflexivity. split; reflexivity.
  - split; [lra | split; reflexivity].
  - exact P0.
  - unfold polynomial, growing; cbn [fold_left fst snd]. auto_derive; [auto|]. cbn. lra.
  - rewrite fan_0. unfold slit. apply vec_eq; cbn; lra.
  - apply (chief varied_grating varied_ruling); try reflexivity; [split; reflexivity | exact growing_0].
  - lra.
Qed.

Definition plane_grating : surface := mkSurface (make_sag no_solver NoSag None) mirror None (Some varied_ruling) None.
Lemma ex_plane : ruled_surface no_solver plane_grating NoSag (polynomial growing) /\ round NoSag (vx (fan 0)) 0 0 /\
  r_direction (surface_propagate plane_grating (slit_light 0)) = Some (V3 (-4/5) 0 (3/5)) /\
  -4/5 * (-4/5) / 4 + 3/5 * (3/5) / (-9/5) + (-4/5 - 3/5) * 0 = (-4/5 - 3/5) * (1/49) / (5/7) /\ round (CylindricalSag 5) (vx (fan 0)) (1/5) 0 /\
  round (ParabolicSag (5/2)) (vx (fan 0)) (1/5) (1/5).
Proof.
  split; [apply (polynomial_ruled no_solver plane_grating NoSag growing varied_ruling); try reflexivity; split; reflexivity|].
  split; [split; reflexivity|]. split; [|split; [lra | split; [split; [lra | split; reflexivity]|]]].
  apply (chief_class plane_grating NoSag varied_ruling); try reflexivity; [split; reflexivity | exact growing_0|].
  cbn [class_intercept]. unfold flat_intercept, slit; cbn [vx vy vz]. rewrite odiv_nz by lra. cbn [obind]. f_equal. apply vec_eq; cbn; lra.
  split; [lra|]. split; [right; rewrite fan_0; cbn [vx]; lra|]. split; field.
Qed.

Definition flat_grating : surface := mkSurface (make_sag no_solver NoSag None) mirror None (Some ruling) None.
Lemma ex_flat : ruled_surface no_solver flat_grating NoSag (fun _ => 5/7) /\ pencil slit_light slit 1 1 fan (V3 (4/5) 0 (3/5)) /\
  slit = vscale (-4) (fan 0) /\ vz (fan 0) <> 0 /\ r_direction (surface_propagate flat_grating (slit_light 0)) = Some (V3 (-4/5) 0 (3/5)).
Proof.
  assert (SP : forall q n, rul_spacing ruling q n = Some (V3 (5/7) 0 0)) by (intros q n; cbn; unfold constant_spacing; f_equal; apply vec_eq; cbn; lra).
  split; [split; [reflexivity|]; split; [reflexivity|]; split; [split; reflexivity|]; exists ruling; split; [reflexivity | exact SP]|].
  split; [exact (proj1 (proj2 (proj2 ex_rowland)))|]. split; [rewrite fan_0; unfold slit; apply vec_eq; cbn; lra|]. split; [rewrite fan_0; cbn; lra|].
  apply (chief_class flat_grating NoSag ruling); try reflexivity; [split; reflexivity | exact (SP _ _)|].
  cbn [class_intercept]. unfold flat_intercept, slit; cbn [vx vy vz]. rewrite odiv_nz by lra. cbn [obind]. f_equal. apply vec_eq; cbn; lra.
Qed.
