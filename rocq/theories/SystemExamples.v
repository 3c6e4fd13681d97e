(** Concrete systems: witnesses of the refutations and of the hypotheses. *)
From Coq Require Import String Reals List Bool Arith Permutation Lra Lia.
From Verif Require Import Vec VecLemmas Num NumLemmas Trig RayModel SnellModel SnellSpec SnellProofs SurfaceModel
  MaterialModel SagModel AngleModel AngleProofs SequenceSpec SequenceProofs SequenceExamples
  SystemModel SystemSpec SystemProofs SystemTraceProofs SystemRetraceProofs.
Import ListNotations.
Open Scope R_scope.
Open Scope opt_scope.

Definition win (z : R) (field pupil : bool) : stop_surface := mkStop (window (shift (V3 0 0 z))) field pupil.

(** * Stops *)

(** Surface 1 is both a pupil stop and a field stop. *)
Definition both_stops : system :=
  mkSystem (win 0 false false) [win 1 true true; win 2 true false; win 3 false true] None None false.
Definition pair_solver (first last : nat) (pupil : bool) : option (nat * nat) := Some (first, last).

Lemma both_stops_wrong :
  stops_only pair_solver both_stops 4 (0%nat, 0%nat) = Done (1%nat, 3%nat) /\
  index_pupil_stop both_stops = Some 3%nat /\ index_field_stop both_stops = Some 2%nat.
Proof. repeat split. Qed.

(** One pupil stop, two field stops behind it. *)
Definition two_fields : system :=
  mkSystem (win 0 false false) [win 1 false true; win 2 true false; win 3 true false] None None false.
Lemma two_fields_wrong :
  stops_only pair_solver two_fields 4 (0%nat, 0%nat) = Done (1%nat, 2%nat) /\
  index_pupil_stop two_fields = Some 1%nat /\ index_field_stop two_fields = Some 3%nat /\
  separate_stops (surfaces_all two_fields).
Proof.
  repeat split. intros s I. cbn in I.
  destruct I as [<-|[<-|[<-|[<-|[]]]]]; cbn; discriminate.
Qed.

(** * Launching *)

Definition on_axis : vec3 := V3 0 0 1.
Lemma on_axis_unit : is_unit on_axis.
Proof. unfold is_unit, norm2, dot; cbn; lra. Qed.
Lemma on_axis_angles : exists a, angles on_axis = Some a /\ direction (fst a) (snd a) = on_axis.
Proof. destruct (direction_angles on_axis on_axis_unit) as (ax & ay & E & D). exists (ax, ay). auto. Qed.

Definition axis_ray (x y : R) : ray := mkRay 1 (Some (V3 x y 0)) (Some on_axis) (Some 1) 0 1 true.

(** An object beside the axis; the pupil is one unit behind it. *)
Definition beside : system :=
  mkSystem (mkStop (window (shift (V3 1 0 0))) true false) [win 1 false true] None None false.

(** The rays of [beside] before and after they are traced back to the object. *)
Lemma beside_stop_rays : forall x y, stop_ray beside 0 (axis_ray x y) = axis_ray x y.
Proof.
  intros x y. unfold stop_ray. cbn [beside surfaces_all sys_object sys_surfaces sys_sensor app existsb st_field orb negb
    reversed_subsystem firstn rev map st_surface propagate_list sys_transformation apply_transformation last].
  unfold axis_ray at 1. rewrite window_shift by (try apply on_axis_unit; cbn; lra).
  replace (vadd (V3 x y 0) (vscale ((vz (V3 1 0 0) - vz (V3 x y 0)) / vz on_axis) on_axis)) with (V3 x y 0)
    by (apply vec_eq; cbn; field).
  unfold turn_round. cbn. destruct (Rlt_dec 0 _) as [H|H]; [exfalso|reflexivity].
  revert H. cbn. unfold dot. cbn. unfold dot. cbn. lra.
Qed.

Lemma map_beside : map (stop_ray beside 0) [axis_ray 0 (-1); axis_ray 2 1] = [axis_ray 0 (-1); axis_ray 2 1].
Proof. cbn [map]. rewrite !beside_stop_rays. reflexivity. Qed.

Lemma beside_launch : exists a, angles on_axis = Some a /\
  rayfunction_input beside (fun _ => [axis_ray 0 (-1); axis_ray 2 1]) (mkGrid 1 (1, 1) (1, 1)) true true
  = Some (mkGrid 1 (2, 1) a, launch beside (mkGrid 1 (2, 1) a)) /\
  hd_error (trace beside (launch beside (mkGrid 1 (2, 1) a)))
  = Some (axis_ray 3 1).
Proof.
  destruct on_axis_angles as (a & A & D). exists a. split; [exact A|]. split.
  - unfold rayfunction_input, denormalize_grid. cbn [negb andb g_wavelength map].
    unfold ray_xy, ray_angles. cbn [axis_ray r_position r_direction omap obind]. rewrite A. cbn [all_some obind].
    cbn [beside sys_at_infinity g_field g_pupil g_wavelength].
    replace (denormalize2 [(vx (V3 0 (-1) 0), vy (V3 0 (-1) 0)); (vx (V3 2 1 0), vy (V3 2 1 0))] (1, 1)) with (Some (2, 1)).
    2:{ unfold denormalize2, denormalize. cbn [map fst snd list_min list_max fold_left vx vy obind].
        rewrite (Rmin_left 0 2), (Rmax_right 0 2), (Rmin_left (-1) 1), (Rmax_right (-1) 1) by lra. f_equal. f_equal; field. }
    cbn [obind]. replace (denormalize2 [a; a] (1, 1)) with (Some a); [reflexivity|].
    unfold denormalize2, denormalize. cbn [map fst snd list_min list_max fold_left obind].
    rewrite !Rmin_left, !Rmax_left by lra. destruct a as [a1 a2]. cbn [fst snd]. f_equal. f_equal; field.
  - unfold trace. cbn [beside sys_transformation apply_inverse surfaces_all sys_object sys_surfaces sys_sensor app existsb st_field orb negb map st_surface].
    rewrite accumulate_cons. cbn [hd_error]. f_equal.
    unfold launch. cbn [beside sys_at_infinity g_field g_pupil fst snd g_wavelength sys_object st_surface window shift sf_transformation apply_transformation].
    fold (shift (V3 1 0 0)). fold (window (shift (V3 1 0 0))). rewrite D.
    unfold ray_transform, rigid_point, rigid_vector. cbn [r_wavelength r_position r_direction r_intensity r_attenuation r_index r_unvignetted omap rg_mat rg_shift].
    rewrite !mapply_mid. rewrite window_shift by (try apply on_axis_unit; cbn; lra).
    unfold axis_ray. f_equal. f_equal. apply vec_eq; cbn; field.
Qed.

(** A system moved by one unit along its axis; light that comes at an angle. *)
Definition moved : system :=
  mkSystem (mkStop (window None) true false) [win 1 false true] None (shift (V3 0 0 1)) false.
Definition slant : vec3 := V3 (3/5) 0 (4/5).
Lemma slant_unit : is_unit slant.
Proof. unfold is_unit, norm2, dot; cbn; lra. Qed.
Definition slant_ray (x y z : R) : ray := mkRay 1 (Some (V3 x y z)) (Some slant) (Some 1) 0 1 true.

Lemma moved_stop_rays : forall x y, stop_ray moved 0 (slant_ray x y 0) = slant_ray x y 1.
Proof.
  intros x y. unfold stop_ray. cbn [moved surfaces_all sys_object sys_surfaces sys_sensor app existsb st_field orb negb
    reversed_subsystem firstn rev map st_surface propagate_list sys_transformation last].
  unfold slant_ray at 1. rewrite window_none by (try apply slant_unit; cbn; lra).
  replace (vadd (V3 x y 0) (vscale (- vz (V3 x y 0) / vz slant) slant)) with (V3 x y 0)
    by (apply vec_eq; cbn; field).
  assert (E : turn_round (window None) (mkRay 1 (Some (V3 x y 0)) (Some slant) (Some 1) 0 1 true) = mkRay 1 (Some (V3 x y 0)) (Some slant) (Some 1) 0 1 true).
  { unfold turn_round. cbn. destruct (Rlt_dec 0 _) as [H|H]; [exfalso|reflexivity].
    revert H. cbn. unfold dot. cbn. unfold dot. cbn. lra. }
  rewrite E. cbn [shift apply_transformation]. unfold ray_transform, rigid_point, rigid_vector, slant_ray.
  cbn [r_wavelength r_position r_direction r_intensity r_attenuation r_index r_unvignetted omap rg_mat rg_shift]. rewrite !mapply_mid.
  f_equal. f_equal. apply vec_eq; cbn; ring.
Qed.
Lemma map_moved : map (stop_ray moved 0) [slant_ray 0 (-1) 0; slant_ray 2 1 0] = [slant_ray 0 (-1) 1; slant_ray 2 1 1].
Proof. cbn [map]. rewrite !moved_stop_rays. reflexivity. Qed.

Lemma moved_launch : exists a, 
  rayfunction_input moved (fun _ => [slant_ray 0 (-1) 1; slant_ray 2 1 1]) (mkGrid 1 (1, 1) (1, 1)) true true
  = Some (mkGrid 1 (2, 1) a, launch moved (mkGrid 1 (2, 1) a)) /\
  omap (apply_transformation (sys_transformation moved)) (hd_error (trace moved (launch moved (mkGrid 1 (2, 1) a))))
  = Some (slant_ray (11/4) 1 1).
Proof.
  destruct (direction_angles slant slant_unit) as (ax & ay & A & D). set (a := (ax, ay)) in *. exists a. split.
  - unfold rayfunction_input, denormalize_grid. cbn [negb andb g_wavelength map].
    unfold ray_xy, ray_angles. cbn [slant_ray r_position r_direction omap obind]. rewrite A. cbn [all_some obind].
    cbn [moved sys_at_infinity g_field g_pupil g_wavelength].
    replace (denormalize2 [(vx (V3 0 (-1) 1), vy (V3 0 (-1) 1)); (vx (V3 2 1 1), vy (V3 2 1 1))] (1, 1)) with (Some (2, 1)).
    2:{ unfold denormalize2, denormalize. cbn [map fst snd list_min list_max fold_left vx vy obind].
        rewrite (Rmin_left 0 2), (Rmax_right 0 2), (Rmin_left (-1) 1), (Rmax_right (-1) 1) by lra. f_equal. f_equal; field. }
    cbn [obind]. replace (denormalize2 [a; a] (1, 1)) with (Some a); [reflexivity|].
    unfold denormalize2, denormalize, a. cbn [map fst snd list_min list_max fold_left obind].
    rewrite !Rmin_left, !Rmax_left by lra. f_equal. f_equal; field.
  - unfold trace. cbn [moved sys_transformation surfaces_all sys_object sys_surfaces sys_sensor app existsb st_field orb negb map st_surface].
    rewrite accumulate_cons. cbn [hd_error omap]. f_equal.
    unfold launch. cbn [moved sys_at_infinity g_field g_pupil fst snd g_wavelength sys_object st_surface window sf_transformation apply_transformation a].
    fold (window None). rewrite D. cbn [shift apply_inverse apply_transformation].
    unfold ray_transform at 2. unfold rigid_inv, rigid_point, rigid_vector. cbn [r_wavelength r_position r_direction r_intensity r_attenuation r_index r_unvignetted omap rg_mat rg_shift].
    rewrite mid_trans, !mapply_mid. rewrite window_none by (try apply slant_unit; cbn; lra).
    unfold ray_transform, rigid_point, rigid_vector, slant_ray. cbn [r_wavelength r_position r_direction r_intensity r_attenuation r_index r_unvignetted omap rg_mat rg_shift].
    rewrite !mapply_mid. f_equal. f_equal. apply vec_eq; cbn; field.
Qed.

(** * Caches *)

(** Object and sensor, stop rays through the corners of a square. *)
Definition simple : system := mkSystem (win 0 true false) [win 1 false true] (Some (win 2 false false)) None false.
Definition simple_config : config := mkConfig simple (fun _ => [axis_ray (-1) (-1); axis_ray 1 1]).
Definition simple_grid (w : R) : grid_point := mkGrid w (1, 1) (1, 1).

Lemma simple_input : forall w, exists a, angles on_axis = Some a /\
  rayfunction_input simple (c_stops simple_config) (simple_grid w) true true
  = Some (mkGrid w (1, 1) a, mkRay w (Some (V3 1 1 0)) (Some on_axis) (Some 1) 0 1 true).
Proof.
  intros w. destruct on_axis_angles as (a & A & D). exists a. split; [exact A|].
  unfold rayfunction_input, denormalize_grid, simple_grid, simple_config. cbn [c_stops negb andb g_wavelength map].
  unfold ray_xy, ray_angles. cbn [axis_ray r_position r_direction omap obind]. rewrite A. cbn [all_some obind].
  cbn [simple sys_at_infinity g_field g_pupil g_wavelength].
  replace (denormalize2 [(vx (V3 (-1) (-1) 0), vy (V3 (-1) (-1) 0)); (vx (V3 1 1 0), vy (V3 1 1 0))] (1, 1)) with (Some (1, 1)).
  2:{ unfold denormalize2, denormalize. cbn [map fst snd list_min list_max fold_left vx vy obind].
      rewrite (Rmin_left (-1) 1), (Rmax_right (-1) 1) by lra. f_equal. f_equal; field. }
  cbn [obind]. replace (denormalize2 [a; a] (1, 1)) with (Some a).
  2:{ unfold denormalize2, denormalize. cbn [map fst snd list_min list_max fold_left obind].
      rewrite !Rmin_left, !Rmax_left by lra. destruct a as [a1 a2]. cbn [fst snd]. f_equal. f_equal; field. }
  cbn [obind]. f_equal. f_equal. unfold launch. cbn [sys_at_infinity g_field g_pupil fst snd g_wavelength sys_object st_surface simple win window shift sf_transformation apply_transformation].
  rewrite D. unfold ray_transform, rigid_point, rigid_vector. cbn [r_wavelength r_position r_direction r_intensity r_attenuation r_index r_unvignetted omap rg_mat rg_shift].
  rewrite !mapply_mid. f_equal. f_equal. apply vec_eq; cbn; ring.
Qed.

Lemma simple_trace : forall w i, trace simple (mkRay w (Some (V3 1 1 0)) (Some on_axis) (Some i) 0 1 true)
  = [mkRay w (Some (V3 1 1 0)) (Some on_axis) (Some i) 0 1 true;
     mkRay w (Some (V3 1 1 1)) (Some on_axis) (Some i) 0 1 true;
     mkRay w (Some (V3 1 1 2)) (Some on_axis) (Some i) 0 1 true].
Proof.
  intros w i. unfold trace. cbn [simple sys_transformation apply_inverse surfaces_all sys_object sys_surfaces sys_sensor app existsb win st_field orb negb map st_surface].
  rewrite !accumulate_cons.
  rewrite window_shift by (try apply on_axis_unit; cbn; lra).
  replace (vadd (V3 1 1 0) _) with (V3 1 1 0) by (apply vec_eq; cbn; field).
  rewrite window_shift by (try apply on_axis_unit; cbn; lra).
  replace (vadd (V3 1 1 0) _) with (V3 1 1 1) by (apply vec_eq; cbn; field).
  rewrite window_shift by (try apply on_axis_unit; cbn; lra).
  replace (vadd (V3 1 1 1) _) with (V3 1 1 2) by (apply vec_eq; cbn; field).
  reflexivity.
Qed.

Definition with_intensity (i : R) : call_args := mkArgs (Some i) None None None true true.

Lemma intensity_remembered : exists c g l a,
  snd (raytrace c (history c (fresh g) l) a) <> snd (raytrace c (fresh g) a).
Proof.
  exists simple_config, (simple_grid 1), [Raytrace (with_intensity 5)], no_args.
  destruct (simple_input 1) as (a & A & E).
  unfold history, perform, raytrace. cbn [fold_left with_intensity no_args a_wavelength a_field a_pupil given negb andb a_intensity fresh s_input s_grid fst].
  change (c_system simple_config) with simple. rewrite E. cbn [fst snd s_input]. unfold set_intensity. cbn [r_wavelength r_position r_direction r_attenuation r_index r_unvignetted].
  rewrite !simple_trace. intros H. injection H. intros. lra.
Qed.

Lemma simple_default : forall w, exists d, rayfunction_of simple_config (simple_grid w) = Some d /\ g_wavelength (fst d) = w.
Proof.
  intros w. destruct (simple_input w) as (a & A & E). unfold rayfunction_of. change (c_system simple_config) with simple.
  rewrite E. cbn [obind snd fst]. rewrite simple_trace. unfold at_sensor. cbn [simple sys_sensor obind last_of].
  eexists. split; [reflexivity|]. reflexivity.
Qed.

Lemma old_grid_kept : exists c g0 g,
  snd (rayfunction_default c (history c (fresh g0) [Default; SetGrid g; DelDefault])) <> rayfunction_of c g.
Proof.
  exists simple_config, (simple_grid 1), (simple_grid 2).
  destruct (simple_default 2) as (d2 & D2 & W2). rewrite D2.
  destruct (simple_input 1) as (a & A & E).
  unfold history, perform, rayfunction_default, rayfunction, raytrace.
  cbn [fold_left no_args a_wavelength a_field a_pupil given negb andb a_intensity fresh s_input s_default s_grid fst].
  change (c_system simple_config) with simple. rewrite E. cbn [fst snd s_input obind]. rewrite simple_trace.
  unfold at_sensor. cbn [simple sys_sensor obind last_of fst snd s_input s_default s_grid].
  rewrite simple_trace. cbn [sys_sensor obind last_of fst snd s_input s_default s_grid].
  intros H. injection H as H. rewrite <- H in W2. cbn in W2. lra.
Qed.

(** * Coordinates *)

Lemma not_global : exists sys t r, is_rigid t /\
  trace (with_transformation (Some t) sys) (ray_transform t r)
  <> map (ray_transform t) (trace (with_transformation None sys) r).
Proof.
  exists simple, (mkRigid mid (V3 1 0 0)), (mkRay 1 (Some (V3 1 1 0)) (Some on_axis) (Some 1) 0 1 true).
  assert (R : is_rigid (mkRigid mid (V3 1 0 0))) by apply orthogonal_mid. split; [exact R|].
  rewrite trace_in_system by exact R. change (with_transformation None simple) with simple.
  rewrite simple_trace. cbn [map ray_transform r_wavelength r_position r_direction r_intensity r_attenuation r_index r_unvignetted omap].
  intros H. injection H. intros. unfold dot in *. cbn in *. lra.
Qed.

(** * Retracing *)

Lemma plane_none : forall o u, vz u = 0 -> sag_intercept plane o u = None.
Proof. intros o u H. unfold plane, make_sag; cbn. unfold flat_intercept. rewrite H, odiv_0. reflexivity. Qed.

Lemma window_plain : forall v, plain (window (shift v)).
Proof.
  intros v. split; [|split; [|split; [|split; [|split]]]]; cbn.
  - apply orthogonal_mid.
  - reflexivity.
  - intros o u Z. apply (plane_intercept o u _ Z eq_refl).
  - exact plane_none.
  - reflexivity.
  - right. auto.
Qed.
Lemma mirror_plain : forall t, is_rigid t -> plain (mkSurface plane mirror None None (Some t)).
Proof.
  intros t R. split; [|split; [|split; [|split; [|split]]]]; cbn.
  - exact R.
  - reflexivity.
  - intros o u Z. apply (plane_intercept o u _ Z eq_refl).
  - exact plane_none.
  - reflexivity.
  - left. auto.
Qed.

(** A plane of glass of index 4/3 in front of both stops. *)
Definition water : material := glass (7/9) 0 0 0 0 0.
Lemma water_index : forall r, r_wavelength r <> 0 -> mat_index water r = 4/3.
Proof.
  intros r W. cbn [water glass mat_index].
  assert (Z : r_wavelength r * r_wavelength r <> 0) by nra.
  assert (E : 1 + 7 / 9 * (r_wavelength r * r_wavelength r) / (r_wavelength r * r_wavelength r - 0) = (4/3) * (4/3)) by (field; nra).
  rewrite one_resonance; rewrite ?E; try nra. apply sqrt_square. lra.
Qed.
Definition behind_glass : system :=
  mkSystem (win 0 false false)
    [mkStop (mkSurface plane water None None (shift (V3 0 0 1))) false false;
     win 3 false true; win 4 true false] None None false.
Definition steep : vec3 := V3 (4/5) 0 (3/5).
Definition bent : vec3 := V3 (3/5) 0 (4/5).
Definition solved : ray := mkRay 1 (Some (V3 0 0 3)) (Some steep) (Some 1) 0 1 true.

Lemma steep_unit : is_unit steep. Proof. unfold is_unit, norm2, dot; cbn; lra. Qed.
Lemma bent_unit : is_unit bent. Proof. unfold is_unit, norm2, dot; cbn; lra. Qed.

(** A transparent plane at height [z]. *)
Lemma refract_step : forall m z w n p d d', vz d <> 0 -> n <> 0 ->
  (forall r u, mat_efficiency m r u = Some 1) -> mat_is_mirror m = false ->
  (forall r, mat_attenuation m r = 0) ->
  forall n', (forall r, r_wavelength r = w -> mat_index m r = n') -> n' <> 0 ->
  snells_law d n n' false (V3 0 0 (-1)) = Some d' ->
  surface_propagate (mkSurface plane m None None (shift (V3 0 0 z))) (mkRay w (Some p) (Some d) (Some 1) 0 n true)
  = mkRay (w / (n / n')) (Some (vadd p (vscale ((z - vz p) / vz d) d))) (Some d') (Some 1) 0 n' true.
Proof.
  intros m z w n p d d' Z N Ef Mi At n' In N' S.
  unfold surface_propagate. cbn [sf_transformation shift apply_inverse apply_transformation].
  unfold ray_transform at 2. cbn [r_wavelength r_position r_direction r_intensity r_attenuation r_index r_unvignetted omap].
  unfold rigid_inv, rigid_point, rigid_vector; cbn [rg_mat rg_shift]. rewrite mid_trans, !mapply_mid.
  set (p' := vadd p _).
  unfold surface_local, surface_incident. cbn [sf_rulings sf_sag].
  replace (sag_propagate plane (mkRay w (Some p') (Some d) (Some 1) 0 n true))
    with (mkRay w (Some (vadd p' (vscale (- vz p' / vz d) d))) (Some d) (Some 1) 0 n true).
  2:{ unfold sag_propagate. cbn [r_position r_direction obind r_attenuation r_intensity].
      rewrite (plane_intercept _ _ _ Z eq_refl). cbn [obind].
      unfold set_intensity, set_position; cbn. f_equal.
      rewrite Ropp_0, Rmult_0_l, exp_0. cbn. f_equal. ring. }
  unfold surface_normal, surface_efficiency. cbn [sf_material sf_sag sf_rulings sf_aperture r_position r_direction r_intensity r_index r_wavelength r_unvignetted obind].
  rewrite Ef, Mi, At, !In by reflexivity. cbn [obind].
  replace (sag_normal plane (vadd p' (vscale (- vz p' / vz d) d))) with (Some (V3 0 0 (-1))) by reflexivity.
  cbn [obind]. rewrite S.
  unfold ray_transform, rigid_point, rigid_vector; cbn [r_wavelength r_position r_direction r_intensity r_attenuation r_index r_unvignetted omap rg_mat rg_shift].
  rewrite !mapply_mid. f_equal.
  - f_equal. unfold p'. apply vec_eq; cbn; field; exact Z.
  - f_equal. ring.
Qed.

Lemma steep_to_bent : snells_law steep 1 (4/3) false (V3 0 0 (-1)) = Some bent.
Proof.
  apply snells_law_complete; try lra; try apply steep_unit; try apply bent_unit; try (unfold dot; cbn; lra).
  unfold is_unit, norm2, dot; cbn; lra.
  apply vec_eq; cbn; unfold tangential, dot; cbn; field.
Qed.
Lemma bent_to_steep : snells_law bent (4/3) 1 false (V3 0 0 (-1)) = Some steep.
Proof.
  apply snells_law_complete; try lra; try apply steep_unit; try apply bent_unit; try (unfold dot; cbn; lra).
  unfold is_unit, norm2, dot; cbn; lra.
  apply vec_eq; cbn; unfold tangential, dot; cbn; field.
Qed.

Lemma glass_step : forall z w p, w <> 0 -> 
  surface_propagate (mkSurface plane water None None (shift (V3 0 0 z))) (mkRay w (Some p) (Some steep) (Some 1) 0 1 true)
  = mkRay (w / (1 / (4/3))) (Some (vadd p (vscale ((z - vz p) / vz steep) steep))) (Some bent) (Some 1) 0 (4/3) true.
Proof.
  intros z w p W. apply refract_step; try reflexivity; try (cbn; lra); try lra.
  - intros r E. apply water_index. rewrite E. exact W.
  - exact steep_to_bent.
Qed.
Lemma leave_step : forall z w p,
  surface_propagate (window (shift (V3 0 0 z))) (mkRay w (Some p) (Some bent) (Some 1) 0 (4/3) true)
  = mkRay (w / ((4/3) / 1)) (Some (vadd p (vscale ((z - vz p) / vz bent) bent))) (Some steep) (Some 1) 0 1 true.
Proof.
  intros z w p. apply refract_step; try reflexivity; try (cbn; lra); try lra. exact bent_to_steep.
Qed.

Lemma solved_back : stop_ray behind_glass 2 solved
  = mkRay 1 (Some (V3 (-41/12) 0 0)) (Some steep) (Some 1) 0 1 true.
Proof.
  unfold stop_ray. cbn [behind_glass surfaces_all sys_object sys_surfaces sys_sensor app existsb win st_field orb negb
    reversed_subsystem firstn rev map st_surface propagate_list sys_transformation apply_transformation last].
  unfold solved. rewrite window_shift by (try apply steep_unit; cbn; lra).
  replace (vadd (V3 0 0 3) _) with (V3 0 0 3) by (apply vec_eq; cbn; field).
  rewrite glass_step by lra.
  replace (vadd (V3 0 0 3) _) with (V3 (-8/3) 0 1) by (apply vec_eq; cbn; field).
  rewrite leave_step.
  replace (vadd (V3 (-8/3) 0 1) _) with (V3 (-41/12) 0 0) by (apply vec_eq; cbn; field).
  replace (1 / (1 / (4/3)) / ((4/3) / 1)) with 1 by field.
  unfold turn_round. cbn. destruct (Rlt_dec 0 _) as [H|H]; [exfalso|reflexivity].
  revert H. cbn. unfold dot. cbn. unfold dot. cbn. lra.
Qed.

Lemma solved_forward : nth_error (trace behind_glass (stop_ray behind_glass 2 solved)) 2
  = Some (mkRay 1 (Some (V3 (-7/12) 0 3)) (Some steep) (Some 1) 0 1 true).
Proof.
  rewrite solved_back. unfold trace. cbn [behind_glass sys_transformation apply_inverse surfaces_all sys_object sys_surfaces sys_sensor app existsb win st_field orb negb map st_surface].
  rewrite !accumulate_cons.
  rewrite window_shift by (try apply steep_unit; cbn; lra).
  replace (vadd (V3 (-41/12) 0 0) _) with (V3 (-41/12) 0 0) by (apply vec_eq; cbn; field).
  rewrite glass_step by lra.
  replace (vadd (V3 (-41/12) 0 0) _) with (V3 (-25/12) 0 1) by (apply vec_eq; cbn; field).
  rewrite leave_step. cbn [nth_error]. f_equal. f_equal; [field|]. f_equal. apply vec_eq; cbn; field.
Qed.

(** The hypotheses for planes: a tilted ray through a pupil at z = 5. *)
Definition plain_system : system := mkSystem (win 0 true false) [win 5 false true] None None false.
Definition plain_solved : ray := mkRay 1 (Some (V3 0 0 5)) (Some steep) (Some 1) 0 1 true.
Lemma plain_back : stop_ray plain_system 1 plain_solved
  = mkRay 1 (Some (V3 (-20/3) 0 0)) (Some steep) (Some 1) 0 1 true.
Proof.
  unfold stop_ray. cbn [plain_system surfaces_all sys_object sys_surfaces sys_sensor app existsb win st_field orb negb
    reversed_subsystem firstn rev map st_surface propagate_list sys_transformation apply_transformation last].
  unfold plain_solved. rewrite window_shift by (try apply steep_unit; cbn; lra).
  replace (vadd (V3 0 0 5) _) with (V3 0 0 5) by (apply vec_eq; cbn; field).
  rewrite window_shift by (try apply steep_unit; cbn; lra).
  replace (vadd (V3 0 0 5) _) with (V3 (-20/3) 0 0) by (apply vec_eq; cbn; field).
  unfold turn_round. cbn. destruct (Rlt_dec 0 _) as [H|H]; [exfalso|reflexivity].
  revert H. cbn. unfold dot. cbn. unfold dot. cbn. lra.
Qed.
