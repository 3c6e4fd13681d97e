(** A system with a concave spherical mirror before its stops. *)
From Coq Require Import Reals List Bool Arith Lra Lia.
From Verif Require Import Vec VecLemmas Num NumLemmas RayModel SurfaceModel SagModel MaterialModel SequenceSpec SequenceProofs SequenceExamples
  SnellSpec SystemModel SystemSpec SystemTraceProofs SystemRetraceProofs SystemExamples StopRayModel StopRaySpec StopRayProofs StopRayExamples
  StopTraceExamples CurvedSpec CurvedProofs CurvedSagProofs.
Import ListNotations.
Open Scope R_scope.
Open Scope opt_scope.

(** Radius 5, vertex (-1, 0, -1), so that the centre is (-1, 0, 4). *)
Definition bowl : surface := mkSurface (make_sag no_solver (SphericalSag 5) None) mirror None None (shift (V3 (-1) 0 (-1))).
Definition bowl_system : system :=
  mkSystem (win 2 false false) [mkStop bowl false false; win 3 false true; win 4 true false] None None false.
Definition bowl_surfaces : list solver_surface := [at_z 2; mkSolver bowl (fun _ => Some 0) true; at_z 3; at_z 4].

Lemma shift_rigid : forall v t, shift v = Some t -> is_rigid t.
Proof. intros v t H. injection H as <-. apply orthogonal_mid. Qed.
Lemma bowl_figured : figured bowl.
Proof. apply class_figured; [exact (shift_rigid _)|left; split; reflexivity]. Qed.
Lemma window_figured : forall v, figured (window (shift v)).
Proof. intros v. apply class_figured; [exact (shift_rigid _)|right; split; reflexivity]. Qed.
Lemma window_determined : forall v o u, is_unit u -> determined (window (shift v)) o u.
Proof. intros v o u U. apply class_determined; [exact (shift_rigid _)|exact U|exact I]. Qed.
Lemma bowl_determined : forall o u, is_unit u -> determined bowl o u.
Proof. intros o u U. apply class_determined; [exact (shift_rigid _)|exact U|exact I]. Qed.
Lemma window_step : forall v r p d, r_position r = Some p -> r_direction r = Some d -> r_index r = 1 -> is_unit d -> vz d <> 0 ->
  r_index (surface_propagate (window (shift v)) r) = 1 /\ r_direction (surface_propagate (window (shift v)) r) = Some d /\
  r_position (surface_propagate (window (shift v)) r) = Some (vadd p (vscale ((vz v - vz p) / vz d) d)).
Proof.
  intros v r p d Hp Hd Hn U Z.
  destruct (figured_step _ r p d (window_figured v) Hp Hd Hn U) as (N & P & D & _). split; [exact N|].
  assert (X : sag_intercept (sf_sag (window (shift v))) (local_point (window (shift v)) p) (local_vector (window (shift v)) d)
    = Some (vadd (vsub p v) (vscale ((vz v - vz p) / vz d) d))).
  { unfold local_point, local_vector. cbn [window shift sf_transformation sf_sag rg_mat rg_shift].
    rewrite mid_trans, !mapply_mid. rewrite (plane_intercept _ d _ Z eq_refl). f_equal. apply vec_eq; cbn; field; exact Z. }
  split.
  - rewrite (D _ (V3 0 0 (-1)) X eq_refl). f_equal. apply vec_eq; cbn; repeat (unfold dot; cbn); ring.
  - rewrite P, X. cbn [omap]. f_equal. apply vec_eq; cbn; repeat (unfold dot; cbn); ring.
Qed.
Lemma window_struck : forall v q d, vz d <> 0 -> vz q = vz v -> struck (window (shift v)) q d q.
Proof.
  intros v q d Z H. unfold struck, local_point, local_vector. cbn [window shift sf_transformation sf_sag rg_mat rg_shift].
  rewrite mid_trans, !mapply_mid. rewrite (plane_intercept _ d _ Z eq_refl). f_equal; apply vec_eq; cbn; rewrite ?H; field; exact Z.
Qed.
Lemma window_once : forall v r p d, r_position r = Some p -> r_direction r = Some d -> r_index r = 1 -> is_unit d -> vz d <> 0 ->
  strikes_once (window (shift v)) r.
Proof.
  intros v r p d Hp Hd Hn U Z. exists p, d, (vadd p (vscale ((vz v - vz p) / vz d) d)), d.
  destruct (window_step v r p d Hp Hd Hn U Z) as (_ & D & P).
  repeat split; auto using window_determined. apply window_struck; [exact Z|]. cbn. field. exact Z.
Qed.

(** The solved ray, followed backwards, meets the mirror in (-4, 0, 0). *)
Definition leaving : vec3 := V3 (-44/125) 0 (-117/125).
Lemma leaving_unit : is_unit leaving. Proof. unfold is_unit, norm2, dot; cbn; lra. Qed.
Lemma bowl_step : forall r, r_position r = Some (V3 0 0 3) -> r_direction r = Some steep -> r_index r = 1 ->
  r_index (surface_propagate bowl r) = 1 /\ r_direction (surface_propagate bowl r) = Some leaving /\
  r_position (surface_propagate bowl r) = Some (V3 (-4) 0 0).
Proof.
  intros r Hp Hd Hn.
  destruct (figured_step bowl r (V3 0 0 3) steep bowl_figured Hp Hd Hn steep_unit) as (N & P & D & _).
  set (x := V3 (-3) 0 1).
  assert (X : sag_intercept (sf_sag bowl) (local_point bowl (V3 0 0 3)) (local_vector bowl steep) = Some x).
  { change (sphere_intercept 5 (local_point bowl (V3 0 0 3)) (local_vector bowl steep) = Some x).
    rewrite <- (sphere_determined 5 _ _ (-5) 1); [|apply local_vector_unit; [exact (proj1 bowl_figured)|exact steep_unit]|left; reflexivity].
    replace (vadd (local_point bowl (V3 0 0 3)) (vscale (-5) (local_vector bowl steep))) with x
      by (apply vec_eq; cbn; repeat (unfold dot; cbn); field).
    replace (vscale 1 (local_vector bowl steep)) with steep by (apply vec_eq; cbn; repeat (unfold dot; cbn); field).
    apply sphere_struck; [exact steep_unit|cbn; lra|cbn; lra]. }
  assert (Nx : sag_normal (sf_sag bowl) x = Some (V3 (-3/5) 0 (-4/5))).
  { change (sphere_normal 5 x = Some (V3 (-3/5) 0 (-4/5))). unfold sphere_normal, x. cbn [vx vy].
    rewrite odiv_nz by lra. cbn [obind].
    replace (1 - 1 / 5 * -3 * (1 / 5 * -3) - 1 / 5 * 0 * (1 / 5 * 0)) with (4/5 * (4/5)) by field.
    unfold osqrt. destruct (Rle_dec 0 _) as [H|H]; [|lra]. cbn [obind]. rewrite sqrt_square by lra. f_equal. apply vec_eq; cbn; field. }
  split; [exact N|]. split.
  - rewrite (D _ _ X Nx). f_equal. apply vec_eq; cbn; repeat (unfold dot; cbn); field.
  - rewrite P, X. cbn [omap]. f_equal. apply vec_eq; cbn; repeat (unfold dot; cbn); ring.
Qed.
Lemma bowl_struck : struck bowl (V3 (-4) 0 0) leaving (V3 (-4) 0 0).
Proof.
  change (sphere_intercept 5 (local_point bowl (V3 (-4) 0 0)) (local_vector bowl leaving) = Some (local_point bowl (V3 (-4) 0 0))).
  replace (local_vector bowl leaving) with leaving by (apply vec_eq; cbn; repeat (unfold dot; cbn); field).
  replace (local_point bowl (V3 (-4) 0 0)) with (V3 (-3) 0 1) by (apply vec_eq; cbn; repeat (unfold dot; cbn); ring).
  apply sphere_struck; [exact leaving_unit|cbn; lra|cbn; lra].
Qed.

Lemma bowl_all_figured : forall j s, nth_error (surfaces_all bowl_system) j = Some s -> figured (st_surface s).
Proof.
  intros j s H. cbn in H. do 4 (destruct j as [|j]; [cbn in H; injection H as <-; first [apply window_figured|apply bowl_figured]|]).
  destruct j; discriminate H.
Qed.
Lemma bowl_back : clean_path (map st_surface (reversed_subsystem (surfaces_all bowl_system) 2)) SystemExamples.solved.
Proof.
  cbn [bowl_system surfaces_all sys_object sys_surfaces sys_sensor app existsb win st_field orb negb
    reversed_subsystem firstn rev map st_surface].
  set (r0 := SystemExamples.solved).
  assert (Z : vz steep <> 0) by (cbn; lra). assert (Zl : vz leaving <> 0) by (cbn; lra).
  assert (W := window_once (V3 0 0 3) r0 (V3 0 0 3) steep eq_refl eq_refl eq_refl steep_unit Z).
  destruct (window_step (V3 0 0 3) r0 (V3 0 0 3) steep eq_refl eq_refl eq_refl steep_unit Z) as (N1 & D1 & P1).
  set (r1 := surface_propagate (window (shift (V3 0 0 3))) r0) in *.
  replace (vadd (V3 0 0 3) _) with (V3 0 0 3) in P1 by (apply vec_eq; cbn; field).
  destruct (bowl_step r1 P1 D1 N1) as (N2 & D2 & P2).
  split; [exact W|]. split.
  - exists (V3 0 0 3), steep, (V3 (-4) 0 0), leaving. repeat split; auto using bowl_determined, steep_unit, leaving_unit. exact bowl_struck.
  - split; [|exact I]. apply (window_once _ _ (V3 (-4) 0 0) leaving); auto using leaving_unit.
Qed.
Lemma bowl_forth : clean_path (map ss_surface (tl (stop_subsystem bowl_surfaces 2 3))) SystemExamples.solved.
Proof.
  split; [|exact I]. apply (window_once (V3 0 0 4) _ (V3 0 0 3) steep); auto using steep_unit. cbn. lra.
Qed.
Lemma bowl_reported : exists root, dependable root /\
  reported_stop_ray root 1 bowl_system bowl_surfaces in_middle to_the_right (fun _ => 1) 4 no_ray = Some (stop_ray bowl_system 2 SystemExamples.solved) /\
  solve_stop root 1 (stop_subsystem bowl_surfaces 2 3) (in_middle 2) (to_the_right 3) 1 = Some SystemExamples.solved.
Proof.
  destruct solver_found as (root & D & E). exists root. split; [exact D|].
  change (stop_subsystem bowl_surfaces 2 3) with [at_z 3; at_z 4]. split; [|exact E].
  unfold reported_stop_ray, stops_only. cbn -[stop_solver stop_ray]. unfold stop_solver.
  change (stop_subsystem bowl_surfaces 2 3) with [at_z 3; at_z 4]. rewrite E. reflexivity.
Qed.

(** Grazing incidence: the ray solved upwards through (-4, 0, 3) leaves the object (z = 1) inside the
    bowl, is reflected in (-4, 0, 2) and meets the stop (z = 3).  Traced forward, the other point in
    which the first line meets the sphere is taken, which lies behind the object. *)
Definition cup : surface := mkSurface (make_sag no_solver (SphericalSag 5) None) mirror None None None.
Definition cup_system : system :=
  mkSystem (win 1 false false) [mkStop cup false false; win 3 false true; win 4 true false] None None false.
Definition upwards : vec3 := V3 0 0 1.
Definition cup_solved : ray := mkRay 1 (Some (V3 (-4) 0 3)) (Some upwards) (Some 1) 0 1 true.
Definition inside : vec3 := V3 (-24/25) 0 (7/25).
Lemma upwards_unit : is_unit upwards. Proof. unfold is_unit, norm2, dot; cbn; lra. Qed.
Lemma inside_unit : is_unit inside. Proof. unfold is_unit, norm2, dot; cbn; lra. Qed.
Lemma cup_figured : figured cup.
Proof. apply class_figured; [intros t H; discriminate H|left; split; reflexivity]. Qed.
(** One reflection, given the point and the root in its normal. *)
Lemma cup_step : forall r o u x k s, r_position r = Some o -> r_direction r = Some u -> r_index r = 1 -> is_unit u ->
  x = vadd o (vscale k u) -> vx x * vx x + vy x * vy x + (vz x - 5) * (vz x - 5) = 5 * 5 ->
  5 * vz u * (vx u * vx x + vy u * vy x + vz u * (vz x - 5)) < 0 ->
  0 <= s -> s * s = 1 - 1 / 5 * vx x * (1 / 5 * vx x) - 1 / 5 * vy x * (1 / 5 * vy x) ->
  r_index (surface_propagate cup r) = 1 /\ r_position (surface_propagate cup r) = Some x /\
  r_direction (surface_propagate cup r) = Some (mirror_image (V3 (1 / 5 * vx x) (1 / 5 * vy x) (- s)) u).
Proof.
  intros r o u x k s Hp Hd Hn U Ex O S Ps Es.
  destruct (figured_step cup r o u cup_figured Hp Hd Hn U) as (N & P & D & _).
  assert (X : sag_intercept (sf_sag cup) (local_point cup o) (local_vector cup u) = Some x).
  { change (sphere_intercept 5 o u = Some x). rewrite <- (sphere_determined 5 o u k 1 U) by (left; reflexivity).
    rewrite <- Ex. replace (vscale 1 u) with u by (apply vec_eq; cbn; ring). apply sphere_struck; assumption. }
  assert (Nx : sag_normal (sf_sag cup) x = Some (V3 (1 / 5 * vx x) (1 / 5 * vy x) (- s))).
  { change (sphere_normal 5 x = Some (V3 (1 / 5 * vx x) (1 / 5 * vy x) (- s))). unfold sphere_normal.
    rewrite odiv_nz by lra. cbn [obind]. rewrite <- Es.
    unfold osqrt. destruct (Rle_dec 0 _) as [H|H]; [|exfalso; nra]. cbn [obind]. rewrite sqrt_square by exact Ps. reflexivity. }
  split; [exact N|]. split; [rewrite P, X; reflexivity|exact (D _ _ X Nx)].
Qed.
Lemma cup_turn : forall r, r_position r = Some (V3 (-4/7) 0 1) -> r_direction r = Some inside ->
  turn_round (window (shift (V3 0 0 1))) r = r.
Proof.
  intros r P D. unfold turn_round, window, shift. cbn [sf_transformation sf_sag]. unfold apply_inverse.
  replace (r_position (ray_transform _ r)) with (Some (V3 (-4/7) 0 0)) by (cbn [ray_transform r_position]; rewrite P; cbn [omap]; f_equal; apply vec_eq; cbn; unfold dot; cbn; lra).
  replace (r_direction (ray_transform _ r)) with (Some inside) by (cbn [ray_transform r_direction]; rewrite D; cbn [omap]; f_equal; apply vec_eq; cbn; unfold dot; cbn; lra).
  cbn [obind]. replace (sag_normal plane (V3 (-4/7) 0 0)) with (Some (V3 0 0 (-1))) by reflexivity. cbn [obind].
  destruct (Rlt_dec _ _) as [H|H]; [|reflexivity]. exfalso. unfold dot in H. cbn in H. lra.
Qed.
Lemma cup_back : r_position (stop_ray cup_system 2 cup_solved) = Some (V3 (-4/7) 0 1) /\
  r_direction (stop_ray cup_system 2 cup_solved) = Some inside /\ r_index (stop_ray cup_system 2 cup_solved) = 1.
Proof.
  unfold stop_ray. cbn [cup_system surfaces_all sys_object sys_surfaces sys_sensor app existsb win st_field orb negb
    reversed_subsystem firstn rev map st_surface propagate_list sys_transformation apply_transformation last].
  assert (Z : vz upwards <> 0) by (cbn; lra). assert (Zi : vz inside <> 0) by (cbn; lra).
  destruct (window_step (V3 0 0 3) cup_solved _ _ eq_refl eq_refl eq_refl upwards_unit Z) as (N1 & D1 & P1).
  replace (vadd (V3 (-4) 0 3) _) with (V3 (-4) 0 3) in P1 by (apply vec_eq; cbn; field).
  set (r1 := surface_propagate (window (shift (V3 0 0 3))) cup_solved) in *.
  destruct (cup_step r1 _ _ (V3 (-4) 0 2) (-1) (3/5) P1 D1 N1 upwards_unit) as (N2 & P2 & D2);
    [apply vec_eq; cbn; ring|cbn; lra|cbn; lra|lra|cbn; lra|].
  set (r2 := surface_propagate cup r1) in *.
  replace (mirror_image _ _) with inside in D2 by (apply vec_eq; cbn; unfold dot; cbn; field).
  destruct (window_step (V3 0 0 1) r2 _ _ P2 D2 N2 inside_unit Zi) as (N3 & D3 & P3).
  replace (vadd (V3 (-4) 0 2) _) with (V3 (-4/7) 0 1) in P3 by (apply vec_eq; cbn; field).
  set (r3 := surface_propagate (window (shift (V3 0 0 1))) r2) in *.
  rewrite (cup_turn r3 P3 D3). auto.
Qed.
Lemma cup_forward : exists out q, nth_error (trace cup_system (stop_ray cup_system 2 cup_solved)) 2 = Some out /\
  r_position out = Some q /\ vx q > 3.
Proof.
  destruct cup_back as (P0 & D0 & N0). set (r0 := stop_ray cup_system 2 cup_solved) in *.
  unfold trace. cbn [cup_system sys_transformation apply_inverse surfaces_all sys_object sys_surfaces sys_sensor app existsb win st_field orb negb map st_surface].
  rewrite !accumulate_cons. cbn [nth_error].
  assert (Zi : vz inside <> 0) by (cbn; lra).
  destruct (window_step (V3 0 0 1) r0 _ _ P0 D0 N0 inside_unit Zi) as (N1 & D1 & P1).
  replace (vadd (V3 (-4/7) 0 1) _) with (V3 (-4/7) 0 1) in P1 by (apply vec_eq; cbn; field).
  set (r1 := surface_propagate (window (shift (V3 0 0 1))) r0) in *.
  destruct (cup_step r1 _ _ (V3 (44/25) 0 (8/25)) (-17/7) (117/125) P1 D1 N1 inside_unit) as (N2 & P2 & D2);
    [apply vec_eq; cbn; field|cbn; lra|cbn; lra|lra|cbn; lra|].
  set (r2 := surface_propagate cup r1) in *.
  match type of D2 with _ = Some (mirror_image ?n ?u) => set (c := mirror_image n u) in * end.
  assert (Ec : c = V3 (-336/625) 0 (-527/625)) by (apply vec_eq; cbn; unfold dot; cbn; field).
  assert (Uc : is_unit c) by (rewrite Ec; unfold is_unit, norm2, dot; cbn; lra).
  assert (Zc : vz c <> 0) by (rewrite Ec; cbn; lra).
  destruct (window_step (V3 0 0 3) r2 _ _ P2 D2 N2 Uc Zc) as (N3 & D3 & P3).
  eexists. eexists. split; [reflexivity|]. split; [exact P3|]. rewrite Ec. cbn. lra.
Qed.
