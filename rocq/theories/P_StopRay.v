(** C86, C89 and C90: the rays between the two stops. *)
From Coq Require Import Reals List Bool Arith Lra.
From Verif Require Import Vec VecLemmas Num NumLemmas RayModel SurfaceModel MaterialModel SequenceExamples SequenceSpec SequenceProofs
  SystemModel SystemSpec SystemTraceProofs SystemExamples StopRayModel StopRaySpec StopRayProofs StopRayExamples.
Import ListNotations.
Open Scope R_scope.

(** ** C86 *)

Theorem C86_strikes : forall root w first rest gf gl scale r, dependable root ->
  solve_stop root w (first :: rest) gf gl scale = Some r ->
  strikes rest (last rest first) gl (1 / 10 ^ 9 * Rmax scale 1) r.
Proof. exact solved_strikes. Qed.
Print Assumptions C86_strikes.

Theorem C86_start_length : forall root w first rest gf gl scale r, dependable root ->
  rigid_surface (ss_surface first) -> rest <> [] -> b_unit gf = Length ->
  solve_stop root w (first :: rest) gf gl scale = Some r -> starts_from first gf r.
Proof. exact solved_starts_length. Qed.
Print Assumptions C86_start_length.

(** For an angular border the direction is right wherever the first stop is. *)
Theorem C86_angle : forall root w first rest gf gl scale r, dependable root ->
  rigid_surface (ss_surface first) -> rest <> [] -> b_unit gf = Dimensionless ->
  solve_stop root w (first :: rest) gf gl scale = Some r ->
  exists z, 0 <= z /\ direction_on first r = Some (V3 (b_x gf) (b_y gf) z) /\ is_unit (V3 (b_x gf) (b_y gf) z).
Proof. exact solved_angle. Qed.
Print Assumptions C86_angle.

(** Missing for the full claim: a first stop with an angular border and a transformation, for
    which it is false. *)
Theorem C86_start_angle_partial : forall root w first rest gf gl scale r, dependable root ->
  sf_transformation (ss_surface first) = None -> rest <> [] -> b_unit gf = Dimensionless ->
  solve_stop root w (first :: rest) gf gl scale = Some r -> starts_from first gf r.
Proof. exact solved_starts_angle. Qed.
Print Assumptions C86_start_angle_partial.

(** The first stop is five units up: a ray is found, and no ray that is found is on it. *)
Theorem C86_start_refuted : exists w first rest gf gl scale,
  rigid_surface (ss_surface first) /\ rest <> [] /\ b_unit gf = Dimensionless /\
  (exists root r, dependable root /\ solve_stop root w (first :: rest) gf gl scale = Some r) /\
  (forall root r, dependable root -> solve_stop root w (first :: rest) gf gl scale = Some r ->
     ~ starts_from first gf r).
Proof.
  exists 1, (at_z 5), [at_z 10], upwards, beside_axis, 2.
  split; [apply orthogonal_mid|]. split; [discriminate|]. split; [reflexivity|]. split; [exact raised_ray|exact raised_off].
Qed.
Print Assumptions C86_start_refuted.

(** Nothing is lost: a ray between the borders can be found, if it goes up in the
    coordinates of the system. *)
Theorem C86_found_length : forall w first rest gf gl scale r d, rigid_surface (ss_surface first) ->
  b_unit gf = Length -> fresh w r -> starts_from first gf r -> r_direction r = Some d -> 0 <= vz d ->
  strikes rest (last rest first) gl (1 / 10 ^ 9 * Rmax scale 1) r ->
  exists root, dependable root /\ solve_stop root w (first :: rest) gf gl scale = Some r.
Proof. exact found_length. Qed.
Print Assumptions C86_found_length.

Theorem C86_found_angle : forall w first rest gf gl scale r, sf_transformation (ss_surface first) = None ->
  b_unit gf = Dimensionless -> fresh w r -> starts_from first gf r ->
  strikes rest (last rest first) gl (1 / 10 ^ 9 * Rmax scale 1) r ->
  exists root, dependable root /\ solve_stop root w (first :: rest) gf gl scale = Some r.
Proof. exact found_angle. Qed.
Print Assumptions C86_found_angle.

Example C86_nonvacuous :
  starts_from (pane None) upwards level_ray /\ strikes [at_z 10] (at_z 10) beside_axis 0 level_ray /\
  (exists root, dependable root /\ solve_stop root 1 level upwards beside_axis 2 = Some level_ray) /\
  exists root r, dependable root /\ solve_stop root 1 backwards centre aside 6 = Some r.
Proof.
  split; [exact level_starts|]. split; [exact level_strikes|]. split; [exact level_found|exact backwards_found].
Qed.

(** ** C89 *)

(** Missing for the full claim: angular borders, for which it is false, and motions after which
    the ray goes down. *)
Theorem C89_moved_partial : forall t w first rest gf gl scale r d, is_rigid t ->
  Forall (fun s => rigid_surface (ss_surface s)) (first :: rest) ->
  b_unit gf = Length -> fresh w r -> starts_from first gf r -> r_direction r = Some d -> 0 <= vz (rigid_vector t d) ->
  strikes rest (last rest first) gl (1 / 10 ^ 9 * Rmax scale 1) r ->
  exists root, dependable root /\
    solve_stop root w (map (move_solver t) (first :: rest)) gf gl scale = Some (ray_transform t r).
Proof. exact moved_found. Qed.
Print Assumptions C89_moved_partial.

(** An object at infinity and a plane ten units behind it: turned together by a right angle,
    no root finder finds the stop ray. *)
Theorem C89_moved_refuted : exists t w first rest gf gl scale r, is_rigid t /\
  Forall (fun s => rigid_surface (ss_surface s)) (first :: rest) /\
  starts_from first gf r /\ strikes rest (last rest first) gl 0 r /\
  (exists root, dependable root /\ solve_stop root w (first :: rest) gf gl scale = Some r) /\
  (forall root, dependable root -> solve_stop root w (map (move_solver t) (first :: rest)) gf gl scale = None).
Proof.
  exists quarter, 1, (pane None), [at_z 10], upwards, beside_axis, 2, level_ray.
  split; [exact quarter_rigid|]. split; [exact level_rigid|]. split; [exact level_starts|].
  split; [exact level_strikes|]. split; [exact level_found|exact turned_lost].
Qed.
Print Assumptions C89_moved_refuted.

Example C89_nonvacuous : exists r d,
  fresh 1 r /\ starts_from (pane None) centre r /\ r_direction r = Some d /\ 0 <= vz (rigid_vector quarter d) /\
  strikes [at_z 10] (at_z 10) (mkBorder Length (-(15/2)) 0) 0 r.
Proof.
  exists (mkRay 1 (Some vzero) (Some (V3 (-3/5) 0 (4/5))) (Some 1) 0 1 true), (V3 (-3/5) 0 (4/5)).
  split; [repeat split|]. split.
  { split; [exists 0; split; reflexivity|]. eexists. split; [reflexivity|]. unfold is_unit, norm2, dot. cbn. field. }
  split; [reflexivity|]. split; [cbn; unfold dot; cbn; lra|].
  unfold strikes. cbn zeta. unfold position_on. change [at_z 10] with ([] ++ [at_z 10]).
  rewrite (windows_arrive [] (at_z 10) _ vzero (V3 (-3/5) 0 (4/5))); try reflexivity.
  - exists (V3 (-(15/2)) 0 0). split; [cbn; unfold dot; cbn; f_equal; apply vec_eq; cbn; unfold dot; cbn; field|]. cbn.
    replace (- (15 / 2) - - (15 / 2)) with 0 by ring. replace (0 - 0) with 0 by ring. rewrite Rabs_R0. split; apply Rle_refl.
  - apply Forall_cons; [apply pane_window; exact (shifted _)|apply Forall_nil].
  - unfold is_unit, norm2, dot. cbn. field.
  - apply Forall_cons; [cbn; unfold dot; cbn; lra|apply Forall_nil].
Qed.

(** ** C90 *)

(** Missing for the full claim: a first stop that is turned, for which it is false. *)
Theorem C90_length_partial : forall w first l s gf gl scale z, upright first -> b_unit gf = Length -> b_unit gl = Length ->
  Forall window_plane (l ++ [s]) -> ss_sag first (V3 (b_x gf) (b_y gf) 0) = Some z ->
  let p := global_border first gf z in let q := global_border s gl 0 in
  vz (vsub q p) <> 0 -> Forall (fun s => vz (local_vector (ss_surface s) (vsub q p)) <> 0) (l ++ [s]) ->
  exists r k, solve_stop guess_only w (first :: l ++ [s]) gf gl scale = Some r /\
    r_position r = Some p /\ k <> 0 /\ r_direction r = Some (vscale k (vsub q p)) /\ is_unit (vscale k (vsub q p)) /\
    r_position (propagate_list surface_propagate (map ss_surface (l ++ [s])) r) = Some q.
Proof. exact seed_length. Qed.
Print Assumptions C90_length_partial.

(** Missing for the full claim: a curved first stop, and a first stop with a transformation. *)
Theorem C90_angle_partial : forall w first l s gf gl scale, sf_transformation (ss_surface first) = None ->
  (forall v, ss_sag first v = Some 0) -> b_unit gf = Dimensionless -> b_unit gl = Length ->
  Forall window_plane (l ++ [s]) -> b_x gf * b_x gf + b_y gf * b_y gf < 1 ->
  let d := V3 (b_x gf) (b_y gf) (sqrt (1 - (b_x gf * b_x gf + b_y gf * b_y gf))) in let q := global_border s gl 0 in
  Forall (fun s => vz (local_vector (ss_surface s) d) <> 0) (l ++ [s]) ->
  exists r m, solve_stop guess_only w (first :: l ++ [s]) gf gl scale = Some r /\
    r_position r = Some (vsub q (vscale m d)) /\ vz (vsub q (vscale m d)) = 0 /\ r_direction r = Some d /\
    r_position (propagate_list surface_propagate (map ss_surface (l ++ [s])) r) = Some q.
Proof. exact seed_angle. Qed.
Print Assumptions C90_angle_partial.

(** By way of a surface with power the first guess is not a solution: it goes to the vertex of
    the first such surface, and does so also where the last stop is the first such surface and
    its border is an angle.  Missing for the full claim: a first stop that is turned, and a first
    stop whose border is an angle. *)
Theorem C90_anchor_partial : forall w first l1 a l2 gf gl scale z, upright first -> b_unit gf = Length ->
  b_unit gl = Length \/ b_unit gl = Dimensionless ->
  Forall (fun s => powered s = false) l1 -> powered a = true -> (l2 = [] -> b_unit gl = Dimensionless) ->
  ss_sag first (V3 (b_x gf) (b_y gf) 0) = Some z ->
  let p := global_border first gf z in let q := move_point (sf_transformation (ss_surface a)) vzero in
  vz (vsub q p) <> 0 ->
  exists r k, solve_stop keep_guess w (first :: l1 ++ a :: l2) gf gl scale = Some r /\
    r_position r = Some p /\ k <> 0 /\ r_direction r = Some (vscale k (vsub q p)) /\ is_unit (vscale k (vsub q p)).
Proof. exact seed_anchor. Qed.
Print Assumptions C90_anchor_partial.

(** The first stop is turned by a half turn and nothing lies between the stops: there is a stop
    ray and the first guess is not it. *)
Theorem C90_guess_refuted : exists w first s gf gl scale,
  window_plane first /\ window_plane s /\ b_unit gf = Length /\ b_unit gl = Length /\
  (let e := vsub (global_border s gl 0) (global_border first gf 0) in
   vz e <> 0 /\ vz (local_vector (ss_surface first) e) <> 0 /\ vz (local_vector (ss_surface s) e) <> 0) /\
  (exists root r, dependable root /\ solve_stop root w [first; s] gf gl scale = Some r) /\
  solve_stop guess_only w [first; s] gf gl scale = None.
Proof.
  exists 1, (pane (Some half)), (at_z (-4)), centre, aside, 6.
  split; [apply pane_window; intros m E; injection E as <-; exact half_rigid|].
  split; [apply pane_window; exact (shifted _)|]. split; [reflexivity|]. split; [reflexivity|].
  split; [|split; [exact backwards_found|exact backwards_missed]].
  cbn. repeat (unfold dot; cbn). repeat split; lra.
Qed.
Print Assumptions C90_guess_refuted.

Example C90_nonvacuous : forall w, exists r k,
  solve_stop guess_only w ([at_z 1] ++ [at_z 3] ++ [at_z 5]) centre aside 6 = Some r /\
  r_direction r = Some (vscale k (V3 3 0 4)) /\ r_position r = Some (V3 0 0 1).
Proof.
  intros w. destruct (C90_length_partial w (at_z 1) [at_z 3] (at_z 5) centre aside 6 0) as (r & k & A & B & _ & D & _).
  - reflexivity.
  - reflexivity.
  - reflexivity.
  - repeat (apply Forall_cons; [apply pane_window; exact (shifted _)|]). apply Forall_nil.
  - reflexivity.
  - cbn. unfold dot. cbn. lra.
  - repeat (apply Forall_cons; [cbn; repeat (unfold dot; cbn); lra|]). apply Forall_nil.
  - exists r, k. split; [exact A|]. rewrite B, D. split; f_equal; [f_equal|]; apply vec_eq; cbn; unfold dot; cbn; ring.
Qed.

(** A mirror at 3 behind a window at 2. *)
Example C90_nonvacuous_anchor : forall w, exists r k,
  solve_stop keep_guess w (at_z 1 :: [at_z 2] ++
    mkSolver (mkSurface plane mirror None None (shift (V3 0 0 3))) (fun _ => Some 0) true :: [at_z 0])
    aside centre 6 = Some r /\
  r_direction r = Some (vscale k (V3 (- b_x aside) (- b_y aside) 2)).
Proof.
  intros w. destruct (C90_anchor_partial w (at_z 1) [at_z 2]
    (mkSolver (mkSurface plane mirror None None (shift (V3 0 0 3))) (fun _ => Some 0) true) [at_z 0]
    aside centre 6 0) as (r & k & A & _ & _ & D & _).
  - reflexivity.
  - reflexivity.
  - left. reflexivity.
  - apply Forall_cons; [reflexivity|apply Forall_nil].
  - reflexivity.
  - discriminate.
  - reflexivity.
  - cbn. unfold dot. cbn. lra.
  - exists r, k. split; [exact A|]. rewrite D. do 2 f_equal. apply vec_eq; cbn; unfold dot; cbn; ring.
Qed.
