(** A system whose stop rays are found, and one before whose stops is glass. *)
From Coq Require Import Reals List Bool Arith Lra Lia.
From Verif Require Import Vec VecLemmas Num NumLemmas RayModel SurfaceModel SagModel SequenceSpec SequenceProofs SequenceExamples
  SystemModel SystemSpec SystemTraceProofs SystemRetraceProofs SystemExamples StopRayModel StopRaySpec StopRayProofs StopRayExamples.
Import ListNotations.
Open Scope R_scope.
Open Scope opt_scope.

(** The planes 3 and 4 are the stops. *)
Definition clear_system : system :=
  mkSystem (win 0 false false) [win 1 false false; win 3 false true; win 4 true false] None None false.
Definition clear_surfaces : list solver_surface := [at_z 0; at_z 1; at_z 3; at_z 4].
Definition glass_surfaces : list solver_surface :=
  [at_z 0; mkSolver (mkSurface plane water None None (shift (V3 0 0 1))) (fun _ => Some 0) true; at_z 3; at_z 4].
Definition in_middle (i : nat) : border := mkBorder Length 0 0.
Definition to_the_right (i : nat) : border := mkBorder Length (4/3) 0.
Definition no_ray : ray := mkRay 1 None None (Some 1) 0 1 true.

Lemma solved_starts : starts_from (at_z 3) (in_middle 2) SystemExamples.solved.
Proof.
  split.
  - exists 0. split; [reflexivity|]. unfold position_on, SystemExamples.solved. cbn. f_equal. apply vec_eq; cbn; unfold dot; cbn; ring.
  - exists steep. split; [reflexivity|apply steep_unit].
Qed.
Lemma solved_strikes_right : strikes [at_z 4] (at_z 4) (to_the_right 3) (1 / 10 ^ 9 * Rmax 1 1) SystemExamples.solved.
Proof.
  unfold strikes. cbn zeta. unfold position_on. change [at_z 4] with ([] ++ [at_z 4]).
  rewrite (windows_arrive [] (at_z 4) SystemExamples.solved (V3 0 0 3) steep); try reflexivity.
  - exists (V3 (4/3) 0 0). split; [cbn; unfold dot; cbn; f_equal; apply vec_eq; cbn; unfold dot; cbn; field|]. cbn.
    replace (4 / 3 - 4 / 3) with 0 by ring. replace (0 - 0) with 0 by ring. rewrite Rabs_R0. split; apply tolerance_pos.
  - apply Forall_cons; [apply pane_window; exact (shifted _)|apply Forall_nil].
  - apply steep_unit.
  - apply Forall_cons; [cbn; unfold dot; cbn; lra|apply Forall_nil].
Qed.
Lemma solver_found : exists root, dependable root /\ solve_stop root 1 [at_z 3; at_z 4] (in_middle 2) (to_the_right 3) 1 = Some SystemExamples.solved.
Proof.
  apply (found_length 1 (at_z 3) [at_z 4] (in_middle 2) (to_the_right 3) 1 SystemExamples.solved steep).
  - apply orthogonal_mid.
  - reflexivity.
  - repeat split.
  - exact solved_starts.
  - reflexivity.
  - cbn. lra.
  - exact solved_strikes_right.
Qed.

Lemma clear_reported : exists root, dependable root /\
  reported_stop_ray root 1 clear_system clear_surfaces in_middle to_the_right (fun _ => 1) 4 no_ray = Some (stop_ray clear_system 2 SystemExamples.solved).
Proof.
  destruct solver_found as (root & D & E). exists root. split; [exact D|].
  unfold reported_stop_ray, stops_only. cbn -[stop_solver stop_ray]. unfold stop_solver.
  change (stop_subsystem clear_surfaces 2 3) with [at_z 3; at_z 4]. rewrite E. reflexivity.
Qed.
Lemma glass_reported : exists root, dependable root /\
  reported_stop_ray root 1 behind_glass glass_surfaces in_middle to_the_right (fun _ => 1) 4 no_ray = Some (stop_ray behind_glass 2 SystemExamples.solved).
Proof.
  destruct solver_found as (root & D & E). exists root. split; [exact D|].
  unfold reported_stop_ray, stops_only. cbn -[stop_solver stop_ray]. unfold stop_solver.
  change (stop_subsystem glass_surfaces 2 3) with [at_z 3; at_z 4]. rewrite E. reflexivity.
Qed.
Lemma clear_back : r_position (stop_ray clear_system 2 SystemExamples.solved) <> None /\ r_direction (stop_ray clear_system 2 SystemExamples.solved) <> None.
Proof.
  unfold stop_ray. cbn [clear_system surfaces_all sys_object sys_surfaces sys_sensor app existsb win st_field orb negb
    reversed_subsystem firstn rev map st_surface propagate_list sys_transformation apply_transformation last].
  unfold SystemExamples.solved. rewrite !window_shift by (try apply steep_unit; cbn; lra).
  unfold turn_round. destruct (let* x := _ in _) as [c|]; [destruct (Rlt_dec 0 c)|]; split; cbn; discriminate.
Qed.
Lemma glass_misses : exists a, nth_error (trace behind_glass (stop_ray behind_glass 2 SystemExamples.solved)) 2 = Some a /\ ~ meets (at_z 3) (in_middle 2) (1/2) a.
Proof.
  eexists. split; [exact solved_forward|]. intros (v & V & X & _). unfold position_on in V. cbn in V. injection V as <-. cbn in X.
  unfold dot in X. cbn in X.
  replace (1 * (-7 / 12 - 0) + 0 * (0 - 0) + 0 * (3 - 3) - 0) with (- (7/12)) in X by field.
  rewrite Rabs_Ropp, Rabs_right in X by lra. lra.
Qed.
