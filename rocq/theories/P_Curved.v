(** C74 and C92 for systems with curved mirrors. *)
From Coq Require Import Reals List Bool Arith Lra Lia.
From Verif Require Import Vec VecLemmas Num NumLemmas RayModel SurfaceModel SagModel MaterialModel SequenceSpec SnellSpec SystemModel SystemSpec SystemTraceProofs
  SystemExamples StopRayModel StopRaySpec StopRayExamples StopTraceExamples CurvedSpec CurvedProofs CurvedSagProofs CurvedStopProofs CurvedExamples.
Import ListNotations.
Open Scope R_scope.

(** ** C74 *)

(** Surfaces of any figure, mirrors or transparent with the index 1.  Missing for the full claim:
    refracting surfaces and gratings, and lines that strike a curved surface in another point on
    the way forth, for all of which it is false. *)
Theorem C74_curved_partial : forall sys i stop r p d,
  (forall t, sys_transformation sys = Some t -> is_rigid t) ->
  nth_error (surfaces_all sys) i = Some stop ->
  (forall j s, (j <= i)%nat -> nth_error (surfaces_all sys) j = Some s -> figured (st_surface s)) ->
  r_position r = Some p -> r_direction r = Some d -> r_index r = 1 -> is_unit d ->
  struck (st_surface stop) p d p ->
  clean_path (map st_surface (reversed_subsystem (surfaces_all sys) i)) r ->
  exists out, nth_error (trace sys (stop_ray sys i r)) i = Some out /\
    r_position out = Some p /\ (r_direction out = Some d \/ r_direction out = Some (vopp d)) /\ r_index out = 1.
Proof. exact curved_stop_ray. Qed.
Print Assumptions C74_curved_partial.

(** Every sag class of the library without a transformation of its own is such a figure ... *)
Theorem C74_figures_partial : forall solver c m ap t, (forall t', t = Some t' -> is_rigid t') ->
  (mat_is_mirror m = true /\ (forall r, mat_index m r = r_index r) \/
   mat_is_mirror m = false /\ (forall r, mat_index m r = 1)) ->
  figured (mkSurface (make_sag solver c None) m ap None t).
Proof. exact class_figured. Qed.
Print Assumptions C74_figures_partial.

(** ... and for regular lines the point that is struck depends on nothing but the line. *)
Theorem C74_lines_partial : forall solver c m ap t o u, (forall t', t = Some t' -> is_rigid t') -> is_unit u ->
  let s := mkSurface (make_sag solver c None) m ap None t in
  line_regular c (local_point s o) (local_vector s u) -> determined s o u.
Proof. exact class_determined. Qed.
Print Assumptions C74_lines_partial.

(** A point of a sphere is found again from itself when the line enters the ball there and goes
    towards its centre's side, or leaves it and goes the other way. *)
Theorem C74_sphere_partial : forall r q u, is_unit u -> vx q * vx q + vy q * vy q + (vz q - r) * (vz q - r) = r * r ->
  r * vz u * (vx u * vx q + vy u * vy q + vz u * (vz q - r)) < 0 ->
  sphere_intercept r q u = Some q.
Proof. exact sphere_struck. Qed.
Print Assumptions C74_sphere_partial.

(** A spherical mirror met under grazing incidence, all in vacuum: the ray solved through
    (-4, 0, 3) comes back more than seven units beside it. *)
Theorem C74_grazing_refuted : exists sys stop r p d out q,
  sys_transformation sys = None /\
  index_pupil_stop sys = Some 2%nat /\ index_field_stop sys = Some 3%nat /\
  nth_error (surfaces_all sys) 2 = Some stop /\
  (forall j s, nth_error (surfaces_all sys) j = Some s -> figured (st_surface s)) /\
  r_position r = Some p /\ r_direction r = Some d /\ r_index r = 1 /\ is_unit d /\ struck (st_surface stop) p d p /\
  r_position (stop_ray sys 2 r) <> None /\ r_direction (stop_ray sys 2 r) <> None /\
  nth_error (trace sys (stop_ray sys 2 r)) 2 = Some out /\ r_position out = Some q /\ 7 < vx q - vx p.
Proof.
  destruct cup_forward as (out & q & F & P & X). destruct cup_back as (B1 & B2 & _).
  exists cup_system, (win 3 false true), cup_solved, (V3 (-4) 0 3), upwards, out, q.
  repeat (split; [reflexivity|]). split.
  { intros j s H. cbn in H. do 4 (destruct j as [|j]; [cbn in H; injection H as <-; first [apply window_figured|apply cup_figured]|]).
    destruct j; discriminate H. }
  repeat (split; [reflexivity|]). split; [exact upwards_unit|]. split; [apply window_struck; cbn; lra|].
  rewrite B1, B2. split; [discriminate|]. split; [discriminate|]. split; [exact F|]. split; [exact P|]. cbn. lra.
Qed.
Print Assumptions C74_grazing_refuted.

(** A ray by way of a concave sphere. *)
Example C74_curved_nonvacuous :
  nth_error (surfaces_all bowl_system) 2 = Some (win 3 false true) /\
  (forall j s, (j <= 2)%nat -> nth_error (surfaces_all bowl_system) j = Some s -> figured (st_surface s)) /\
  nth_error (surfaces_all bowl_system) 1 = Some (mkStop bowl false false) /\ mat_is_mirror (sf_material bowl) = true /\
  r_position solved = Some (V3 0 0 3) /\ r_direction solved = Some steep /\ r_index solved = 1 /\ is_unit steep /\
  struck (st_surface (win 3 false true)) (V3 0 0 3) steep (V3 0 0 3) /\
  clean_path (map st_surface (reversed_subsystem (surfaces_all bowl_system) 2)) solved.
Proof.
  split; [reflexivity|]. split; [intros j s _; apply bowl_all_figured|]. repeat (split; [reflexivity|]).
  split; [exact steep_unit|]. split; [apply window_struck; cbn; lra|exact bowl_back].
Qed.
(** A line oblique to a parabola and one across a hyperboloid of which only one sheet counts are regular. *)
Example C74_lines_nonvacuous :
  line_regular (ParabolicSag 2) (V3 0 0 3) steep /\ line_regular (SphericalSag 5) (V3 0 0 3) steep /\
  line_regular (ConicSag 4 (-2)) (V3 0 0 3) (V3 0 0 1).
Proof.
  split; [left; cbn; lra|]. split; [exact I|]. split.
  - unfold conic_a. cbn. replace (1 / 4 * (0 * 0 + 0 * 0 + (1 + -2) * (1 * 1))) with (- (1/4)) by field.
    rewrite Rabs_Ropp, Rabs_right by lra. lra.
  - right. unfold conic_root.
    assert (Ea : conic_a (1/4) (-2) (V3 0 0 1) = -(1/4)) by (unfold conic_a; cbn; field).
    assert (Eb : conic_b (1/4) (-2) (V3 0 0 3) (V3 0 0 1) = -(7/2)) by (unfold conic_b; cbn; field).
    assert (Ec : conic_cc (1/4) (-2) (V3 0 0 3) = -(33/4)) by (unfold conic_cc; cbn; field).
    unfold conic_degenerate, conic_disc. rewrite Ea, Eb, Ec.
    replace (-(7/2) * -(7/2) - 4 * -(1/4) * -(33/4)) with (2 * 2) by field.
    destruct (Rle_dec 0 (2 * 2)) as [_|H]; [|lra]. rewrite sqrt_square by lra. cbn [obind].
    destruct (Rlt_dec _ _) as [H|_].
    { rewrite Rabs_Ropp, Rabs_right in H by lra. lra. }
    rewrite odiv_nz by lra. cbn [obind]. unfold ray_at. cbn.
    destruct (Rle_dec 0 _) as [H|_]; [exfalso|reflexivity].
    match type of H with 0 <= ?e => replace e with (-64) in H by field end. lra.
Qed.
Example C74_sphere_nonvacuous :
  vx (V3 (-3) 0 1) * vx (V3 (-3) 0 1) + vy (V3 (-3) 0 1) * vy (V3 (-3) 0 1) + (vz (V3 (-3) 0 1) - 5) * (vz (V3 (-3) 0 1) - 5) = 5 * 5 /\
  5 * vz steep * (vx steep * vx (V3 (-3) 0 1) + vy steep * vy (V3 (-3) 0 1) + vz steep * (vz (V3 (-3) 0 1) - 5)) < 0.
Proof. cbn. lra. Qed.

(** ** C92 *)

(** Missing for the full claim: what is missing in [C74_curved_partial], and other stops between the two. *)
Theorem C92_curved_partial : forall root w sys ss gf gl scale steps start p f si sj r,
  dependable root -> (forall t, sys_transformation sys = Some t -> is_rigid t) ->
  map ss_surface ss = map st_surface (surfaces_all sys) -> separate_stops (surfaces_all sys) ->
  index_pupil_stop sys = Some p -> index_field_stop sys = Some f ->
  (forall j s, nth_error (surfaces_all sys) j = Some s -> (p < j < f)%nat -> st_field s = false) ->
  (forall j s, nth_error (surfaces_all sys) j = Some s -> (f < j < p)%nat -> st_pupil s = false) ->
  nth_error ss (Nat.min p f) = Some si -> nth_error ss (Nat.max p f) = Some sj ->
  (forall k s, (k <= Nat.max p f)%nat -> nth_error (surfaces_all sys) k = Some s -> figured (st_surface s)) ->
  (b_unit (gf (Nat.min p f)) = Dimensionless -> sf_transformation (ss_surface si) = None) ->
  reported_stop_ray root w sys ss gf gl scale steps start = Some r ->
  (forall x, solve_stop root w (stop_subsystem ss (Nat.min p f) (Nat.max p f))
       (gf (Nat.min p f)) (gl (Nat.max p f)) (scale (Nat.max p f)) = Some x ->
     (forall o u, r_position x = Some o -> r_direction x = Some u -> struck (ss_surface si) o u o) /\
     clean_path (map st_surface (reversed_subsystem (surfaces_all sys) (Nat.min p f))) x /\
     clean_path (map ss_surface (tl (stop_subsystem ss (Nat.min p f) (Nat.max p f)))) x) ->
  exists a b, nth_error (trace sys r) (Nat.min p f) = Some a /\ nth_error (trace sys r) (Nat.max p f) = Some b /\
    meets si (gf (Nat.min p f)) 0 a /\ meets sj (gl (Nat.max p f)) (1 / 10 ^ 9 * Rmax (scale (Nat.max p f)) 1) b.
Proof. exact reported_curved. Qed.
Print Assumptions C92_curved_partial.

Example C92_curved_nonvacuous : exists root r,
  dependable root /\ map ss_surface bowl_surfaces = map st_surface (surfaces_all bowl_system) /\
  separate_stops (surfaces_all bowl_system) /\
  index_pupil_stop bowl_system = Some 2%nat /\ index_field_stop bowl_system = Some 3%nat /\
  (forall k s, (k <= 3)%nat -> nth_error (surfaces_all bowl_system) k = Some s -> figured (st_surface s)) /\
  reported_stop_ray root 1 bowl_system bowl_surfaces in_middle to_the_right (fun _ => 1) 4 no_ray = Some r /\
  (forall x, solve_stop root 1 (stop_subsystem bowl_surfaces 2 3) (in_middle 2) (to_the_right 3) 1 = Some x ->
     (forall o u, r_position x = Some o -> r_direction x = Some u -> struck (ss_surface (at_z 3)) o u o) /\
     clean_path (map st_surface (reversed_subsystem (surfaces_all bowl_system) 2)) x /\
     clean_path (map ss_surface (tl (stop_subsystem bowl_surfaces 2 3))) x).
Proof.
  destruct bowl_reported as (root & D & E & S). exists root, (stop_ray bowl_system 2 SystemExamples.solved).
  split; [exact D|]. split; [reflexivity|]. split.
  { intros s I. cbn in I. destruct I as [<-|[<-|[<-|[<-|[]]]]]; cbn; discriminate. }
  split; [reflexivity|]. split; [reflexivity|]. split; [intros k s _; apply bowl_all_figured|]. split; [exact E|].
  intros x X. rewrite S in X. injection X as <-. split; [|split; [exact bowl_back|exact bowl_forth]].
  intros o u O U. injection O as <-. injection U as <-. apply window_struck; cbn; lra.
Qed.
