(** C92: the reported stop rays from the object to both stops. *)
From Coq Require Import Reals List Bool Arith Lra Lia.
From Verif Require Import Vec VecLemmas Num RayModel SurfaceModel SequenceSpec SystemModel SystemSpec SystemTraceProofs SystemRetraceProofs
  SystemExamples StopRayModel StopRaySpec StopRayExamples StopTraceProofs StopTraceExamples.
Import ListNotations.
Open Scope R_scope.

(** Curved surfaces: [C92_curved_partial] in P_Curved.v.  Missing for the full claim: surfaces before
    the first stop that refract or diffract, and other stops between the two, for which it is false. *)
Theorem C92_both_stops_partial : forall root w sys ss gf gl scale steps start p f si sj r,
  dependable root -> (forall t, sys_transformation sys = Some t -> is_rigid t) ->
  map ss_surface ss = map st_surface (surfaces_all sys) -> separate_stops (surfaces_all sys) ->
  index_pupil_stop sys = Some p -> index_field_stop sys = Some f ->
  (forall j s, nth_error (surfaces_all sys) j = Some s -> (p < j < f)%nat -> st_field s = false) ->
  (forall j s, nth_error (surfaces_all sys) j = Some s -> (f < j < p)%nat -> st_pupil s = false) ->
  nth_error ss (Nat.min p f) = Some si -> nth_error ss (Nat.max p f) = Some sj ->
  (forall k s, (k <= Nat.max p f)%nat -> nth_error (surfaces_all sys) k = Some s -> plain (st_surface s)) ->
  (forall v, ss_sag si v = Some 0) ->
  (b_unit (gf (Nat.min p f)) = Dimensionless -> sf_transformation (ss_surface si) = None) ->
  reported_stop_ray root w sys ss gf gl scale steps start = Some r ->
  r_position r <> None -> r_direction r <> None ->
  exists a b, nth_error (trace sys r) (Nat.min p f) = Some a /\ nth_error (trace sys r) (Nat.max p f) = Some b /\
    meets si (gf (Nat.min p f)) 0 a /\ meets sj (gl (Nat.max p f)) (1 / 10 ^ 9 * Rmax (scale (Nat.max p f)) 1) b.
Proof. exact reported_whole. Qed.
Print Assumptions C92_both_stops_partial.

(** A plane of glass before the stops: the reported ray passes the first stop more than half a
    unit beside its border. *)
Theorem C92_both_stops_refuted : exists root sys ss gf gl steps start si r a,
  dependable root /\ map ss_surface ss = map st_surface (surfaces_all sys) /\ separate_stops (surfaces_all sys) /\
  index_pupil_stop sys = Some 2%nat /\ index_field_stop sys = Some 3%nat /\ nth_error ss 2 = Some si /\
  reported_stop_ray root 1 sys ss gf gl (fun _ => 1) steps start = Some r /\
  nth_error (trace sys r) 2 = Some a /\ ~ meets si (gf 2%nat) (1/2) a.
Proof.
  destruct glass_reported as (root & D & E). destruct glass_misses as (a & A & B).
  exists root, behind_glass, glass_surfaces, in_middle, to_the_right, 4%nat, no_ray, (at_z 3), (stop_ray behind_glass 2 SystemExamples.solved), a.
  split; [exact D|]. split; [reflexivity|]. split.
  { intros s I. cbn in I. destruct I as [<-|[<-|[<-|[<-|[]]]]]; cbn; discriminate. }
  repeat (split; [reflexivity|]). split; [exact E|]. split; [exact A|exact B].
Qed.
Print Assumptions C92_both_stops_refuted.

Example C92_nonvacuous : exists root r,
  dependable root /\ map ss_surface clear_surfaces = map st_surface (surfaces_all clear_system) /\
  separate_stops (surfaces_all clear_system) /\
  index_pupil_stop clear_system = Some 2%nat /\ index_field_stop clear_system = Some 3%nat /\
  (forall k s, (k <= 3)%nat -> nth_error (surfaces_all clear_system) k = Some s -> plain (st_surface s)) /\
  reported_stop_ray root 1 clear_system clear_surfaces in_middle to_the_right (fun _ => 1) 4 no_ray = Some r /\
  r_position r <> None /\ r_direction r <> None.
Proof.
  destruct clear_reported as (root & D & E). exists root, (stop_ray clear_system 2 SystemExamples.solved).
  split; [exact D|]. split; [reflexivity|]. split.
  { intros s I. cbn in I. destruct I as [<-|[<-|[<-|[<-|[]]]]]; cbn; discriminate. }
  split; [reflexivity|]. split; [reflexivity|]. split.
  { intros k s K N. destruct k as [|[|[|[|k]]]]; cbn in N; try (injection N as <-; apply window_plain). lia. }
  split; [exact E|exact clear_back].
Qed.
