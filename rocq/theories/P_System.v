(** C38-C46, C73, C74: sequential systems. *)
From Coq Require Import String Reals List Bool Arith Permutation Lra Lia.
From Verif Require Import Vec VecLemmas Num RayModel SurfaceModel MaterialModel AngleModel SagSpec SequenceSpec SequenceProofs SequenceExamples
  SystemModel SystemSpec SystemProofs SystemTraceProofs SystemRetraceProofs SystemExamples.
Import ListNotations.
Open Scope R_scope.

(** ** C38 *)

Theorem C38_surfaces : forall sys,
  map st_surface (surfaces_all sys) = map st_surface (given_surfaces sys) /\
  map st_pupil (surfaces_all sys) = map st_pupil (given_surfaces sys) /\
  ((exists s, In s (given_surfaces sys) /\ st_field s = true) ->
     map st_field (surfaces_all sys) = map st_field (given_surfaces sys)) /\
  ((forall s, In s (given_surfaces sys) -> st_field s = false) ->
     map st_field (surfaces_all sys) = true :: map (fun _ => false) (tl (given_surfaces sys))).
Proof. exact surfaces_all_content. Qed.
Print Assumptions C38_surfaces.

Theorem C38_field_stop : forall sys, exists i, index_field_stop sys = Some i /\
  largest_flagged st_field (surfaces_all sys) i.
Proof. exact field_stop_exists. Qed.
Print Assumptions C38_field_stop.

Theorem C38_pupil_stop : forall sys,
  (forall i, index_pupil_stop sys = Some i <-> largest_flagged st_pupil (surfaces_all sys) i) /\
  (index_pupil_stop sys = None <-> forall s, In s (given_surfaces sys) -> st_pupil s = false).
Proof. exact pupil_stop_iff. Qed.
Print Assumptions C38_pupil_stop.

Example C38_nonvacuous :
  (exists s, In s (given_surfaces two_fields) /\ st_field s = true) /\
  (forall s, In s (given_surfaces (mkSystem (win 0 false false) [win 1 false true] None None false)) -> st_field s = false).
Proof.
  split.
  - exists (win 2 true false). split; [cbn; tauto|reflexivity].
  - intros s I. cbn in I. destruct I as [<-|[<-|[]]]; reflexivity.
Qed.

(** ** C39 *)

(** The loop ends after at most as many turns as there are stops, whatever [solve] does. *)
Theorem C39_terminates : forall X (solve : nat -> nat -> bool -> option X) sys start steps,
  (List.length (indices_pupil_stop sys) + List.length (indices_field_stop sys) <= S steps)%nat ->
  stops_only solve sys steps start <> Unfinished /\
  forall more, (steps <= more)%nat -> stops_only solve sys more start = stops_only solve sys steps start.
Proof. exact stops_terminate. Qed.
Print Assumptions C39_terminates.

(** Missing for the full claim: systems in which a surface is both a pupil stop and a field
    stop, for which it is false. *)
Theorem C39_last_solved_partial : forall X (solve : nat -> nat -> bool -> option X) sys steps start x,
  separate_stops (surfaces_all sys) -> stops_only solve sys steps start = Done x ->
  exists p f l b, index_pupil_stop sys = Some p /\ index_field_stop sys = Some f /\
    (Nat.min p f < l)%nat /\ solve (Nat.min p f) l b = Some x.
Proof. exact stops_first. Qed.
Print Assumptions C39_last_solved_partial.

(** The solved rays are left on surface 1 and traced back from surface 2. *)
Theorem C39_last_solved_refuted : exists sys steps start,
  stops_only pair_solver sys steps start = Done (1%nat, 3%nat) /\
  index_pupil_stop sys = Some 3%nat /\ index_field_stop sys = Some 2%nat.
Proof. exists both_stops, 4%nat, (0%nat, 0%nat). exact both_stops_wrong. Qed.
Print Assumptions C39_last_solved_refuted.

Example C39_nonvacuous : separate_stops (surfaces_all two_fields) /\
  stops_only pair_solver two_fields 4 (0%nat, 0%nat) = Done (1%nat, 2%nat).
Proof. split; apply two_fields_wrong. Qed.

(** ** C40 *)

Theorem C40_span : forall values mn mx, is_least values mn -> is_greatest values mx ->
  denormalize values (-1) = Some mn /\ denormalize values 1 = Some mx /\
  (forall g, exists v, denormalize values g = Some v /\ v = mn + (mx - mn) * (g + 1) / 2 /\
     (-1 <= g <= 1 -> mn <= v <= mx)) /\
  (forall g h v w, g <= h -> denormalize values g = Some v -> denormalize values h = Some w -> v <= w).
Proof. exact denormalize_span. Qed.
Print Assumptions C40_span.

(** Physical coordinates are left alone. *)
Theorem C40_physical : forall sys stops g g' nf np, denormalize_grid sys stops g nf np = Some g' ->
  g_wavelength g' = g_wavelength g /\ (nf = false -> g_field g' = g_field g) /\ (np = false -> g_pupil g' = g_pupil g).
Proof. exact grid_flags. Qed.
Print Assumptions C40_physical.

(** With both flags false the grid is returned even if there are no stop rays. *)
Theorem C40_physical_total : forall sys stops g, denormalize_grid sys stops g false false = Some g.
Proof. exact grid_physical. Qed.
Print Assumptions C40_physical_total.

Example C40_nonvacuous : is_least [3; -1; 2] (-1) /\ is_greatest [3; -1; 2] 3.
Proof. split; (split; [cbn; tauto|]); cbn; intros x [<-|[<-|[<-|[]]]]; lra. Qed.

(** ** C41 *)

(** Systems may be turned around the axis and moved across it.  Missing for the full claim: objects
    that are not on the axis, tilted or curved, and systems moved along the axis or tilted; it is
    false for objects beside the axis and for systems moved along it. *)
Theorem C41_launch_partial : forall sys z stops ps an w bx bY ba bb mx my ma mb,
  (forall t, sys_transformation sys = Some t -> keeps_height t) ->
  st_surface (sys_object sys) = window None /\ z = 0 \/
  st_surface (sys_object sys) = window (shift (V3 0 0 z)) ->
  positions_are (stops w) ps -> angles_are (stops w) an ->
  is_extreme bx (map vx ps) mx -> is_extreme bY (map vy ps) my ->
  is_extreme ba (map fst an) ma -> is_extreme bb (map snd an) mb ->
  cos mb * cos ma <> 0 ->
  exists g r,
    rayfunction_input sys stops
      (if sys_at_infinity sys then mkGrid w (sign_of ba, sign_of bb) (sign_of bx, sign_of bY)
       else mkGrid w (sign_of bx, sign_of bY) (sign_of ba, sign_of bb)) true true = Some (g, r) /\
    g_wavelength g = w /\
    exists r' l, trace sys r = r' :: l /\
      let out := apply_transformation (sys_transformation sys) r' in
      r_position out = Some (V3 mx my z) /\ r_direction out = Some (direction ma mb) /\
      r_wavelength out = w /\ r_intensity out = Some 1.
Proof. exact launch_extreme. Qed.
Print Assumptions C41_launch_partial.

(** The object is at x = 1; its stop rays leave it at x = 0 and x = 2, but the ray with the
    normalised field coordinate 1 leaves it at x = 3. *)
Theorem C41_launch_refuted : exists sys solved g r out,
  map (stop_ray sys 0) solved = solved /\
  is_greatest [0; 2] 2 /\ map r_position solved = [Some (V3 0 (-1) 0); Some (V3 2 1 0)] /\
  rayfunction_input sys (fun _ => map (stop_ray sys 0) solved) (mkGrid 1 (1, 1) (1, 1)) true true = Some (g, r) /\
  hd_error (trace sys r) = Some out /\ r_position out = Some (V3 3 1 0).
Proof.
  destruct beside_launch as (a & A & E & T).
  exists beside, [axis_ray 0 (-1); axis_ray 2 1], (mkGrid 1 (2, 1) a), (launch beside (mkGrid 1 (2, 1) a)), (axis_ray 3 1).
  rewrite map_beside. repeat split; auto; try reflexivity.
  - cbn; tauto.
  - cbn. intros x [<-|[<-|[]]]; lra.
Qed.
Print Assumptions C41_launch_refuted.

(** The whole system is moved by one unit along its axis: the stop rays leave the object at x = 0 and x = 2,
    the ray with the normalised field coordinate 1 leaves it at x = 11/4. *)
Theorem C41_moved_refuted : exists sys t solved g r out,
  sys_transformation sys = Some t /\ is_translation t /\
  map r_position (map (stop_ray sys 0) solved) = [Some (V3 0 (-1) 1); Some (V3 2 1 1)] /\
  rayfunction_input sys (fun _ => map (stop_ray sys 0) solved) (mkGrid 1 (1, 1) (1, 1)) true true = Some (g, r) /\
  omap (apply_transformation (Some t)) (hd_error (trace sys r)) = Some out /\ r_position out = Some (V3 (11/4) 1 1).
Proof.
  destruct moved_launch as (a & E & T).
  exists moved, (mkRigid mid (V3 0 0 1)), [slant_ray 0 (-1) 0; slant_ray 2 1 0], (mkGrid 1 (2, 1) a), (launch moved (mkGrid 1 (2, 1) a)), (slant_ray (11/4) 1 1).
  rewrite map_moved. repeat split; auto.
Qed.
Print Assumptions C41_moved_refuted.

Example C41_nonvacuous : exists an,
  positions_are (c_stops simple_config 1) [V3 (-1) (-1) 0; V3 1 1 0] /\ angles_are (c_stops simple_config 1) an /\
  is_extreme true (map vx [V3 (-1) (-1) 0; V3 1 1 0]) 1 /\ is_extreme false (map vy [V3 (-1) (-1) 0; V3 1 1 0]) (-1) /\
  (forall t, sys_transformation simple = Some t -> keeps_height t) /\ st_surface (sys_object simple) = window (shift (V3 0 0 0)) /\
  exists ma mb, is_extreme true (map fst an) ma /\ is_extreme true (map snd an) mb /\ cos mb * cos ma <> 0.
Proof.
  destruct on_axis_angles as (a & A & D). exists [a; a].
  split; [reflexivity|]. split; [unfold angles_are; cbn [c_stops simple_config map axis_ray r_direction obind]; rewrite A; reflexivity|].
  split; [split; [cbn; auto|cbn; intros x [<-|[<-|[]]]; lra]|].
  split; [split; [cbn; auto|cbn; intros x [<-|[<-|[]]]; lra]|].
  split; [discriminate|]. split; [reflexivity|].
  exists (fst a), (snd a).
  split; [split; [cbn; auto|cbn; intros x [<-|[<-|[]]]; lra]|].
  split; [split; [cbn; auto|cbn; intros x [<-|[<-|[]]]; lra]|].
  apply (f_equal vz) in D. cbn in D. rewrite D. lra.
Qed.

(** ** C42 *)

(** Missing for the full claim: histories with an implicit call that sets the intensity, for
    which it is false. *)
Theorem C42_harmless_partial : forall c g l, List.Forall harmless l ->
  (forall a, snd (raytrace c (history c (fresh g) l) a) = snd (raytrace c (fresh g) a)) /\
  (forall a, snd (rayfunction c (history c (fresh g) l) a) = snd (rayfunction c (fresh g) a)) /\
  snd (rayfunction_default c (history c (fresh g) l)) = rayfunction_of c g.
Proof. exact harmless_history. Qed.
Print Assumptions C42_harmless_partial.

(** Calls with explicit wavelength, field or pupil depend on nothing but [grid_input], in
    every state, and change nothing. *)
Theorem C42_explicit_partial : forall c s a, explicit_grid a ->
  snd (raytrace c s a) = snd (raytrace c (fresh (s_grid s)) a) /\
  snd (rayfunction c s a) = snd (rayfunction c (fresh (s_grid s)) a) /\
  fst (raytrace c s a) = s.
Proof. exact explicit_history. Qed.
Print Assumptions C42_explicit_partial.

(** [raytrace(intensity=5)] followed by [raytrace()] still has the intensity 5. *)
Theorem C42_history_refuted : exists c g l a,
  snd (raytrace c (history c (fresh g) l) a) <> snd (raytrace c (fresh g) a).
Proof. exact intensity_remembered. Qed.
Print Assumptions C42_history_refuted.

Example C42_nonvacuous :
  List.Forall harmless [Default; Raytrace no_args; Raytrace (mkArgs (Some 5) (Some 2) None None true true); DelDefault] /\
  explicit_grid (mkArgs (Some 5) (Some 2) None None true true).
Proof.
  split.
  - repeat apply List.Forall_cons; cbn; auto.
    + apply no_args_harmless.
    + intros (_ & H & _). discriminate.
  - left. discriminate.
Qed.

(** ** C43 *)

(** Missing for the full claim: the documented [del system.rayfunction_default] alone. *)
Theorem C43_cleared_partial : forall c s g,
  snd (rayfunction_default c (history c s [SetGrid g; DelDefault; DelInput])) = rayfunction_of c g.
Proof. exact cleared_default. Qed.
Print Assumptions C43_cleared_partial.

(** The documented deletion suffices while only calls with an explicit grid have been made. *)
Theorem C43_documented_partial : forall c l g0 g, List.Forall explicit_call l ->
  snd (rayfunction_default c (history c (fresh g0) (l ++ [SetGrid g; DelDefault]))) = rayfunction_of c g.
Proof. exact documented_default. Qed.
Print Assumptions C43_documented_partial.

Theorem C43_documented_refuted : exists c g0 g,
  snd (rayfunction_default c (history c (fresh g0) [Default; SetGrid g; DelDefault])) <> rayfunction_of c g.
Proof. exact old_grid_kept. Qed.
Print Assumptions C43_documented_refuted.

Example C43_nonvacuous :
  List.Forall explicit_call [Raytrace (mkArgs None (Some 2) None None true true)] /\
  exists d, rayfunction_of simple_config (simple_grid 2) = Some d.
Proof.
  split.
  - apply List.Forall_cons; [left; discriminate|apply List.Forall_nil].
  - destruct (simple_default 2) as (d & E & _). exists d. exact E.
Qed.

(** ** C44 *)

(** What holds instead: the result is in the coordinates of the system. *)
Theorem C44_system_coordinates_partial : forall sys t r, is_rigid t ->
  trace (with_transformation (Some t) sys) (ray_transform t r) = trace (with_transformation None sys) r.
Proof. exact trace_in_system. Qed.
Print Assumptions C44_system_coordinates_partial.

Theorem C44_global_refuted : exists sys t r, is_rigid t /\
  trace (with_transformation (Some t) sys) (ray_transform t r)
  <> map (ray_transform t) (trace (with_transformation None sys) r).
Proof. exact not_global. Qed.
Print Assumptions C44_global_refuted.

Example C44_nonvacuous : is_rigid (mkRigid tilt (V3 1 2 3)).
Proof. apply ex_tilt. Qed.

(** ** C45 *)

(** [order] is the order in which Python lists a set. *)
Theorem C45_inferred : forall order, (forall l, Permutation (order l) l) ->
  forall shape_w shape_f shape_p shape_sys aw af ap, NoDup shape_w -> NoDup shape_f -> NoDup shape_p ->
  normalize_axis_wavelength order None shape_w shape_sys = Some aw ->
  normalize_axis_field order None aw shape_f shape_sys = Some af ->
  normalize_axis_pupil order None af aw shape_p shape_sys = Some ap ->
  NoDup (aw ++ af ++ ap) /\ (List.length aw <= 1)%nat /\ List.length af = 2%nat /\ List.length ap = 2%nat /\
  (forall x, In x aw <-> In x shape_w /\ ~ In x shape_sys) /\
  (forall x, In x af <-> In x shape_f /\ ~ In x shape_sys /\ ~ In x aw) /\
  (forall x, In x ap <-> In x shape_p /\ ~ In x shape_sys /\ ~ In x aw /\ ~ In x af).
Proof. exact axes_inferred. Qed.
Print Assumptions C45_inferred.

Theorem C45_errors : forall order, (forall l, Permutation (order l) l) ->
  forall shape_w shape_f shape_p shape_sys aw af, NoDup shape_w -> NoDup shape_f -> NoDup shape_p ->
  (normalize_axis_wavelength order None shape_w shape_sys = None <->
     exists x y, x <> y /\ In x shape_w /\ ~ In x shape_sys /\ In y shape_w /\ ~ In y shape_sys) /\
  (normalize_axis_field order None aw shape_f shape_sys = None <->
     ~ exists x y, x <> y /\ forall z, In z shape_f /\ ~ In z shape_sys /\ ~ In z aw <-> z = x \/ z = y) /\
  (normalize_axis_pupil order None af aw shape_p shape_sys = None <->
     ~ exists x y, x <> y /\ forall z, In z shape_p /\ ~ In z shape_sys /\ ~ In z aw /\ ~ In z af <-> z = x \/ z = y).
Proof. exact axes_errors. Qed.
Print Assumptions C45_errors.

Example C45_nonvacuous :
  let order := @rev string in
  (forall l, Permutation (order l) l) /\
  normalize_axis_wavelength order None ["w"; "t"]%string ["t"]%string = Some ["w"]%string /\
  normalize_axis_field order None ["w"]%string ["fx"; "fy"; "w"]%string ["t"]%string = Some ["fy"; "fx"]%string /\
  normalize_axis_pupil order None ["fy"; "fx"]%string ["w"]%string ["px"; "fx"; "py"]%string ["t"]%string
  = Some ["py"; "px"]%string.
Proof. cbv zeta. split; [intros l; apply Permutation_sym, Permutation_rev|]. repeat split. Qed.

(** ** C46 *)

Theorem C46_illumination : forall u,
  (forall l, In l u -> l <> []) -> (exists l, In l u /\ In true l) ->
  exists c, 0 < c /\ illumination u = Some (map (fun l => fraction l * c) u) /\
    rsum (map (fun l => if existsb (fun b => b) l then fraction l * c else 0) u)
      = INR (List.length (filter (existsb (fun b => b)) u)).
Proof. exact illumination_spec. Qed.
Print Assumptions C46_illumination.

Theorem C46_dark : forall u, (forall l, In l u -> l <> [] /\ ~ In true l) -> illumination u = None.
Proof. exact illumination_dark. Qed.
Print Assumptions C46_dark.

Theorem C46_area : forall sys fields bound a,
  List.Forall rigid_surface (map st_surface (surfaces_all sys)) ->
  List.Forall passive (map st_surface (surfaces_all sys)) ->
  (forall cells, In cells fields -> rsum (map fst cells) <= bound /\
     forall x, In x cells -> 0 <= fst x /\ 0 <= r_attenuation (snd x)) ->
  area_effective sys fields = Some a -> 0 <= a <= bound.
Proof. exact area_bounds. Qed.
Print Assumptions C46_area.

Theorem C46_blocked : forall sys s cells1 x cells2, sys_sensor sys = Some s ->
  List.Forall rigid_surface (map st_surface (surfaces_all sys)) ->
  blocked sys (set_intensity (Some (fst x)) (snd x)) ->
  field_area sys (cells1 ++ x :: cells2) = field_area sys (cells1 ++ cells2).
Proof. exact blocked_nothing. Qed.
Print Assumptions C46_blocked.

Example C46_nonvacuous :
  (exists l, In l [[true; false]; [false; false]] /\ In true l) /\ fraction [true; false] = 1 / 2 /\
  area_effective simple [[(3, axis_ray 1 1)]] = Some 3.
Proof.
  split; [exists [true; false]; cbn; tauto|]. split; [unfold fraction; cbn; field|].
  unfold area_effective, field_area. cbn [map fst snd].
  change (set_intensity (Some 3) (axis_ray 1 1)) with (mkRay 1 (Some (V3 1 1 0)) (Some on_axis) (Some 3) 0 1 true).
  rewrite simple_trace. cbn. unfold mean. rewrite NumLemmas.odiv_nz by (cbn; lra). f_equal. cbn. field.
Qed.

(** ** C73 *)

(** Missing for the full claim: several stops of one kind behind the last stop of the other. *)
Theorem C73_reported_pair_partial : forall X (solve : nat -> nat -> bool -> option X) sys steps start x p f,
  separate_stops (surfaces_all sys) -> stops_only solve sys steps start = Done x ->
  index_pupil_stop sys = Some p -> index_field_stop sys = Some f ->
  (forall j s, nth_error (surfaces_all sys) j = Some s -> (p < j < f)%nat -> st_field s = false) ->
  (forall j s, nth_error (surfaces_all sys) j = Some s -> (f < j < p)%nat -> st_pupil s = false) ->
  exists b, solve (Nat.min p f) (Nat.max p f) b = Some x.
Proof. exact stops_pair. Qed.
Print Assumptions C73_reported_pair_partial.

(** The reported field stop is surface 3, the rays are made to meet the edge of surface 2. *)
Theorem C73_reported_pair_refuted : exists sys steps start,
  separate_stops (surfaces_all sys) /\
  stops_only pair_solver sys steps start = Done (1%nat, 2%nat) /\
  index_pupil_stop sys = Some 1%nat /\ index_field_stop sys = Some 3%nat.
Proof.
  exists two_fields, 4%nat, (0%nat, 0%nat). destruct two_fields_wrong as (A & B & C & D). auto.
Qed.
Print Assumptions C73_reported_pair_refuted.

Example C73_nonvacuous :
  separate_stops (surfaces_all simple) /\
  stops_only pair_solver simple 4 (0%nat, 0%nat) = Done (0%nat, 1%nat) /\
  index_pupil_stop simple = Some 1%nat /\ index_field_stop simple = Some 0%nat.
Proof. repeat split. intros s I. cbn in I. destruct I as [<-|[<-|[<-|[]]]]; cbn; discriminate. Qed.

(** ** C74 *)

(** Curved surfaces: [C74_curved_partial] in P_Curved.v.  Missing for the full claim: refracting
    surfaces and gratings, for which it is false. *)
Theorem C74_retraced_partial : forall sys i stop r p d,
  (forall t, sys_transformation sys = Some t -> is_rigid t) ->
  nth_error (surfaces_all sys) i = Some stop ->
  (forall j s, (j <= i)%nat -> nth_error (surfaces_all sys) j = Some s -> plain (st_surface s)) ->
  r_position r = Some p -> r_direction r = Some d -> r_index r = 1 -> is_unit d ->
  vz (local_point (st_surface stop) p) = 0 ->
  r_position (stop_ray sys i r) <> None -> r_direction (stop_ray sys i r) <> None ->
  exists out, nth_error (trace sys (stop_ray sys i r)) i = Some out /\
    r_position out = Some p /\ (r_direction out = Some d \/ r_direction out = Some (vopp d)).
Proof. exact stop_ray_retraced. Qed.
Print Assumptions C74_retraced_partial.

(** A plane of glass before both stops: the ray solved through the point (0, 0, 3) of the
    pupil stop comes back at (-7/12, 0, 3). *)
Theorem C74_retraced_refuted : exists sys r out,
  index_pupil_stop sys = Some 2%nat /\ index_field_stop sys = Some 3%nat /\
  r_position r = Some (V3 0 0 3) /\ (forall d, r_direction r = Some d -> is_unit d) /\ r_index r = 1 /\
  nth_error (trace sys (stop_ray sys 2 r)) 2 = Some out /\ r_position out = Some (V3 (-7/12) 0 3).
Proof.
  exists behind_glass, solved, (mkRay 1 (Some (V3 (-7/12) 0 3)) (Some steep) (Some 1) 0 1 true).
  repeat split; try exact solved_forward; try reflexivity.
  intros d E. injection E as <-. exact steep_unit.
Qed.
Print Assumptions C74_retraced_refuted.

Example C74_nonvacuous :
  nth_error (surfaces_all plain_system) 1 = Some (win 5 false true) /\
  (forall j s, (j <= 1)%nat -> nth_error (surfaces_all plain_system) j = Some s -> plain (st_surface s)) /\
  is_unit steep /\ vz (local_point (st_surface (win 5 false true)) (V3 0 0 5)) = 0 /\
  r_position (stop_ray plain_system 1 plain_solved) = Some (V3 (-20/3) 0 0) /\
  plain (mkSurface plane mirror None None (Some (mkRigid tilt (V3 0 0 5)))).
Proof.
  rewrite plain_back. split; [reflexivity|]. split.
  { intros j s J N. destruct j as [|[|j]]; cbn in N; [injection N as <-; apply window_plain|injection N as <-; apply window_plain|lia]. }
  split; [apply steep_unit|]. split; [unfold local_point; cbn; unfold dot; cbn; ring|]. split; [reflexivity|].
  apply (mirror_plain (mkRigid tilt (V3 0 0 5))). apply ex_tilt.
Qed.
