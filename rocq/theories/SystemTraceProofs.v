(** Proofs about launching rays, caches, coordinates and effective areas. *)
From Coq Require Import String Reals List Bool Arith Permutation Lra Lia.
From Verif Require Import Vec VecLemmas Num NumLemmas RayModel SnellModel SnellProofs SurfaceModel
  MaterialModel SagModel AngleModel AngleProofs SagSpec SequenceSpec SequenceProofs SequenceExamples
  SystemModel SystemSpec SystemProofs.
Import ListNotations.
Open Scope R_scope.
Open Scope opt_scope.

(** * Empty windows *)

Definition window (t : option rigid) : surface := mkSurface plane vacuum None None t.

Lemma window_local : forall t w p d i v, is_unit d -> vz d <> 0 ->
  surface_local (window t) (mkRay w (Some p) (Some d) i 0 1 v)
  = mkRay w (Some (vadd p (vscale (- vz p / vz d) d))) (Some d) i 0 1 v.
Proof.
  intros t w p d i v U Z. unfold surface_local, surface_incident. cbn [sf_rulings sf_sag window].
  replace (sag_propagate plane (mkRay w (Some p) (Some d) i 0 1 v))
    with (mkRay w (Some (vadd p (vscale (- vz p / vz d) d))) (Some d) i 0 1 v).
  2:{ unfold sag_propagate. cbn [r_position r_direction obind r_attenuation r_intensity].
      rewrite (plane_intercept _ _ _ Z eq_refl). cbn [obind].
      unfold set_intensity, set_position; cbn. f_equal.
      rewrite Ropp_0, Rmult_0_l, exp_0. destruct i; [|reflexivity]. cbn; f_equal; ring. }
  unfold surface_normal, surface_efficiency. cbn.
  rewrite (snells_law_transmit_same d 1) by (auto; lra).
  f_equal; [field|]. destruct i; cbn; [|reflexivity]. f_equal; ring.
Qed.

Definition shift (v : vec3) : option rigid := Some (mkRigid mid v).

Lemma mid_trans : mtrans mid = mid.
Proof. reflexivity. Qed.

Lemma window_shift : forall v w p d i b, is_unit d -> vz d <> 0 ->
  surface_propagate (window (shift v)) (mkRay w (Some p) (Some d) i 0 1 b)
  = mkRay w (Some (vadd p (vscale ((vz v - vz p) / vz d) d))) (Some d) i 0 1 b.
Proof.
  intros v w p d i b U Z. unfold surface_propagate. cbn [sf_transformation window shift apply_inverse apply_transformation].
  unfold ray_transform at 2. cbn [r_wavelength r_position r_direction r_intensity r_attenuation r_index r_unvignetted omap].
  unfold rigid_inv, rigid_point, rigid_vector; cbn [rg_mat rg_shift]. rewrite mid_trans, !mapply_mid.
  fold (shift v). rewrite (window_local (shift v)) by assumption.
  unfold ray_transform, rigid_point, rigid_vector; cbn. rewrite !mapply_mid. f_equal. f_equal.
  apply vec_eq; cbn; field; exact Z.
Qed.
Lemma window_none : forall w p d i b, is_unit d -> vz d <> 0 ->
  surface_propagate (window None) (mkRay w (Some p) (Some d) i 0 1 b)
  = mkRay w (Some (vadd p (vscale (- vz p / vz d) d))) (Some d) i 0 1 b.
Proof. intros. exact (window_local None w p d i b H H0). Qed.

(** * Launching *)

Lemma all_some_map : forall (A : Type) (l : list A), all_some (map Some l) = Some l.
Proof. intros A l. induction l as [|a l IH]; [reflexivity|]. cbn. rewrite IH. reflexivity. Qed.

Lemma ray_xy_positions : forall stops ps, positions_are stops ps ->
  all_some (map ray_xy stops) = Some (map (fun p => (vx p, vy p)) ps).
Proof.
  intros stops ps H. unfold positions_are in H.
  assert (E : map ray_xy stops = map Some (map (fun p => (vx p, vy p)) ps)).
  { transitivity (map (omap (fun p => (vx p, vy p))) (map r_position stops)); [rewrite map_map; reflexivity|].
    rewrite H, !map_map. reflexivity. }
  rewrite E. apply all_some_map.
Qed.
Lemma ray_angles_are : forall stops an, angles_are stops an -> all_some (map ray_angles stops) = Some an.
Proof.
  intros stops an H. unfold angles_are in H. fold (map ray_angles stops). 
  replace (map ray_angles stops) with (map Some an) by (rewrite <- H; reflexivity). apply all_some_map.
Qed.

Lemma extreme_denormalize : forall b l m, is_extreme b l m -> denormalize l (sign_of b) = Some m.
Proof.
  intros b l m H. destruct b; cbn in H.
  - destruct (list_min_spec l) as (mn & _ & M). { intros ->. destruct H as [[] _]. }
    destruct (denormalize_span l mn m M H) as (_ & E & _). exact E.
  - destruct (list_max_spec l) as (mx & _ & M). { intros ->. destruct H as [[] _]. }
    destruct (denormalize_span l m mx H M) as (E & _). exact E.
Qed.

(** A rigid motion of the system that keeps the planes across the axis. *)
Lemma inverse_level : forall sys p d, (forall t, sys_transformation sys = Some t -> keeps_height t) -> is_unit d ->
  exists p' d', (forall w i b, apply_inverse (sys_transformation sys) (mkRay w (Some p) (Some d) i 0 1 b) = mkRay w (Some p') (Some d') i 0 1 b) /\
    vz p' = vz p /\ vz d' = vz d /\ is_unit d'.
Proof.
  intros sys p d T U. destruct (sys_transformation sys) as [t|].
  - destruct (T t eq_refl) as [K H]. exists (rigid_point (rigid_inv t) p), (rigid_vector (rigid_inv t) d). split; [reflexivity|].
    assert (V : forall v, vz (rigid_vector t v) = vz v).
    { intros v. assert (H0 := H vzero). assert (Hv := H v). unfold rigid_point, rigid_vector in *. cbn [vz vadd] in *.
      replace (vz (mapply (rg_mat t) vzero)) with 0 in H0 by (unfold mapply, dot, vzero; cbn; ring). cbn [vz vzero] in H0. lra. }
    repeat split.
    + rewrite <- (H (rigid_point (rigid_inv t) p)), rigid_inv_point_r by exact K. reflexivity.
    + rewrite <- (V (rigid_vector (rigid_inv t) d)), rigid_inv_vector_r by exact K. reflexivity.
    + unfold is_unit in *. rewrite <- U. apply (orthogonal_norm2 _ d). exact (rigid_inv_rigid t K).
  - exists p, d. split; [reflexivity|]. auto.
Qed.
Lemma apply_back : forall sys r, (forall t, sys_transformation sys = Some t -> keeps_height t) ->
  apply_transformation (sys_transformation sys) (apply_inverse (sys_transformation sys) r) = r.
Proof.
  intros sys r T. destruct (sys_transformation sys) as [t|]; [|reflexivity]. exact (ray_transform_inv_r t r (proj1 (T t eq_refl))).
Qed.

Lemma launch_extreme : forall sys z stops ps an w bx bY ba bb mx my ma mb,
  (forall t, sys_transformation sys = Some t -> keeps_height t) ->
  st_surface (sys_object sys) = window None /\ z = 0 \/
  st_surface (sys_object sys) = window (shift (V3 0 0 z)) ->
  positions_are (stops w) ps -> angles_are (stops w) an ->
  is_extreme bx (map vx ps) mx -> is_extreme bY (map vy ps) my ->
  is_extreme ba (map fst an) ma -> is_extreme bb (map snd an) mb ->
  cos mb * cos ma <> 0 ->
  exists g r,
    rayfunction_input sys stops
      (if sys_at_infinity sys then mkGrid w (sign_of ba, sign_of bb) (sign_of bx, sign_of bY)
       else mkGrid w (sign_of bx, sign_of bY) (sign_of ba, sign_of bb)) true true = Some (g, r) /\
    g_wavelength g = w /\
    exists r' l, trace sys r = r' :: l /\
      let out := apply_transformation (sys_transformation sys) r' in
      r_position out = Some (V3 mx my z) /\ r_direction out = Some (direction ma mb) /\
      r_wavelength out = w /\ r_intensity out = Some 1.
Proof.
  intros sys z stops ps an w bx bY ba bb mx my ma mb T O P A Ex Ey Ea Eb C.
  apply extreme_denormalize in Ex, Ey, Ea, Eb.
  assert (D : denormalize_grid sys (stops w)
     (if sys_at_infinity sys then mkGrid w (sign_of ba, sign_of bb) (sign_of bx, sign_of bY)
       else mkGrid w (sign_of bx, sign_of bY) (sign_of ba, sign_of bb)) true true
     = Some (if sys_at_infinity sys then mkGrid w (ma, mb) (mx, my) else mkGrid w (mx, my) (ma, mb))).
  { unfold denormalize_grid. cbn [negb andb]. rewrite (ray_xy_positions _ _ P), (ray_angles_are _ _ A). cbn [obind].
    assert (X : denormalize2 (map (fun p => (vx p, vy p)) ps) (sign_of bx, sign_of bY) = Some (mx, my)).
    { unfold denormalize2. rewrite !map_map. cbn [fst snd]. change (map (fun x => vx x) ps) with (map vx ps). change (map (fun x => vy x) ps) with (map vy ps). rewrite Ex, Ey. reflexivity. }
    assert (Y : denormalize2 an (sign_of ba, sign_of bb) = Some (ma, mb)).
    { unfold denormalize2. cbn [fst snd]. rewrite Ea, Eb. reflexivity. }
    destruct (sys_at_infinity sys); cbn [g_field g_pupil g_wavelength]; rewrite X, Y; reflexivity. }
  set (g := if sys_at_infinity sys then mkGrid w (ma, mb) (mx, my) else mkGrid w (mx, my) (ma, mb)) in *.
  exists g, (launch sys g). split; [|split].
  - unfold rayfunction_input.
    replace (g_wavelength _) with w by (destruct (sys_at_infinity sys); reflexivity).
    rewrite D. reflexivity.
  - unfold g. destruct (sys_at_infinity sys); reflexivity.
  - assert (H : exists o l, surfaces_all sys = o :: l /\ st_surface o = st_surface (sys_object sys)).
    { destruct (surfaces_all_given sys) as [[_ ->]|[_ ->]]; eexists; eexists; split; reflexivity. }
    destruct H as (o & l & E & So).
    unfold trace. rewrite E. cbn [map]. rewrite accumulate_cons, So.
    eexists; eexists. split; [reflexivity|]. cbv zeta.
    assert (L : launch sys g = apply_transformation (sf_transformation (st_surface (sys_object sys)))
       (mkRay w (Some (V3 mx my 0)) (Some (direction ma mb)) (Some 1) 0 1 true)).
    { unfold launch, g. destruct (sys_at_infinity sys); reflexivity. }
    assert (L2 : launch sys g = mkRay w (Some (V3 mx my z)) (Some (direction ma mb)) (Some 1) 0 1 true).
    { rewrite L. destruct O as [[O ->]|O]; rewrite O; [reflexivity|].
      cbn [window sf_transformation apply_transformation shift]. unfold ray_transform, rigid_point, rigid_vector.
      cbn [r_wavelength r_position r_direction r_intensity r_attenuation r_index r_unvignetted omap rg_mat rg_shift].
      rewrite !mapply_mid. repeat f_equal. apply vec_eq; cbn; ring. }
    rewrite L2. assert (U := direction_unit ma mb). assert (Z : vz (direction ma mb) <> 0) by exact C.
    destruct (inverse_level sys (V3 mx my z) (direction ma mb) T U) as (p & d & I & Pz & Dz & Du).
    rewrite (I w (Some 1) true). cbn [vz] in Pz. rewrite <- Dz in Z.
    assert (S : surface_propagate (st_surface (sys_object sys)) (mkRay w (Some p) (Some d) (Some 1) 0 1 true)
      = mkRay w (Some p) (Some d) (Some 1) 0 1 true).
    { destruct O as [[O Oz]|O]; rewrite O.
      - rewrite (window_none _ _ _ _ _ Du Z). f_equal. f_equal. apply vec_eq; cbn; rewrite Pz, Oz; field; exact Z.
      - rewrite (window_shift _ _ _ _ _ _ Du Z). f_equal. f_equal. apply vec_eq; cbn; rewrite Pz; field; exact Z. }
    rewrite S, <- (I w (Some 1) true), (apply_back sys _ T). auto.
Qed.

(** * Caches *)

Lemma implicit_dec : forall a, explicit_grid a \/
  (a_wavelength a = None /\ a_field a = None /\ a_pupil a = None).
Proof.
  intros a. unfold explicit_grid.
  destruct (a_wavelength a); [left; left; discriminate|].
  destruct (a_field a); [left; right; left; discriminate|].
  destruct (a_pupil a); [left; right; right; discriminate|]. right; auto.
Qed.

Lemma explicit_flag : forall a, explicit_grid a ->
  negb (given (a_wavelength a)) && negb (given (a_field a)) && negb (given (a_pupil a)) = false.
Proof.
  intros a [H|[H|H]]; [destruct (a_wavelength a)|destruct (a_field a)|destruct (a_pupil a)]; try congruence; cbn;
    rewrite ?andb_false_r; reflexivity.
Qed.

Lemma explicit_raytrace : forall c s a, explicit_grid a ->
  raytrace c s a = (s, snd (raytrace c (fresh (s_grid s)) a)).
Proof. intros c s a E. unfold raytrace. rewrite (explicit_flag a E). reflexivity. Qed.

Lemma implicit_flag : forall a, a_wavelength a = None /\ a_field a = None /\ a_pupil a = None ->
  negb (given (a_wavelength a)) && negb (given (a_field a)) && negb (given (a_pupil a)) = true.
Proof. intros a (-> & -> & ->). reflexivity. Qed.

(** The states reached from [fresh g] by harmless actions. *)
Definition clean (c : config) (g : grid_point) (s : state) : Prop :=
  s_grid s = g /\
  (forall i, s_input s = Some i -> rayfunction_input (c_system c) (c_stops c) g true true = Some i) /\
  (forall d, s_default s = Some d -> rayfunction_of c g = Some d).

Lemma fresh_clean : forall c g, clean c g (fresh g).
Proof. intros. split; [reflexivity|split; discriminate]. Qed.

Lemma raytrace_clean : forall c g s a, clean c g s ->
  snd (raytrace c s a) = snd (raytrace c (fresh g) a) /\
  (~ implicit_intensity a -> clean c g (fst (raytrace c s a))).
Proof.
  intros c g s a (G & I & D). destruct (implicit_dec a) as [E|E].
  - rewrite (explicit_raytrace c s a E), G. split; [reflexivity|]. intros _. repeat split; assumption.
  - unfold raytrace. rewrite (implicit_flag a E). cbn [fresh s_input s_grid]. rewrite G.
    set (inp := rayfunction_input (c_system c) (c_stops c) g true true) in *.
    destruct (s_input s) as [i|] eqn:Si.
    + rewrite (I i eq_refl). destruct i as [g' r]. split; [reflexivity|].
      intros N. cbn [fst snd]. destruct (a_intensity a) as [x|] eqn:Ai.
      { exfalso. apply N. unfold implicit_intensity. rewrite Ai. repeat split; try tauto. discriminate. }
      split; [reflexivity|split; [|exact D]]. cbn. intros j J. injection J as <-. apply (I _ eq_refl).
    + destruct inp as [[g' r]|] eqn:Ei.
      * split; [reflexivity|]. intros N. cbn [fst snd]. destruct (a_intensity a) as [x|] eqn:Ai.
        { exfalso. apply N. unfold implicit_intensity. rewrite Ai. repeat split; try tauto. discriminate. }
        split; [reflexivity|split; [|exact D]]. cbn. intros j J. injection J as <-. exact Ei.
      * split; [reflexivity|]. intros _. cbn [fst]. split; [exact G|split; [|exact D]]. intros j J. rewrite Si in J. discriminate.
Qed.

Lemma rayfunction_fst : forall c s a, fst (rayfunction c s a) = fst (raytrace c s a).
Proof. intros. unfold rayfunction. destruct (raytrace c s a). reflexivity. Qed.
Lemma rayfunction_snd : forall c s a, snd (rayfunction c s a) =
  let* result := snd (raytrace c s a) in
  let* r := at_sensor (c_system c) (snd result) in Some (fst result, r).
Proof. intros. unfold rayfunction. destruct (raytrace c s a). reflexivity. Qed.

Lemma rayfunction_clean : forall c g s a, clean c g s ->
  snd (rayfunction c s a) = snd (rayfunction c (fresh g) a) /\
  (~ implicit_intensity a -> clean c g (fst (rayfunction c s a))).
Proof.
  intros c g s a C. destruct (raytrace_clean c g s a C) as [H1 H2].
  rewrite !rayfunction_snd, rayfunction_fst, H1. split; auto.
Qed.

Lemma no_args_harmless : ~ implicit_intensity no_args.
Proof. intros [H _]. apply H. reflexivity. Qed.

Lemma rayfunction_fresh : forall c g, snd (rayfunction c (fresh g) no_args) = rayfunction_of c g.
Proof.
  intros c g. rewrite rayfunction_snd. unfold raytrace, rayfunction_of. cbn [no_args a_wavelength a_field a_pupil given negb andb fresh s_input s_grid a_intensity].
  destruct (rayfunction_input (c_system c) (c_stops c) g true true) as [[g' r]|]; reflexivity.
Qed.

Lemma default_clean : forall c g s, clean c g s ->
  snd (rayfunction_default c s) = rayfunction_of c g /\ clean c g (fst (rayfunction_default c s)).
Proof.
  intros c g s C. unfold rayfunction_default. destruct (s_default s) as [d|] eqn:D.
  - split; [symmetry; apply C; exact D|exact C].
  - destruct (rayfunction_clean c g s no_args C) as [H1 H2]. specialize (H2 no_args_harmless).
    rewrite rayfunction_fresh in H1.
    destruct (rayfunction c s no_args) as [s' o]. cbn [fst snd] in H1, H2. subst o.
    destruct (rayfunction_of c g) as [d|] eqn:E; cbn [fst snd]; (split; [reflexivity|]); [|exact H2].
    destruct H2 as (G & I & _). split; [exact G|split; [exact I|]]. cbn. intros d' Hd. congruence.
Qed.

Lemma perform_clean : forall c g s a, clean c g s -> harmless a -> clean c g (perform c s a).
Proof.
  intros c g s a C H. destruct a; cbn [perform harmless] in *.
  - apply raytrace_clean; assumption.
  - apply rayfunction_clean; assumption.
  - apply default_clean; assumption.
  - destruct H.
  - destruct C as (G & I & D). split; [exact G|split; [exact I|discriminate]].
  - destruct C as (G & I & D). split; [exact G|split; [discriminate|exact D]].
Qed.

Lemma history_clean : forall c g l s, clean c g s -> List.Forall harmless l -> clean c g (history c s l).
Proof.
  intros c g l. induction l as [|a l IH]; intros s C H; [exact C|].
  inversion H; subst. cbn. apply IH; [|assumption]. apply perform_clean; assumption.
Qed.

Lemma harmless_history : forall c g l, List.Forall harmless l ->
  (forall a, snd (raytrace c (history c (fresh g) l) a) = snd (raytrace c (fresh g) a)) /\
  (forall a, snd (rayfunction c (history c (fresh g) l) a) = snd (rayfunction c (fresh g) a)) /\
  snd (rayfunction_default c (history c (fresh g) l)) = rayfunction_of c g.
Proof.
  intros c g l H. assert (C := history_clean c g l _ (fresh_clean c g) H). repeat split.
  - intros a. apply raytrace_clean. exact C.
  - intros a. apply rayfunction_clean. exact C.
  - apply default_clean. exact C.
Qed.

Lemma explicit_history : forall c s a, explicit_grid a ->
  snd (raytrace c s a) = snd (raytrace c (fresh (s_grid s)) a) /\
  snd (rayfunction c s a) = snd (rayfunction c (fresh (s_grid s)) a) /\
  fst (raytrace c s a) = s.
Proof.
  intros c s a E. rewrite !rayfunction_snd. rewrite (explicit_raytrace c s a E). auto.
Qed.

Lemma grid_kept : forall c s a, (forall g, a <> SetGrid g) -> s_grid (perform c s a) = s_grid s.
Proof.
  assert (R : forall c s a, s_grid (fst (raytrace c s a)) = s_grid s).
  { intros c s a. unfold raytrace. destruct (_ && _); [|reflexivity].
    destruct (match s_input s with Some i => Some i | None => _ end) as [[g r]|]; reflexivity. }
  intros c s a N. destruct a; cbn [perform]; try reflexivity.
  - apply R.
  - rewrite rayfunction_fst. apply R.
  - unfold rayfunction_default. destruct (s_default s); [reflexivity|].
    destruct (rayfunction c s no_args) as [s' o] eqn:E.
    assert (s_grid s' = s_grid s). { assert (X := rayfunction_fst c s no_args). rewrite E in X. cbn [fst] in X. rewrite X. apply R. }
    destruct o; cbn; assumption.
  - exfalso. apply (N g). reflexivity.
Qed.

Lemma cleared_default : forall c s g,
  snd (rayfunction_default c (history c s [SetGrid g; DelDefault; DelInput])) = rayfunction_of c g.
Proof. intros c s g. apply default_clean. split; [reflexivity|split; discriminate]. Qed.

Lemma explicit_no_input : forall c l s, List.Forall explicit_call l -> s_input s = None ->
  s_input (history c s l) = None.
Proof.
  intros c l. induction l as [|a l IH]; intros s H N; [exact N|].
  inversion H; subst. cbn. apply IH; [assumption|]. destruct a; cbn [explicit_call perform] in *; try contradiction.
  - rewrite explicit_raytrace by assumption. exact N.
  - rewrite rayfunction_fst, explicit_raytrace by assumption. exact N.
Qed.

Lemma documented_default : forall c l g0 g, List.Forall explicit_call l ->
  snd (rayfunction_default c (history c (fresh g0) (l ++ [SetGrid g; DelDefault]))) = rayfunction_of c g.
Proof.
  intros c l g0 g H. unfold history. rewrite fold_left_app. fold (history c (fresh g0) l).
  apply default_clean. cbn. split; [reflexivity|split; [|discriminate]]. cbn.
  rewrite (explicit_no_input c l (fresh g0) H eq_refl). discriminate.
Qed.

(** * Coordinates *)

Lemma trace_in_system : forall sys t r, is_rigid t ->
  trace (with_transformation (Some t) sys) (ray_transform t r) = trace (with_transformation None sys) r.
Proof.
  intros sys t r H. unfold trace, with_transformation, surfaces_all. cbn [sys_transformation sys_object sys_surfaces sys_sensor apply_inverse].
  rewrite ray_transform_inv by exact H. reflexivity.
Qed.

(** * Areas *)

Lemma last_of_last : forall (A : Type) (l : list A) d, l <> [] -> last_of l = Some (last l d).
Proof.
  intros A l d. induction l as [|a [|b l] IH]; intros H; [congruence|reflexivity|].
  rewrite last_of_cons by discriminate. rewrite IH by discriminate. reflexivity.
Qed.

Lemma surfaces_all_nonempty : forall sys, surfaces_all sys <> [].
Proof. intros sys. destruct (surfaces_all_field sys) as (s & I & _). intros E. rewrite E in I. destruct I. Qed.

Lemma trace_last : forall sys r,
  last_of (trace sys r) = Some (propagate_rays surface_propagate (Sequence (map st_surface (surfaces_all sys)))
    (apply_inverse (sys_transformation sys) r)).
Proof.
  intros sys r. unfold trace. set (l := map st_surface (surfaces_all sys)).
  assert (N : l <> []). { unfold l. intros E. apply map_eq_nil in E. exact (surfaces_all_nonempty sys E). }
  destruct (accumulate_spec surface_propagate l (apply_inverse (sys_transformation sys) r)) as (L & _ & La).
  rewrite <- La. apply last_of_last. intros E. rewrite E in L. destruct l; [congruence|discriminate].
Qed.

Lemma inverse_fields : forall t r, r_intensity (apply_inverse t r) = r_intensity r /\
  r_unvignetted (apply_inverse t r) = r_unvignetted r /\ r_attenuation (apply_inverse t r) = r_attenuation r.
Proof. intros [t|] r; repeat split. Qed.

Lemma blocked_flag : forall sys s r, List.Forall rigid_surface (map st_surface (surfaces_all sys)) ->
  sys_sensor sys = Some s -> blocked sys r ->
  exists r', at_sensor sys (trace sys r) = Some r' /\ r_unvignetted r' = false.
Proof.
  intros sys s r R S (i & s0 & r0 & N1 & N2 & P). unfold at_sensor. rewrite S, trace_last. cbn [obind].
  eexists. split; [reflexivity|]. destruct (inverse_fields (sf_transformation (st_surface s))
    (propagate_rays surface_propagate (Sequence (map st_surface (surfaces_all sys))) (apply_inverse (sys_transformation sys) r))) as (_ & -> & _).
  destruct (r_unvignetted _) eqn:E; [|reflexivity].
  apply trace_unvignetted_iff in E; [|exact R]. destruct E as [_ E]. rewrite (E _ _ _ N1 N2) in P. discriminate.
Qed.

Lemma set_intensity_fields : forall i r, r_position (set_intensity i r) = r_position r /\
  r_direction (set_intensity i r) = r_direction r /\ r_attenuation (set_intensity i r) = r_attenuation r /\
  r_intensity (set_intensity i r) = i.
Proof. intros; repeat split. Qed.

Lemma all_some_app : forall (A : Type) (l1 l2 : list (option A)),
  all_some (l1 ++ l2) = let* a := all_some l1 in let* b := all_some l2 in Some (a ++ b).
Proof.
  intros A l1 l2. induction l1 as [|x l1 IH]; cbn.
  - destruct (all_some l2); reflexivity.
  - destruct x; [|reflexivity]. cbn. rewrite IH. destruct (all_some l1); [|reflexivity]. cbn. destruct (all_some l2); reflexivity.
Qed.

Lemma sum_where_app : forall l1 l2,
  sum_where (l1 ++ l2) = let* a := sum_where l1 in let* b := sum_where l2 in Some (a + b).
Proof.
  intros l1 l2. induction l1 as [|[x b] l1 IH]; cbn.
  - destruct (sum_where l2); cbn; [f_equal; ring|reflexivity].
  - destruct b; [|exact IH]. destruct x; [|reflexivity]. cbn. rewrite IH.
    destruct (sum_where l1); [|reflexivity]. cbn. destruct (sum_where l2); [|reflexivity]. cbn. f_equal. ring.
Qed.

Lemma blocked_nothing : forall sys s cells1 x cells2, sys_sensor sys = Some s ->
  List.Forall rigid_surface (map st_surface (surfaces_all sys)) ->
  blocked sys (set_intensity (Some (fst x)) (snd x)) ->
  field_area sys (cells1 ++ x :: cells2) = field_area sys (cells1 ++ cells2).
Proof.
  intros sys s c1 x c2 S R B.
  destruct (blocked_flag sys s _ R S B) as (r' & E & V).
  unfold field_area. rewrite !map_app. cbn [map]. rewrite !all_some_app. cbn [all_some]. rewrite E. cbn [obind].
  destruct (all_some (map _ c1)) as [l1|]; [|reflexivity]. cbn [obind].
  destruct (all_some (map _ c2)) as [l2|]; [|reflexivity]. cbn [obind].
  rewrite !map_app. cbn [map]. rewrite V. rewrite !sum_where_app. reflexivity.
Qed.

Lemma field_area_bounds : forall sys cells a,
  List.Forall rigid_surface (map st_surface (surfaces_all sys)) ->
  List.Forall passive (map st_surface (surfaces_all sys)) ->
  (forall x, In x cells -> 0 <= fst x /\ 0 <= r_attenuation (snd x)) ->
  field_area sys cells = Some a -> 0 <= a <= rsum (map fst cells).
Proof.
  intros sys cells. unfold field_area. induction cells as [|x cells IH]; intros a R P H E.
  - cbn in E. injection E as <-. cbn. lra.
  - cbn [map all_some] in E.
    destruct (at_sensor sys _) as [r|] eqn:As; [|discriminate]. cbn [obind] in E.
    destruct (all_some (map _ cells)) as [rs|] eqn:Al; [|discriminate]. cbn [obind map] in E.
    assert (IH' : forall b, sum_where (map (fun r => (r_intensity r, r_unvignetted r)) rs) = Some b -> 0 <= b <= rsum (map fst cells)).
    { intros b Hb. apply (IH b R P); [intros y Y; apply H; right; exact Y|]. exact Hb. }
    destruct (H x (or_introl eq_refl)) as [X1 X2].
    cbn [sum_where] in E. cbn [map rsum fold_right]. fold (rsum (map fst cells)).
    destruct (r_unvignetted r).
    + destruct (r_intensity r) as [i|] eqn:Ri; [|discriminate]. cbn [obind] in E.
      destruct (sum_where _) as [b|]; [|discriminate]. cbn [obind] in E. injection E as <-.
      specialize (IH' b eq_refl).
      assert (0 <= i <= fst x); [|lra].
      unfold at_sensor in As. destruct (sys_sensor sys) as [s|]; [|discriminate]. cbn [obind] in As.
      rewrite trace_last in As. cbn [obind] in As. injection As as <-.
      rewrite (proj1 (inverse_fields _ _)) in Ri.
      apply (trace_bounded _ R P (apply_inverse (sys_transformation sys) (set_intensity (Some (fst x)) (snd x))) (fst x) i); auto.
      * destruct (inverse_fields (sys_transformation sys) (set_intensity (Some (fst x)) (snd x))) as (_ & _ & ->). exact X2.
      * destruct (inverse_fields (sys_transformation sys) (set_intensity (Some (fst x)) (snd x))) as (-> & _). reflexivity.
    + specialize (IH' a E). lra.
Qed.

Lemma mean_bounds : forall l b m, (forall x, In x l -> 0 <= x <= b) -> mean l = Some m -> 0 <= m <= b.
Proof.
  intros l b m H E. unfold mean in E. apply odiv_some in E. destruct E as (N & -> & _).
  assert (L : 0 < INR (List.length l)).
  { destruct l; [exfalso; apply N; reflexivity|]. apply lt_0_INR. cbn. lia. }
  assert (S : 0 <= rsum l <= INR (List.length l) * b).
  { clear N L. induction l as [|x l IH]; [cbn; lra|]. cbn [rsum fold_right]. fold (rsum l).
    change (List.length (x :: l)) with (S (List.length l)). rewrite S_INR.
    specialize (IH (fun y Y => H y (or_intror Y))). specialize (H x (or_introl eq_refl)). lra. }
  split; [apply Rle_mult_inv_pos; lra|].
  apply (Rmult_le_reg_r (INR (List.length l))); [exact L|]. unfold Rdiv. rewrite Rmult_assoc, Rinv_l, Rmult_1_r by lra. lra.
Qed.

Lemma all_some_in : forall (A B : Type) (f : A -> option B) l r, all_some (map f l) = Some r ->
  forall y, In y r -> exists x, In x l /\ f x = Some y.
Proof.
  intros A B f l. induction l as [|a l IH]; intros r H y Y; cbn in H.
  - injection H as <-. destruct Y.
  - destruct (f a) as [b|] eqn:F; [|discriminate]. cbn in H. destruct (all_some (map f l)) as [r'|]; [|discriminate].
    cbn in H. injection H as <-. destruct Y as [<-|Y]; [exists a; split; [left; reflexivity|exact F]|].
    destruct (IH r' eq_refl y Y) as (x & I & E). exists x. split; [right; exact I|exact E].
Qed.

Lemma area_bounds : forall sys fields bound a,
  List.Forall rigid_surface (map st_surface (surfaces_all sys)) ->
  List.Forall passive (map st_surface (surfaces_all sys)) ->
  (forall cells, In cells fields -> rsum (map fst cells) <= bound /\
     forall x, In x cells -> 0 <= fst x /\ 0 <= r_attenuation (snd x)) ->
  area_effective sys fields = Some a -> 0 <= a <= bound.
Proof.
  intros sys fields bound a R P H E. unfold area_effective in E.
  destruct (all_some (map (field_area sys) fields)) as [areas|] eqn:Al; [|discriminate]. cbn [obind] in E.
  apply (mean_bounds areas bound a); [|exact E]. intros y Y.
  destruct (all_some_in _ _ _ _ _ Al y Y) as (cells & I & F). destruct (H cells I) as [B X].
  assert (Z := field_area_bounds sys cells y R P X F). lra.
Qed.

(** * Illumination *)

Lemma rsum_bool : forall l, rsum (map bool_R l) = INR (List.length (filter (fun b => b) l)).
Proof.
  unfold rsum. induction l as [|[|] l IH]; cbn [map filter fold_right]; [reflexivity| |].
  - change (List.length (true :: filter (fun b => b) l)) with (S (List.length (filter (fun b => b) l))). rewrite S_INR, IH. cbn. ring.
  - rewrite IH. cbn. ring.
Qed.

Lemma mean_bool : forall l, l <> [] -> mean (map bool_R l) = Some (fraction l).
Proof.
  intros l H. unfold mean. rewrite map_length, rsum_bool. apply odiv_nz.
  assert (0 < INR (List.length l)) by (apply lt_0_INR; destruct l; [congruence|cbn; lia]). lra.
Qed.

Lemma fraction_nonneg : forall l, 0 <= fraction l.
Proof. intros l. unfold fraction. destruct l; [cbn; unfold Rdiv; rewrite Rmult_0_l; lra|]. apply Rle_mult_inv_pos; [apply pos_INR|]. apply lt_0_INR. cbn. lia. Qed.
Lemma fraction_pos : forall l, existsb (fun b => b) l = true <-> 0 < fraction l.
Proof.
  intros l. unfold fraction. split.
  - intros H. assert (N : filter (fun b => b) l <> []).
    { apply existsb_exists in H. destruct H as (b & I & E). intros F. assert (In b (filter (fun b => b) l)) by (apply filter_In; auto). rewrite F in H. destruct H. }
    apply Rdiv_lt_0_compat; apply lt_0_INR.
    + destruct (filter _ l); [congruence|cbn; lia].
    + destruct l; [discriminate|cbn; lia].
  - intros H. destruct (existsb _ l) eqn:E; [reflexivity|]. exfalso.
    assert (F : filter (fun b => b) l = []).
    { destruct (filter (fun b => b) l) as [|b r] eqn:F; [reflexivity|]. assert (I : In b (filter (fun b => b) l)) by (rewrite F; left; reflexivity).
      apply filter_In in I. destruct I as [I J]. rewrite (existsb_false_all _ _ _ E b I) in J. discriminate. }
    rewrite F in H. cbn in H. unfold Rdiv in H. rewrite Rmult_0_l in H. lra.
Qed.

Lemma fraction_lit : forall l, existsb (fun b => b) l = false -> fraction l = 0.
Proof.
  intros l H. assert (N := fraction_nonneg l). destruct (Req_dec (fraction l) 0) as [E|E]; [exact E|].
  assert (P : 0 < fraction l) by lra. apply fraction_pos in P. congruence.
Qed.

Lemma all_some_fraction : forall u, (forall l, In l u -> l <> []) ->
  all_some (map (fun l => mean (map bool_R l)) u) = Some (map fraction u).
Proof.
  intros u H. rewrite <- all_some_map. f_equal. rewrite map_map. apply map_ext_in. intros l I. apply mean_bool. auto.
Qed.

Definition lit_count (u : list (list bool)) : nat := List.length (filter (existsb (fun b => b)) u).

Lemma where_sums : forall u,
  rsum (map (fun x : R * bool => if snd x then fst x else 0) (combine (map fraction u) (map (existsb (fun b => b)) u)))
    = rsum (map fraction u) /\
  rsum (map (fun x : R * bool => bool_R (snd x)) (combine (map fraction u) (map (existsb (fun b => b)) u))) = INR (lit_count u).
Proof.
  induction u as [|l u [IH1 IH2]]; [split; reflexivity|].
  unfold lit_count, rsum in *. cbn [map combine fold_right filter fst snd]. rewrite IH1, IH2. split.
  - destruct (existsb _ l) eqn:E; [reflexivity|]. rewrite (fraction_lit l E). reflexivity.
  - destruct (existsb _ l) eqn:E; cbn [bool_R]; [|ring].
    change (List.length (l :: filter (existsb (fun b => b)) u)) with (S (List.length (filter (existsb (fun b => b)) u))).
    rewrite S_INR. ring.
Qed.

Lemma sum_fraction_pos : forall u, (exists l, In l u /\ existsb (fun b => b) l = true) -> 0 < rsum (map fraction u).
Proof.
  intros u (l & I & E). induction u as [|a u IH]; [destruct I|]. cbn [map rsum fold_right]. fold (rsum (map fraction u)).
  assert (0 <= rsum (map fraction u)) by (apply rsum_map_nonneg; intros; apply fraction_nonneg).
  assert (0 <= fraction a) by apply fraction_nonneg.
  destruct I as [<-|I]; [apply fraction_pos in E; lra|]. specialize (IH I). lra.
Qed.

Lemma all_some_div : forall l m, m <> 0 -> all_some (map (fun x => odiv x m) l) = Some (map (fun x => x / m) l).
Proof.
  intros l m H. rewrite <- all_some_map. f_equal. rewrite map_map. apply map_ext. intros x. apply odiv_nz. exact H.
Qed.

Lemma illumination_spec : forall u,
  (forall l, In l u -> l <> []) -> (exists l, In l u /\ In true l) ->
  exists c, 0 < c /\ illumination u = Some (map (fun l => fraction l * c) u) /\
    rsum (map (fun l => if existsb (fun b => b) l then fraction l * c else 0) u)
      = INR (List.length (filter (existsb (fun b => b)) u)).
Proof.
  intros u H (l0 & I0 & T0).
  assert (L : exists l, In l u /\ existsb (fun b => b) l = true).
  { exists l0. split; [exact I0|]. apply existsb_exists. exists true. auto. }
  assert (P := sum_fraction_pos u L).
  assert (Q : 0 < INR (lit_count u)).
  { apply lt_0_INR. unfold lit_count. destruct L as (l & I & E). assert (J : In l (filter (existsb (fun b => b)) u)) by (apply filter_In; auto).
    destruct (filter _ u); [destruct J|cbn; lia]. }
  destruct (where_sums u) as [S1 S2].
  exists (INR (lit_count u) / rsum (map fraction u)). split; [apply Rdiv_lt_0_compat; assumption|]. split.
  - unfold illumination. rewrite all_some_fraction by exact H. cbn [obind].
    unfold mean_where. rewrite S1, S2. rewrite odiv_nz by lra. cbn [obind].
    rewrite all_some_div.
    + f_equal. rewrite map_map. apply map_ext. intros l. field. lra.
    + apply Rgt_not_eq. apply Rdiv_lt_0_compat; assumption.
  - transitivity (rsum (map (fun l => (INR (lit_count u) / rsum (map fraction u)) * fraction l) u)).
    + apply rsum_map_ext. intros l _. destruct (existsb _ l) eqn:E; [ring|]. rewrite (fraction_lit l E). ring.
    + rewrite rsum_map_scale. fold (lit_count u). field. lra.
Qed.

Lemma illumination_dark : forall u, (forall l, In l u -> l <> [] /\ ~ In true l) -> illumination u = None.
Proof.
  intros u H. unfold illumination. rewrite all_some_fraction by (intros l I; apply H; exact I). cbn [obind].
  unfold mean_where. destruct (where_sums u) as [_ ->].
  replace (lit_count u) with 0%nat; [rewrite odiv_0; reflexivity|].
  unfold lit_count. replace (filter (existsb (fun b => b)) u) with (@nil (list bool)); [reflexivity|].
  symmetry. destruct (filter _ u) as [|l r] eqn:E; [reflexivity|].
  assert (I : In l (filter (existsb (fun b => b)) u)) by (rewrite E; left; reflexivity).
  apply filter_In in I. destruct I as [I J]. apply existsb_exists in J. destruct J as (b & B & ->).
  exfalso. apply (H l I). exact B.
Qed.
