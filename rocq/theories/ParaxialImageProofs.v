(** Images of centred systems, and a paraboloid that loses rays near its vertex. *)
From Coq Require Import Reals Lra Psatz List Bool.
From Coquelicot Require Import Coquelicot.
From Verif Require Import Vec VecLemmas Num NumLemmas RayModel SnellModel SurfaceModel SagModel ParaxialSpec ParaxialProofs.
Import ListNotations.
Open Scope R_scope.
Open Scope opt_scope.

(** ** The invariant *)
Lemma gauss_step_invariant v s s' : px_index s' = px_index s -> px_z s' = px_z s -> vt_index v <> 0 ->
  invariant (gauss_step v s) (gauss_step v s') = invariant s s' /\ px_index (gauss_step v s') = px_index (gauss_step v s) /\ px_z (gauss_step v s') = px_z (gauss_step v s).
Proof.
  intros I Z N. split; [|split; reflexivity]. unfold invariant, gauss_step. cbn [px_index px_z px_h px_w]. rewrite I, Z. field. exact N.
Qed.
Lemma vertices_nonzero solver n ss l l' : n <> 0 -> are_vertices solver n ss l l' -> List.Forall (fun v => vt_index v <> 0) l /\ List.Forall (fun v => vt_index v <> 0) l'.
Proof.
  intros N H. induction H as [n | n s ss v v' l l' V A IH]; [split; constructor|].
  destruct V as (k & cx & cy & e & _ & _ & _ & _ & _ & _ & _ & VI & BO).
  assert (X : vt_index v <> 0) by (destruct BO as [(_ & _ & ->) | (_ & X & _)]; [lra | exact X]).
  destruct (IH X) as [I1 I2]. split; constructor; try assumption. rewrite VI. exact X.
Qed.
Lemma gauss_invariant l : forall s s', List.Forall (fun v => vt_index v <> 0) l -> px_index s' = px_index s -> px_z s' = px_z s ->
  invariant (gauss l s) (gauss l s') = invariant s s'.
Proof.
  unfold gauss. induction l as [|v l IH]; intros s s' F I Z; cbn [fold_left]; [reflexivity|]. inversion F; subst.
  destruct (gauss_step_invariant v s s' I Z H1) as (E & I' & Z'). rewrite IH; assumption.
Qed.
Lemma system_invariant solver ss l l' f g sx sy tx ty : are_vertices solver (px_index sx) ss l l' -> near_axis f sx sy -> near_axis g tx ty ->
  px_index tx = px_index sx -> px_z tx = px_z sx ->
  exists sx' sy' tx' ty', near_axis (fun t => propagate_rays surface_propagate (Sequence ss) (f t)) sx' sy' /\
    near_axis (fun t => propagate_rays surface_propagate (Sequence ss) (g t)) tx' ty' /\
    invariant sx' tx' = invariant sx tx /\ invariant sy' ty' = invariant sy ty.
Proof.
  intros A F G I Z. exists (gauss l sx), (gauss l' sy), (gauss l tx), (gauss l' ty). split; [exact (system_near solver ss l l' f sx sy A F)|].
  split; [apply (system_near solver ss l l' g tx ty); [rewrite I; exact A | exact G]|].
  assert (N : px_index sx <> 0) by exact (proj1 F). destruct (vertices_nonzero _ _ _ _ _ N A) as [F1 F2].
  destruct F as (_ & FI & FZ & _). destruct G as (_ & GI & GZ & _).
  split; apply gauss_invariant; try assumption; [rewrite GI, FI; exact I | rewrite GZ, FZ; exact Z].
Qed.

(** ** One surface and a screen *)
Lemma gauss_image v p s zo c : px_z s = zo -> vt_curvature v = c -> vt_index v <> 0 -> zo <> vt_z v -> vt_z p <> vt_z v ->
  vt_index v / (vt_z p - vt_z v) = px_index s / (zo - vt_z v) + (vt_index v - px_index s) * c ->
  px_h (gauss [v; p] s) = px_index s * (vt_z p - vt_z v) / (vt_index v * (zo - vt_z v)) * px_h s.
Proof.
  intros <- C N A B E. unfold gauss, gauss_step. cbn [fold_left px_index px_z px_h px_w]. rewrite C.
  assert (E' : (vt_index v - px_index s) * c = vt_index v / (vt_z p - vt_z v) - px_index s / (px_z s - vt_z v)) by lra.
  rewrite E'. field. repeat split; lra.
Qed.
Lemma surface_image solver s screen v v' p p' f sx sy : is_vertex solver s (px_index sx) v v' -> is_vertex solver screen (vt_index v) p p' -> near_axis f sx sy ->
  px_z sx <> vt_z v -> vt_z p <> vt_z v ->
  vt_index v / (vt_z p - vt_z v) = px_index sx / (px_z sx - vt_z v) + (vt_index v - px_index sx) * vt_curvature v ->
  exists tx ty, near_axis (fun t => propagate_rays surface_propagate (Sequence [s; screen]) (f t)) tx ty /\ px_z tx = vt_z p /\
    px_h tx = px_index sx * (vt_z p - vt_z v) / (vt_index v * (px_z sx - vt_z v)) * px_h sx /\
    (vt_curvature v' = vt_curvature v -> px_h ty = px_index sx * (vt_z p - vt_z v) / (vt_index v * (px_z sx - vt_z v)) * px_h sy).
Proof.
  intros V P F A B E. assert (AV : are_vertices solver (px_index sx) [s; screen] [v; p] [v'; p']) by (repeat (constructor; try assumption)).
  exists (gauss [v; p] sx), (gauss [v'; p'] sy). split; [exact (system_near solver _ _ _ f sx sy AV F)|]. split; [reflexivity|].
  assert (N : px_index sx <> 0) by exact (proj1 F). destruct (vertices_nonzero _ _ _ _ _ N AV) as [F1 F2]. inversion F1; subst. inversion F2; subst.
  destruct F as (_ & FI & FZ & _). split; [apply (gauss_image v p sx _ (vt_curvature v)); auto|].
  intros C. destruct V as (_ & _ & _ & _ & _ & _ & _ & _ & _ & _ & VZ & VI & _). destruct P as (_ & _ & _ & _ & _ & _ & _ & _ & _ & _ & PZ & PI & _).
  rewrite (gauss_image v' p' sy (px_z sx) (vt_curvature v)); try assumption; rewrite ?FI, ?VZ, ?PZ, ?VI; auto.
Qed.

(** ** Lenses *)
Lemma lens_power solver front back v1 v1' v2 v2' n f sx sy : px_index sx = 1 -> vt_index v1 = n -> 0 < n -> vt_index v2 = 1 ->
  is_vertex solver front 1 v1 v1' -> is_vertex solver back n v2 v2' -> near_axis f sx sy -> px_w sx = 0 ->
  let p1 := (n - 1) * vt_curvature v1 in let p2 := (1 - n) * vt_curvature v2 in let d := vt_z v2 - vt_z v1 in
  exists tx ty, near_axis (fun t => propagate_rays surface_propagate (Sequence [front; back]) (f t)) tx ty /\
    px_w tx = - (p1 + p2 - p1 * p2 * d / n) * px_h sx.
Proof.
  intros I I1 N I2 V1 V2 F W p1 p2 d.
  assert (AV : are_vertices solver (px_index sx) [front; back] [v1; v2] [v1'; v2']) by (rewrite I; constructor; [exact V1|]; constructor; [rewrite I1; exact V2|]; constructor).
  exists (gauss [v1; v2] sx), (gauss [v1'; v2'] sy). split; [exact (system_near solver _ _ _ f sx sy AV F)|].
  unfold gauss, gauss_step. cbn [fold_left px_index px_z px_h px_w]. rewrite I, I1, I2, W. unfold p1, p2, d. field. lra.
Qed.

(** ** A conic with the constant -1 *)
Definition to_vertex (t : R) : ray := mkRay 1 (Some (V3 (- sin t) 0 (- cos t))) (Some (V3 (sin t) 0 (cos t))) (Some 1) 0 1 true.
Lemma to_vertex_near : near_axis to_vertex (mkPx 1 (-1) (-1) 1) (mkPx 1 (-1) 0 0).
Proof.
  unfold near_axis. cbn [px_index px_z px_h px_w]. rewrite (rsign_pos 1) by lra. split; [lra|]. split; [reflexivity|]. split; [reflexivity|].
  exists (fun t => V3 (- sin t) 0 (- cos t)), (fun t => V3 (sin t) 0 (cos t)). cbn [vx vy vz].
  split; [apply filter_forall; intros t; cbn; rewrite Rabs_R1; auto|]. rewrite sin_0, cos_0, Ropp_0.
  split; [f_equal; ring|]. split; [reflexivity|].
  split; [auto_derive; [exact I | rewrite cos_0; ring]|]. split; [auto_derive; [exact I | ring]|].
  split; [auto_derive; [exact I | rewrite cos_0; ring]|]. split; [auto_derive; [exact I | ring]|].
  split; apply continuity_pt_filterlim; [apply continuity_pt_opp|]; apply continuity_cos.
Qed.
Lemma paraboloid_loses r : r <> 0 -> exists d, 0 < d /\ forall t, 0 < t < d -> conic_intercept r (-1) (V3 (- sin t) 0 (- cos t)) (V3 (sin t) 0 (cos t)) = None.
Proof.
  intros R0. set (c := 1 / r). assert (C0 : c <> 0) by (unfold c; apply Rmult_integral_contrapositive; split; [lra | apply Rinv_neq_0_compat; exact R0]).
  assert (CS : cont sin 0) by (split; [exact sin_0 | apply continuity_sin]). assert (CC : cont cos 1) by (split; [exact cos_0 | apply continuity_cos]).
  assert (K1 : cont (fun t => Rabs (c * (sin t * sin t))) 0).
  { apply (cont_value _ (Rabs (c * (0 * 0)))); [apply cont_abs; ct | rewrite !Rmult_0_r; apply Rabs_R0]. }
  assert (K2 : cont (fun t => c * (sin t * sin t) + cos t) 1) by (eapply cont_value; [ct | ring]).
  set (q := fun t => c * (sin t * sin t) / (2 * (c * (sin t * sin t) + cos t))).
  assert (K3 : cont (fun t => c * q t * (sin t * sin t) + cos t) 1).
  { eapply cont_value; [apply cont_plus; [apply cont_mult; [apply cont_mult; [apply cont_const | unfold q; apply cont_div; [ct | ct | lra]] | ct] | ct]|]. field. }
  assert (P12 : 0 < 1 / 10 ^ 12) by (apply Rdiv_lt_0_compat; [lra | apply pow_lt; lra]).
  destruct (filter_and _ _ (filter_and _ _ (around_lt _ _ _ K1 P12) (cont_pos _ _ K2 Rlt_0_1)) (filter_and _ _ (cont_pos _ _ K3 Rlt_0_1) (cont_pos _ _ CC Rlt_0_1))) as (d & D).
  exists (Rmin d 1). split; [apply Rmin_pos; [apply cond_pos | lra]|]. intros t [T0 T1].
  assert (TD : t < d) by (eapply Rlt_le_trans; [exact T1 | apply Rmin_l]). assert (T2 : t < 1) by (eapply Rlt_le_trans; [exact T1 | apply Rmin_r]).
  destruct (D t) as [[H1 H2] [H3 H4]].
  { unfold ball; cbn; unfold AbsRing_ball, abs, minus, plus, opp; cbn. rewrite Ropp_0, Rplus_0_r, Rabs_right by lra. exact TD. }
  assert (S0 : 0 < sin t) by (apply sin_gt_0; [exact T0 | generalize PI2_1; lra]).
  assert (PY : sin t * sin t + cos t * cos t = 1) by (generalize (sin2_cos2 t); unfold Rsqr; lra).
  unfold conic_intercept. rewrite odiv_nz by exact R0. cbn [obind]. fold c.
  assert (RT : forall sg, conic_root c (-1) (V3 (- sin t) 0 (- cos t)) (V3 (sin t) 0 (cos t)) sg = None).
  { intros sg. unfold conic_root, conic_degenerate. cbv zeta.
    assert (EA : conic_a c (-1) (V3 (sin t) 0 (cos t)) = c * (sin t * sin t)) by (unfold conic_a; cbn [vx vy vz]; ring).
    assert (EB : conic_b c (-1) (V3 (- sin t) 0 (- cos t)) (V3 (sin t) 0 (cos t)) = - (2 * (c * (sin t * sin t) + cos t))) by (unfold conic_b; cbn [vx vy vz]; ring).
    assert (EC : conic_cc c (-1) (V3 (- sin t) 0 (- cos t)) = c * (sin t * sin t) + 2 * cos t) by (unfold conic_cc; cbn [vx vy vz]; ring).
    unfold conic_disc. rewrite EA, EB, EC.
    destruct (Rle_dec 0 _) as [_ | L]; [|reflexivity].
    destruct (Rlt_dec (Rabs (c * (sin t * sin t))) (1 / 10 ^ 12)) as [_ | L]; [|contradiction].
    rewrite odiv_nz by lra. cbn [obind].
    replace (- (c * (sin t * sin t) + 2 * cos t) / - (2 * (c * (sin t * sin t) + cos t))) with (1 - q t) by (unfold q; field; lra).
    unfold ray_at. cbn [vx vy vz vadd vscale].
    destruct (Rle_dec 0 _) as [L | _]; [|reflexivity]. exfalso.
    assert (Q0 : q t <> 0).
    { unfold q. apply Rmult_integral_contrapositive. split; [apply Rmult_integral_contrapositive; split; [exact C0 | nra] | apply Rinv_neq_0_compat; lra]. }
    assert (X : 0 < q t * q t * (cos t * (c * q t * (sin t * sin t) + cos t))).
    { apply Rmult_lt_0_compat; [nra | apply Rmult_lt_0_compat; assumption]. }
    apply (Rle_not_lt _ _ L). 
    match goal with |- ?y < 0 => replace y with (- (q t * q t * (cos t * (c * q t * (sin t * sin t) + cos t)))) by ring end. lra. }
  unfold conic_t. rewrite !RT. reflexivity.
Qed.
Lemma paraboloid_lost solver r s : r <> 0 -> sf_sag s = make_sag solver (ConicSag r (-1)) None -> sf_transformation s = None ->
  exists f sx sy, near_axis f sx sy /\ forall tx ty, ~ near_axis (fun t => surface_propagate s (f t)) tx ty.
Proof.
  intros R0 SG TR. exists to_vertex, (mkPx 1 (-1) (-1) 1), (mkPx 1 (-1) 0 0). split; [exact to_vertex_near|].
  intros tx ty (_ & _ & _ & x & d & L & _). destruct (paraboloid_loses r R0) as (e & E0 & E). destruct L as (e' & L).
  set (t := Rmin e e' / 2). assert (M : 0 < Rmin e e') by (apply Rmin_pos; [exact E0 | apply cond_pos]).
  assert (M1 := Rmin_l e e'). assert (M2 := Rmin_r e e').
  destruct (L t) as (P & _).
  { unfold ball; cbn; unfold AbsRing_ball, abs, minus, plus, opp; cbn. rewrite Ropp_0, Rplus_0_r. unfold t. rewrite Rabs_right by lra. lra. }
  assert (Q : r_position (surface_propagate s (to_vertex t)) = None).
  { unfold surface_propagate. rewrite TR. cbn [apply_inverse apply_transformation]. unfold surface_local, surface_incident.
    assert (X : r_position (sag_propagate (sf_sag s) (to_vertex t)) = None).
    { rewrite SG. unfold sag_propagate, to_vertex. cbn [set_intensity set_position r_position r_direction obind]. unfold make_sag. cbn [sag_intercept].
      unfold sag_intercept_t, class_intercept. apply E. unfold t. lra. }
    destruct (sf_rulings s); destruct (sf_aperture s); cbn; rewrite ?X; unfold set_direction; cbn; exact X. }
  rewrite Q in P. discriminate.
Qed.
