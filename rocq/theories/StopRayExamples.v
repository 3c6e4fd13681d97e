(** Concrete stops: witnesses of the refutations and of the hypotheses. *)
From Coq Require Import Reals List Bool Arith Lra Lia.
From Verif Require Import Vec VecLemmas Num NumLemmas RayModel SurfaceModel SagModel SequenceSpec SequenceProofs SequenceExamples
  SystemModel SystemSpec SystemTraceProofs SystemRetraceProofs SystemExamples StopRayModel StopRaySpec StopRayProofs.
Import ListNotations.
Open Scope R_scope.
Open Scope opt_scope.

(** A plane that does nothing to a ray. *)
Definition pane (t : option rigid) : solver_surface := mkSolver (window t) (fun _ => Some 0) true.
Definition at_z (z : R) : solver_surface := pane (shift (V3 0 0 z)).

Lemma pane_window : forall t, (forall m, t = Some m -> is_rigid m) -> window_plane (pane t).
Proof.
  intros t H. split; [|split; [|split]]; try reflexivity.
  split; [|split; [|split; [|split; [|split]]]]; cbn.
  - unfold rigid_surface. cbn. destruct t as [m|]; [apply H; reflexivity|exact I].
  - reflexivity.
  - intros o u Z. apply (plane_intercept o u _ Z eq_refl).
  - exact plane_none.
  - reflexivity.
  - right. auto.
Qed.
Lemma shifted : forall v m, shift v = Some m -> is_rigid m.
Proof. intros v m E. unfold shift in E. injection E as <-. apply orthogonal_mid. Qed.

(** The direction (0, 3/5, 4/5) on the first stop and the point (1, 0) of the last one. *)
Definition upwards : border := mkBorder Dimensionless 0 (3/5).
Definition beside_axis : border := mkBorder Length 1 0.

Lemma root_16_25 : sqrt (1 - (0 * 0 + 3 / 5 * (3 / 5))) = 4 / 5.
Proof. replace (1 - (0 * 0 + 3 / 5 * (3 / 5))) with (4/5 * (4/5)) by field. apply sqrt_square. lra. Qed.
Lemma unit_z_upwards : unit_z 0 (3/5) = Some (4/5).
Proof. apply unit_z_of; [lra|]. unfold is_unit, norm2, dot. cbn. field. Qed.

(** ** C86: a first stop five units up *)

Lemma tol_lt_1 : forall s, s <= 10 -> 1 / 10 ^ 9 * Rmax s 1 < 1.
Proof.
  intros s H. assert (Rmax s 1 <= 10) by (apply Rmax_lub; lra).
  apply Rle_lt_trans with (1 / 10 ^ 9 * 10); [|lra]. apply Rmult_le_compat_l; [lra|assumption].
Qed.

Lemma raised_ray : exists root r, dependable root /\
  solve_stop root 1 [at_z 5; at_z 10] upwards beside_axis 2 = Some r.
Proof.
  set (r := mkRay 1 (Some (V3 1 (-15/2) 0)) (Some (V3 0 (3/5) (4/5))) (Some 1) 0 1 true).
  destruct (found 1 (at_z 5) [at_z 10] upwards beside_axis 2 r true 1 (-15/2)) as (root & D & E).
  - reflexivity.
  - intros a b. unfold seeded_ray. cbn [b_x b_y upwards]. rewrite unit_z_upwards. unfold put_variable, zfunc, set_position, r.
    cbn. unfold dot. cbn. f_equal. f_equal. apply vec_eq; cbn; unfold dot; cbn; ring.
  - assert (Ar := windows_arrive [] (at_z 10) r (V3 1 (-15/2) 0) (V3 0 (3/5) (4/5))).
    unfold strikes. cbn zeta. unfold position_on. change (last [at_z 10] (at_z 5)) with (at_z 10).
    change [at_z 10] with ([] ++ [at_z 10]). rewrite Ar.
    + exists (V3 1 0 0). split; [cbn; unfold dot; cbn; f_equal; apply vec_eq; cbn; unfold dot; cbn; field|]. cbn.
      replace (1 - 1) with 0 by ring. replace (0 - 0) with 0 by ring. rewrite Rabs_R0. split; apply tolerance_pos.
    + apply Forall_cons; [apply pane_window; exact (shifted _)|apply Forall_nil].
    + reflexivity.
    + reflexivity.
    + reflexivity.
    + unfold is_unit, norm2, dot. cbn. field.
    + apply Forall_cons; [cbn; unfold dot; cbn; lra|apply Forall_nil].
  - exists root, r. auto.
Qed.

(** Whatever the root finder, the ray found is not on the first stop. *)
Lemma raised_off : forall root r, dependable root ->
  solve_stop root 1 [at_z 5; at_z 10] upwards beside_axis 2 = Some r -> ~ starts_from (at_z 5) upwards r.
Proof.
  intros root r D E St. destruct (solved _ _ _ _ _ _ _ _ D E) as (op & tp & x & y & r0 & V & _ & _ & R & _).
  injection V as <-. subst r. destruct St as [(x' & y' & z' & Z & P) _]. cbn in Z. injection Z as <-.
  unfold position_on, put_variable in P. cbn in P. injection P. unfold dot. cbn. intros. lra.
Qed.

(** ** C89: a quarter turn *)

Definition quarter : rigid := mkRigid (M3 (V3 0 0 1) (V3 0 1 0) (V3 (-1) 0 0)) vzero.
Lemma quarter_rigid : is_rigid quarter.
Proof. unfold is_rigid, orthogonal, quarter, mmul, mtrans, mid. cbn. unfold dot. cbn. f_equal; f_equal; ring. Qed.

Definition level : list solver_surface := [pane None; at_z 10].

Lemma level_rigid : Forall (fun s => rigid_surface (ss_surface s)) level.
Proof. repeat (apply Forall_cons; [first [exact I|apply orthogonal_mid]|]). apply Forall_nil. Qed.

Definition level_ray : ray := mkRay 1 (Some (V3 1 (-15/2) 0)) (Some (V3 0 (3/5) (4/5))) (Some 1) 0 1 true.
Lemma level_starts : starts_from (pane None) upwards level_ray.
Proof.
  split.
  - exists 1, (-15/2), 0. split; reflexivity.
  - exists (4/5). split; [lra|]. split; [reflexivity|]. unfold is_unit, norm2, dot. cbn. field.
Qed.
Lemma level_strikes : strikes [at_z 10] (at_z 10) beside_axis 0 level_ray.
Proof.
  assert (Ar := windows_arrive [] (at_z 10) level_ray (V3 1 (-15/2) 0) (V3 0 (3/5) (4/5))).
  unfold strikes. cbn zeta. unfold position_on. change [at_z 10] with ([] ++ [at_z 10]). rewrite Ar.
  - exists (V3 1 0 0). split; [cbn; unfold dot; cbn; f_equal; apply vec_eq; cbn; unfold dot; cbn; field|]. cbn.
    replace (1 - 1) with 0 by ring. replace (0 - 0) with 0 by ring. rewrite Rabs_R0. split; lra.
  - apply Forall_cons; [apply pane_window; exact (shifted _)|apply Forall_nil].
  - reflexivity.
  - reflexivity.
  - reflexivity.
  - unfold is_unit, norm2, dot. cbn. field.
  - apply Forall_cons; [cbn; unfold dot; cbn; lra|apply Forall_nil].
Qed.
Lemma strikes_weaken : forall rest s g a b r, a <= b -> strikes rest s g a r -> strikes rest s g b r.
Proof. intros rest s g a b r L (v & V & X & Y). exists v. split; [exact V|]. split; lra. Qed.

Lemma level_found : exists root, dependable root /\ solve_stop root 1 level upwards beside_axis 2 = Some level_ray.
Proof.
  apply (found_angle 1 (pane None) [at_z 10] upwards beside_axis 2 level_ray); try reflexivity.
  - repeat split.
  - exact level_starts.
  - apply (strikes_weaken _ _ _ 0); [apply tolerance_pos|exact level_strikes].
Qed.

(** Turned by a quarter, the rays run in the plane in which they are moved about. *)
Lemma turned_lost : forall root, dependable root ->
  solve_stop root 1 (map (move_solver quarter) level) upwards beside_axis 2 = None.
Proof.
  intros root D. destruct (solve_stop root 1 _ upwards beside_axis 2) as [r|] eqn:E; [exfalso|reflexivity].
  assert (Sk := E). cbn [map level] in Sk. apply solved_strikes in Sk; [|exact D].
  cbn [map level] in E. destruct (solved _ _ _ _ _ _ _ _ D E) as (op & tp & x & y & r0 & V & _ & R0 & R & _).
  injection V as <-.
  assert (P : r_position r = Some (V3 x y 0)) by (rewrite R; reflexivity).
  assert (Q : r_direction r = Some (V3 (4/5) (3/5) 0)).
  { rewrite R, R0. unfold seeded_ray. cbn [b_x b_y upwards]. rewrite unit_z_upwards. cbn. unfold dot. cbn. f_equal. apply vec_eq; cbn; unfold dot; cbn; ring. }
  assert (I : r_index r = 1) by (rewrite R, R0; reflexivity).
  assert (Rm : forall m, Some (rigid_compose quarter (mkRigid mid (V3 0 0 10))) = Some m -> is_rigid m).
  { intros m M. injection M as <-. apply rigid_compose_rigid; [exact quarter_rigid|apply orthogonal_mid]. }
  assert (Ar := windows_arrive [] (move_solver quarter (at_z 10)) r (V3 x y 0) (V3 (4/5) (3/5) 0)).
  destruct Sk as (v & Vv & X & _). cbn [b_unit beside_axis] in Vv. unfold position_on in Vv.
  change [move_solver quarter (at_z 10)] with ([] ++ [move_solver quarter (at_z 10)]) in Vv. rewrite Ar in Vv.
  - cbn [omap app last] in Vv. injection Vv as <-. revert X.
    match goal with |- context [vscale ?k _] => generalize k end. intros k. cbn. repeat (unfold dot; cbn).
    match goal with |- Rabs ?a <= _ -> _ => replace a with (- (1)) by ring end.
    rewrite Rabs_Ropp, Rabs_R1. intros X. assert (T := tol_lt_1 2 ltac:(lra)). cbn in T. lra.
  - apply Forall_cons; [apply (pane_window _ Rm)|apply Forall_nil].
  - exact P.
  - exact Q.
  - exact I.
  - unfold is_unit, norm2, dot. cbn. field.
  - apply Forall_cons; [cbn; unfold dot; cbn; lra|apply Forall_nil].
Qed.

(** ** C90: a first stop that looks backwards *)

Definition half : rigid := mkRigid (M3 (V3 (-1) 0 0) (V3 0 1 0) (V3 0 0 (-1))) vzero.
Lemma half_rigid : is_rigid half.
Proof. unfold is_rigid, orthogonal, half, mmul, mtrans, mid. cbn. unfold dot. cbn. f_equal; f_equal; ring. Qed.

Definition centre : border := mkBorder Length 0 0.
Definition aside : border := mkBorder Length 3 0.
Definition backwards : list solver_surface := [pane (Some half); at_z (-4)].

Lemma backwards_found : exists root r, dependable root /\ solve_stop root 1 backwards centre aside 6 = Some r.
Proof.
  set (r := mkRay 1 (Some vzero) (Some (V3 (-3/5) 0 (4/5))) (Some 1) 0 1 true).
  destruct (found_length 1 (pane (Some half)) [at_z (-4)] centre aside 6 r (V3 (-3/5) 0 (4/5))) as (root & D & E).
  - exact half_rigid.
  - reflexivity.
  - repeat split.
  - split.
    + exists 0. split; [reflexivity|]. cbn. unfold dot. cbn. f_equal. apply vec_eq; cbn; unfold dot; cbn; ring.
    + exists (V3 (-3/5) 0 (4/5)). split; [reflexivity|]. unfold is_unit, norm2, dot. cbn. field.
  - reflexivity.
  - cbn. lra.
  - assert (Ar := windows_arrive [] (at_z (-4)) r vzero (V3 (-3/5) 0 (4/5))).
    unfold strikes. cbn zeta. unfold position_on. change (last [at_z (-4)] (pane (Some half))) with (at_z (-4)).
    change [at_z (-4)] with ([] ++ [at_z (-4)]). rewrite Ar.
    + exists (V3 3 0 0). split; [cbn; unfold dot; cbn; f_equal; apply vec_eq; cbn; unfold dot; cbn; field|]. cbn.
      replace (3 - 3) with 0 by ring. replace (0 - 0) with 0 by ring. rewrite Rabs_R0. split; apply tolerance_pos.
    + apply Forall_cons; [apply pane_window; exact (shifted _)|apply Forall_nil].
    + reflexivity.
    + reflexivity.
    + reflexivity.
    + unfold is_unit, norm2, dot. cbn. field.
    + apply Forall_cons; [cbn; unfold dot; cbn; lra|apply Forall_nil].
  - exists root, r. auto.
Qed.

(** The seed: aimed along (-3, 0, 4) in the coordinates of the first stop. *)
Lemma len5 : vlen (V3 (-3) 0 4) = 5.
Proof. unfold vlen, norm2, dot. cbn. replace (-3 * -3 + 0 * 0 + 4 * 4) with (5 * 5) by ring. apply sqrt_square. lra. Qed.

Lemma backwards_seed : forall anchor, seeded_ray 1 (pane (Some half)) (at_z (-4)) anchor true false centre aside
  = mkRay 1 (Some vzero) (Some (V3 (3/5) 0 (-4/5))) (Some 1) 0 1 true.
Proof.
  intros anchor. unfold seeded_ray, aim_point. cbn [b_unit aside ss_sag at_z pane obind b_x b_y centre].
  change (sf_transformation (ss_surface (pane (Some half)))) with (Some half).
  replace (move_point_inv (Some half) (move_point (sf_transformation (ss_surface (at_z (-4)))) (V3 3 0 0))) with (V3 (-3) 0 4)
    by (apply vec_eq; cbn; repeat (unfold dot; cbn); ring).
  unfold seed_direction. replace (vsub (V3 (-3) 0 4) (V3 0 0 0)) with (V3 (-3) 0 4) by (apply vec_eq; cbn; unfold dot; cbn; ring).
  rewrite len5, odiv_nz by lra. cbn [obind]. destruct (Req_EM_T (vz (vscale (1 / 5) (V3 (-3) 0 4))) 0) as [C|_]; [cbn in C; lra|].
  unfold rsign. destruct (Rlt_dec 0 (vz (vscale (1 / 5) (V3 (-3) 0 4)))) as [L|L]; [|exfalso; apply L; cbn; lra].
  unfold apply_transformation, ray_transform. cbn [r_wavelength r_position r_direction r_intensity r_attenuation r_index r_unvignetted omap].
  f_equal; f_equal; apply vec_eq; cbn; unfold dot; cbn; field.
Qed.

Lemma backwards_missed : solve_stop guess_only 1 backwards centre aside 6 = None.
Proof.
  destruct (solve_stop guess_only 1 backwards centre aside 6) as [r|] eqn:E; [exfalso|reflexivity].
  assert (Sk := E). unfold backwards in Sk. apply solved_strikes in Sk; [|exact guess_only_dependable].
  unfold solve_stop, backwards in E. cbn [varies_position targets_position b_unit centre aside obind last] in E.
  change (anchor_index powered [pane (Some half); at_z (-4)]) with 1%nat in E. cbn [nth length Nat.sub Nat.eqb] in E.
  rewrite backwards_seed in E. cbn [r_direction obind vx vy] in E. unfold guess_only in E.
  set (rr := mkRay 1 (Some vzero) (Some (V3 (3/5) 0 (-4/5))) (Some 1) 0 1 true) in *.
  assert (Er : r = put_variable (zfunc (pane (Some half)) false) false (3/5) 0 rr).
  { destruct (ray_error _ _ _ _ _ _ _ (3/5) 0) as [[ex ey]|]; [|discriminate].
    destruct (Rle_dec (Rabs ex) _); [|discriminate]. destruct (Rle_dec (Rabs ey) _); [|discriminate]. cbn [obind fst snd] in E. injection E as <-. reflexivity. }
  assert (Uz : unit_z (3/5) 0 = Some (4/5)) by (apply unit_z_of; [lra|unfold is_unit, norm2, dot; cbn; field]).
  unfold put_variable, zfunc in Er. rewrite Uz in Er. cbn [obind] in Er.
  assert (Ar := windows_arrive [] (at_z (-4)) r vzero (V3 (3/5) 0 (4/5))).
  destruct Sk as (v & V & X & _). cbn [b_unit aside] in V. unfold position_on in V.
  change [at_z (-4)] with ([] ++ [at_z (-4)]) in V. rewrite Ar in V.
  - cbn [omap app last] in V. injection V as <-. revert X. cbn. unfold dot. cbn.
    match goal with |- Rabs ?a <= _ -> _ => replace a with (- (6)) by field end.
    rewrite Rabs_Ropp, Rabs_right by lra. intros X. assert (T := tol_lt_1 6 ltac:(lra)). cbn in T. lra.
  - apply Forall_cons; [apply pane_window; exact (shifted _)|apply Forall_nil].
  - rewrite Er. reflexivity.
  - rewrite Er. reflexivity.
  - rewrite Er. reflexivity.
  - unfold is_unit, norm2, dot. cbn. field.
  - apply Forall_cons; [cbn; unfold dot; cbn; lra|apply Forall_nil].
Qed.
