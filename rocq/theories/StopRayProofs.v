(** Where the stop rays start and arrive. *)
From Coq Require Import Reals List Bool Arith Lra Lia.
From Verif Require Import Vec VecLemmas Num NumLemmas RayModel SnellModel SurfaceModel SequenceSpec SequenceProofs
  SystemSpec SystemModel SystemRetraceProofs StopRayModel StopRaySpec.
Import ListNotations.
Open Scope R_scope.
Open Scope opt_scope.

Lemma blank_local : forall s r, r_position r = None \/ r_direction r = None ->
  r_position (surface_local s r) = None /\ r_direction (surface_local s r) = None.
Proof.
  intros s r H.
  assert (P : r_position (surface_incident s r) = None).
  { unfold surface_incident, rulings_effective. destruct (sf_rulings s); cbn; destruct H as [->|E]; cbn; try reflexivity;
    destruct (r_position r); cbn; try rewrite E; reflexivity. }
  unfold surface_local, surface_normal. rewrite P. cbn [obind].
  destruct (sf_aperture s); cbn; rewrite ?P; split; try reflexivity; destruct (r_direction (surface_incident s r)); reflexivity.
Qed.

Lemma blank_step : forall s r, r_position r = None \/ r_direction r = None ->
  r_position (surface_propagate s r) = None /\ r_direction (surface_propagate s r) = None.
Proof.
  intros s r H. unfold surface_propagate.
  destruct (blank_local s (apply_inverse (sf_transformation s) r)) as [A B].
  { unfold apply_inverse. destruct (sf_transformation s); cbn; [|exact H]. destruct H as [->| ->]; auto. }
  unfold apply_transformation at 1 2. destruct (sf_transformation s); [cbn [ray_transform r_position r_direction]; rewrite A, B|]; auto.
Qed.

Lemma blank_trace : forall ss r, ss <> [] -> r_position r = None \/ r_direction r = None ->
  r_position (propagate_list surface_propagate ss r) = None /\ r_direction (propagate_list surface_propagate ss r) = None.
Proof.
  induction ss as [|s ss IH]; intros r N H; [congruence|]. cbn. destruct (blank_step s r H) as [A B].
  destruct ss as [|s' ss]; [cbn; auto|]. apply IH; [discriminate|auto].
Qed.

Lemma inverse_position : forall s r, r_position (apply_inverse (sf_transformation s) r) = omap (local_point s) (r_position r).
Proof.
  intros s r. unfold apply_inverse, local_point. destruct (sf_transformation s) as [t|]; cbn.
  - apply omap_ext. intros x. unfold rigid_point, rigid_inv. cbn. rewrite mapply_sub. apply vec_eq; cbn; ring.
  - destruct (r_position r); reflexivity.
Qed.
Lemma inverse_direction : forall s r, r_direction (apply_inverse (sf_transformation s) r) = omap (local_vector s) (r_direction r).
Proof.
  intros s r. unfold apply_inverse, local_vector. destruct (sf_transformation s) as [t|]; cbn.
  - reflexivity.
  - destruct (r_direction r); reflexivity.
Qed.
Lemma transformed_position : forall s r, r_position (apply_transformation (sf_transformation s) r) = omap (global_point s) (r_position r).
Proof. intros s r. unfold apply_transformation, global_point. destruct (sf_transformation s); [reflexivity|]. destruct (r_position r); reflexivity. Qed.
Lemma transformed_direction : forall s r, r_direction (apply_transformation (sf_transformation s) r) = omap (global_vector s) (r_direction r).
Proof. intros s r. unfold apply_transformation, global_vector. destruct (sf_transformation s); [reflexivity|]. destruct (r_direction r); reflexivity. Qed.
Lemma local_global_point : forall s p, rigid_surface s -> local_point s (global_point s p) = p.
Proof.
  intros s p H. unfold global_point, local_point, rigid_surface in *. destruct (sf_transformation s) as [t|]; [|reflexivity].
  unfold rigid_point. replace (vsub (vadd (mapply (rg_mat t) p) (rg_shift t)) (rg_shift t)) with (mapply (rg_mat t) p)
    by (apply vec_eq; cbn; ring). apply orthogonal_inv_l. exact H.
Qed.

(** ** The residual *)

Lemma error_some : forall z op rest last tp gl r x y e, ray_error z op rest last tp gl r x y = Some e ->
  exists v, (if tp then position_on last (propagate_list surface_propagate (map ss_surface rest) (put_variable z op x y r))
             else direction_on last (propagate_list surface_propagate (map ss_surface rest) (put_variable z op x y r))) = Some v /\
    e = (vx v - b_x gl, vy v - b_y gl).
Proof.
  intros z op rest last tp gl r x y e H. unfold ray_error in H. rewrite inverse_position, inverse_direction in H.
  unfold position_on, direction_on. destruct tp.
  - destruct (omap _ _) as [v|]; [|discriminate]. cbn in H. injection H as <-. exists v. auto.
  - destruct (omap _ _) as [v|]; [|discriminate]. cbn in H. injection H as <-. exists v. auto.
Qed.

Lemma error_strikes : forall z op rest last gl r x y ex ey tol tp, targets_position gl = Some tp ->
  ray_error z op rest last tp gl r x y = Some (ex, ey) -> Rabs ex <= tol -> Rabs ey <= tol ->
  strikes rest last gl tol (put_variable z op x y r).
Proof.
  intros z op rest last gl r x y ex ey tol tp T E X Y. destruct (error_some _ _ _ _ _ _ _ _ _ _ E) as (v & V & Q).
  injection Q as -> ->. unfold strikes. exists v. unfold targets_position in T.
  destruct (b_unit gl); try discriminate; injection T as <-; auto.
Qed.

(** ** What a solution is *)

Lemma solved : forall root w first rest gf gl scale r, dependable root ->
  solve_stop root w (first :: rest) gf gl scale = Some r ->
  exists op tp x y r0, varies_position gf = Some op /\ targets_position gl = Some tp /\
    r0 = seeded_ray w first (last rest first) (nth (anchor_index powered (first :: rest)) (first :: rest) (last rest first))
           (Nat.eqb (anchor_index powered (first :: rest)) (length (first :: rest) - 1)) op gf gl /\
    r = put_variable (zfunc first op) op x y r0 /\
    exists ex ey, ray_error (zfunc first op) op rest (last rest first) tp gl r0 x y = Some (ex, ey) /\
      Rabs ex <= tolerance scale /\ Rabs ey <= tolerance scale.
Proof.
  intros root w first rest gf gl scale r D H. unfold solve_stop in H.
  destruct (varies_position gf) as [op|] eqn:V; [|discriminate].
  destruct (targets_position gl) as [tp|] eqn:T; [|discriminate]. cbn [obind] in H.
  match type of H with obind ?X _ = _ => destruct X as [[x y]|] eqn:E; [|discriminate] end. cbn [obind fst snd] in H.
  injection H as <-. apply D in E. do 5 eexists. repeat split; try reflexivity. exact E.
Qed.

Lemma solved_strikes : forall root w first rest gf gl scale r, dependable root ->
  solve_stop root w (first :: rest) gf gl scale = Some r ->
  strikes rest (last rest first) gl (1 / 10 ^ 9 * Rmax scale 1) r.
Proof.
  intros root w first rest gf gl scale r D H.
  destruct (solved _ _ _ _ _ _ _ _ D H) as (op & tp & x & y & r0 & V & T & R0 & R & ex & ey & E & X & Y). subst r.
  eapply error_strikes; eauto.
Qed.

Lemma not_blank : forall z op rest last gl r x y e tp, rest <> [] ->
  ray_error z op rest last tp gl r x y = Some e ->
  r_position (put_variable z op x y r) <> None /\ r_direction (put_variable z op x y r) <> None.
Proof.
  intros z op rest last gl r x y e tp N E. destruct (error_some _ _ _ _ _ _ _ _ _ _ E) as (v & V & _).
  assert (M : map ss_surface rest <> []) by (destruct rest; [congruence|discriminate]).
  unfold position_on, direction_on in V.
  split; intros B; destruct (blank_trace (map ss_surface rest) (put_variable z op x y r) M) as [P Q]; auto; rewrite P, Q in V;
    destruct tp; discriminate.
Qed.

Lemma unit_z_some : forall x y z, unit_z x y = Some z -> 0 <= z /\ is_unit (V3 x y z).
Proof.
  intros x y z H. unfold unit_z, osqrt in H. destruct (Rle_dec 0 (1 - (x * x + y * y))) as [L|L]; [|discriminate].
  injection H as <-. split; [apply sqrt_pos|]. unfold is_unit, norm2, dot. cbn. rewrite sqrt_sqrt by exact L. ring.
Qed.
Lemma unit_z_of : forall x y z, 0 <= z -> is_unit (V3 x y z) -> unit_z x y = Some z.
Proof.
  intros x y z P H. unfold is_unit, norm2, dot in H. cbn in H. unfold unit_z, osqrt.
  assert (E : 1 - (x * x + y * y) = z * z) by lra. rewrite E.
  destruct (Rle_dec 0 (z * z)) as [L|L]; [rewrite sqrt_square by exact P; reflexivity|]. exfalso. apply L. apply Rle_0_sqr.
Qed.

Lemma solved_starts_length : forall root w first rest gf gl scale r, dependable root ->
  rigid_surface (ss_surface first) -> rest <> [] -> b_unit gf = Length ->
  solve_stop root w (first :: rest) gf gl scale = Some r -> starts_from first gf r.
Proof.
  intros root w first rest gf gl scale r D Rg N U H.
  destruct (solved _ _ _ _ _ _ _ _ D H) as (op & tp & x & y & r0 & V & T & R0 & R & ex & ey & E & _ & _).
  unfold varies_position in V. rewrite U in V. injection V as <-.
  destruct (not_blank _ _ _ _ _ _ _ _ _ _ N E) as [P Q]. rewrite <- R in P, Q.
  unfold starts_from. rewrite U. rewrite R0 in R. subst r. unfold seeded_ray, put_variable, zfunc in *. cbn in P, Q. cbn [r_direction set_direction r_position].
  unfold position_on. cbn [r_position set_direction]. rewrite transformed_position in *. cbn [r_position] in *.
  destruct (ss_sag first (V3 (b_x gf) (b_y gf) 0)) as [z|]; [|cbn in P; congruence]. cbn [obind omap] in *. split.
  - exists z. split; [reflexivity|]. rewrite local_global_point by exact Rg. reflexivity.
  - destruct (unit_z x y) as [z'|] eqn:Z; [|cbn in Q; congruence]. cbn. exists (V3 x y z'). split; [reflexivity|].
    apply unit_z_some. exact Z.
Qed.

Lemma solved_angle : forall root w first rest gf gl scale r, dependable root ->
  rigid_surface (ss_surface first) -> rest <> [] -> b_unit gf = Dimensionless ->
  solve_stop root w (first :: rest) gf gl scale = Some r ->
  exists z, 0 <= z /\ direction_on first r = Some (V3 (b_x gf) (b_y gf) z) /\ is_unit (V3 (b_x gf) (b_y gf) z).
Proof.
  intros root w first rest gf gl scale r D Rg N U H.
  destruct (solved _ _ _ _ _ _ _ _ D H) as (op & tp & x & y & r0 & V & T & R0 & R & ex & ey & E & _ & _).
  unfold varies_position in V. rewrite U in V. injection V as <-.
  destruct (not_blank _ _ _ _ _ _ _ _ _ _ N E) as [P Q]. rewrite <- R in P, Q.
  rewrite R0 in R. subst r. unfold seeded_ray, put_variable in *. unfold direction_on. cbn [r_direction set_position] in *.
  rewrite transformed_direction in *. cbn [r_direction] in *.
  destruct (unit_z (b_x gf) (b_y gf)) as [z|] eqn:Z; [|cbn in Q; congruence]. cbn [obind omap] in *.
  exists z. rewrite local_global_vector by exact Rg. destruct (unit_z_some _ _ _ Z). auto.
Qed.

Lemma solved_starts_angle : forall root w first rest gf gl scale r, dependable root ->
  sf_transformation (ss_surface first) = None -> rest <> [] -> b_unit gf = Dimensionless ->
  solve_stop root w (first :: rest) gf gl scale = Some r -> starts_from first gf r.
Proof.
  intros root w first rest gf gl scale r D Tn N U H.
  assert (Rg : rigid_surface (ss_surface first)) by (unfold rigid_surface; rewrite Tn; exact I).
  unfold starts_from. rewrite U. split; [|eapply solved_angle; eauto].
  destruct (solved _ _ _ _ _ _ _ _ D H) as (op & tp & x & y & r0 & V & T & R0 & R & ex & ey & E & _ & _).
  unfold varies_position in V. rewrite U in V. injection V as <-.
  destruct (not_blank _ _ _ _ _ _ _ _ _ _ N E) as [P Q]. rewrite <- R in P, Q.
  subst r. unfold put_variable, zfunc in *. unfold position_on. cbn [r_position set_position] in *.
  destruct (ss_sag first (V3 x y 0)) as [z|] eqn:Z; [|cbn in P; congruence]. cbn [obind omap].
  exists x, y, z. split; [exact Z|]. unfold local_point. rewrite Tn. reflexivity.
Qed.

(** ** Every stop ray can be found *)

(** The root finder that tries one point. *)
Definition tries (x y : R) : root_finder := fun f _ tol => guess_only f (Some (x, y)) tol.
Lemma guess_only_dependable : dependable guess_only.
Proof.
  intros f guess tol x y H. unfold guess_only in H. destruct guess as [[a b]|]; [|discriminate].
  destruct (f a b) as [[ex ey]|] eqn:E; [|discriminate].
  destruct (Rle_dec (Rabs ex) tol); [|discriminate]. destruct (Rle_dec (Rabs ey) tol); [|discriminate].
  injection H as <- <-. exists ex, ey. auto.
Qed.
Lemma tries_dependable : forall x y, dependable (tries x y).
Proof. intros x y f guess tol a b H. eapply guess_only_dependable. exact H. Qed.
Lemma tries_hit : forall x y f guess tol ex ey, f x y = Some (ex, ey) -> Rabs ex <= tol -> Rabs ey <= tol ->
  tries x y f guess tol = Some (x, y).
Proof.
  intros x y f guess tol ex ey E X Y. unfold tries, guess_only. rewrite E.
  destruct (Rle_dec (Rabs ex) tol); [|contradiction]. destruct (Rle_dec (Rabs ey) tol); [reflexivity|contradiction].
Qed.

Lemma strikes_error : forall z op rest last gl r x y tol, strikes rest last gl tol (put_variable z op x y r) ->
  exists tp, targets_position gl = Some tp /\ exists ex ey, ray_error z op rest last tp gl r x y = Some (ex, ey) /\ Rabs ex <= tol /\ Rabs ey <= tol.
Proof.
  intros z op rest last gl r x y tol (v & V & X & Y). unfold targets_position, ray_error, position_on, direction_on in *.
  destruct (b_unit gl); [| |contradiction]; eexists; (split; [reflexivity|]); rewrite ?inverse_position, ?inverse_direction;
    rewrite V; cbn; eauto.
Qed.

Lemma found : forall w first rest gf gl scale r op x y,
  varies_position gf = Some op ->
  (forall a b, put_variable (zfunc first op) op x y (seeded_ray w first (last rest first) a b op gf gl) = r) ->
  strikes rest (last rest first) gl (tolerance scale) r ->
  exists root, dependable root /\ solve_stop root w (first :: rest) gf gl scale = Some r.
Proof.
  intros w first rest gf gl scale r op x y V Rr S. exists (tries x y). split; [apply tries_dependable|].
  unfold solve_stop. rewrite V. cbn [obind].
  set (a := nth _ _ _). set (b := Nat.eqb _ _). specialize (Rr a b). rewrite <- Rr in S.
  destruct (strikes_error _ _ _ _ _ _ _ _ _ S) as (tp & T & ex & ey & E & X & Y). rewrite T. cbn [obind].
  rewrite (tries_hit x y _ _ _ ex ey) by assumption. cbn [obind fst snd]. rewrite Rr. reflexivity.
Qed.

Lemma found_length : forall w first rest gf gl scale r d, rigid_surface (ss_surface first) ->
  b_unit gf = Length -> fresh w r -> starts_from first gf r -> r_direction r = Some d -> 0 <= vz d ->
  strikes rest (last rest first) gl (1 / 10 ^ 9 * Rmax scale 1) r ->
  exists root, dependable root /\ solve_stop root w (first :: rest) gf gl scale = Some r.
Proof.
  intros w first rest gf gl scale r d Rg U (F1 & F2 & F3 & F4 & F5) St Dr Pz Sk.
  unfold starts_from in St. rewrite U in St. destruct St as [(z & Z & P) (d' & D' & Un)]. rewrite Dr in D'. injection D' as <-.
  apply (found w first rest gf gl scale r false (vx d) (vy d)); [unfold varies_position; rewrite U; reflexivity| |exact Sk].
  intros a b. unfold put_variable, zfunc. destruct d as [dx dy dz]. cbn [vx vy vz] in *. rewrite (unit_z_of dx dy dz Pz Un).
  cbn [obind]. unfold seeded_ray. rewrite Z. cbn [obind].
  destruct r as [w0 p0 d0 i0 a0 n0 v0]. cbn in *. subst. unfold position_on in P. cbn in P.
  destruct p0 as [p0|]; [|discriminate]. cbn in P. injection P as P.
  unfold set_direction. rewrite transformed_position. cbn [r_position omap]. rewrite <- P, global_local_point by exact Rg.
  unfold apply_transformation. destruct (sf_transformation (ss_surface first)); reflexivity.
Qed.

Lemma found_angle : forall w first rest gf gl scale r, sf_transformation (ss_surface first) = None ->
  b_unit gf = Dimensionless -> fresh w r -> starts_from first gf r ->
  strikes rest (last rest first) gl (1 / 10 ^ 9 * Rmax scale 1) r ->
  exists root, dependable root /\ solve_stop root w (first :: rest) gf gl scale = Some r.
Proof.
  intros w first rest gf gl scale r Tn U (F1 & F2 & F3 & F4 & F5) St Sk.
  unfold starts_from in St. rewrite U in St. destruct St as [(x & y & z & Z & P) (dz & Pz & D & Un)].
  unfold position_on, direction_on, local_point, local_vector in *. rewrite Tn in *.
  apply (found w first rest gf gl scale r true x y); [unfold varies_position; rewrite U; reflexivity| |exact Sk].
  intros a b. unfold put_variable, zfunc. rewrite Z. cbn [obind]. unfold seeded_ray. rewrite (unit_z_of _ _ _ Pz Un), Tn. cbn.
  destruct r as [w0 p0 d0 i0 a0 n0 v0]. cbn in *. subst.
  destruct p0 as [p0|]; [|discriminate]. destruct d0 as [d0|]; [|discriminate]. cbn in *. injection P as ->. injection D as ->. reflexivity.
Qed.

(** ** Moving everything *)

Lemma last_map_solver : forall (f : solver_surface -> solver_surface) l d, last (map f l) (f d) = f (last l d).
Proof. intros f. induction l as [|a l IH]; intros d; [reflexivity|]. destruct l; [reflexivity|]. cbn [map]. change (last (f a :: f s :: map f l) (f d)) with (last (map f (s :: l)) (f d)). rewrite IH. reflexivity. Qed.

Lemma moved_position : forall t s r, is_rigid t -> rigid_surface (ss_surface s) ->
  position_on (move_solver t s) (ray_transform t r) = position_on s r.
Proof.
  intros t s r Ht Hs. unfold position_on. rewrite <- !inverse_position. cbn [ss_surface move_solver].
  rewrite inverse_moved by assumption. reflexivity.
Qed.
Lemma moved_direction : forall t s r, is_rigid t -> rigid_surface (ss_surface s) ->
  direction_on (move_solver t s) (ray_transform t r) = direction_on s r.
Proof.
  intros t s r Ht Hs. unfold direction_on. rewrite <- !inverse_direction. cbn [ss_surface move_solver].
  rewrite inverse_moved by assumption. reflexivity.
Qed.

Lemma moved_starts : forall t s g r, is_rigid t -> rigid_surface (ss_surface s) -> starts_from s g r ->
  starts_from (move_solver t s) g (ray_transform t r).
Proof.
  intros t s g r Ht Hs H. unfold starts_from in *. destruct (b_unit g); [| |exact H].
  - destruct H as [(z & Z & P) (d & D & U)]. split.
    + exists z. split; [exact Z|]. rewrite moved_position; assumption.
    + exists (rigid_vector t d). cbn. rewrite D. split; [reflexivity|]. apply mapply_unit; assumption.
  - destruct H as [(x & y & z & Z & P) (z' & Z' & D & U)]. split.
    + exists x, y, z. split; [exact Z|]. rewrite moved_position; assumption.
    + exists z'. rewrite moved_direction by assumption. auto.
Qed.

Lemma moved_strikes : forall t rest s g tol r, is_rigid t -> rigid_surface (ss_surface s) ->
  Forall (fun s => rigid_surface (ss_surface s)) rest -> strikes rest s g tol r ->
  strikes (map (move_solver t) rest) (move_solver t s) g tol (ray_transform t r).
Proof.
  intros t rest s g tol r Ht Hs Hr (v & V & X & Y). exists v. split; [|auto].
  assert (E : propagate_list surface_propagate (map ss_surface (map (move_solver t) rest)) (ray_transform t r)
    = ray_transform t (propagate_list surface_propagate (map ss_surface rest) r)).
  { rewrite map_map. change (fun x => ss_surface (move_solver t x)) with (fun x => move_surface t (ss_surface x)).
    rewrite <- (map_map ss_surface (move_surface t)).
    apply (trace_move t (map ss_surface rest) Ht). apply Forall_map. exact Hr. }
  destruct (b_unit g); [| |exact V]; rewrite E; [rewrite moved_position|rewrite moved_direction]; assumption.
Qed.

Lemma moved_found : forall t w first rest gf gl scale r d, is_rigid t ->
  Forall (fun s => rigid_surface (ss_surface s)) (first :: rest) ->
  b_unit gf = Length -> fresh w r -> starts_from first gf r -> r_direction r = Some d -> 0 <= vz (rigid_vector t d) ->
  strikes rest (last rest first) gl (1 / 10 ^ 9 * Rmax scale 1) r ->
  exists root, dependable root /\
    solve_stop root w (map (move_solver t) (first :: rest)) gf gl scale = Some (ray_transform t r).
Proof.
  intros t w first rest gf gl scale r d Ht Hr U F St Dr Pz Sk. inversion Hr as [|s l H1 H2]; subst.
  cbn [map]. apply (found_length w _ _ gf gl scale _ (rigid_vector t d)).
  - unfold rigid_surface in *. cbn. destruct (sf_transformation (ss_surface first)); [apply rigid_compose_rigid|]; assumption.
  - exact U.
  - destruct F as (F1 & F2 & F3 & F4 & F5). repeat split; assumption.
  - apply moved_starts; assumption.
  - cbn. rewrite Dr. reflexivity.
  - exact Pz.
  - rewrite last_map_solver. apply moved_strikes; try assumption.
    destruct rest as [|a rest]; [exact H1|]. rewrite Forall_forall in H2. apply (H2 (last (a :: rest) first)).
    clear. revert a. induction rest as [|b l IH]; intros a; [left; reflexivity|]. right. exact (IH b).
Qed.

(** ** The first guess *)

Lemma window_image : forall s d, window_plane s -> image (ss_surface s) d = d.
Proof.
  intros s d ((R & _) & M & _). unfold image, flip. rewrite M. apply global_local_vector. exact R.
Qed.

Lemma windows_trace : forall l r p d, Forall window_plane l -> r_position r = Some p -> r_direction r = Some d ->
  r_index r = 1 -> is_unit d -> Forall (fun s => vz (local_vector (ss_surface s) d) <> 0) l ->
  exists k, r_position (propagate_list surface_propagate (map ss_surface l) r) = Some (vadd p (vscale k d)) /\
    r_direction (propagate_list surface_propagate (map ss_surface l) r) = Some d /\
    r_index (propagate_list surface_propagate (map ss_surface l) r) = 1.
Proof.
  induction l as [|s l IH]; intros r p d W P D N U Z; cbn.
  - exists 0. repeat split; try assumption. rewrite P. f_equal. apply vec_eq; cbn; ring.
  - inversion W as [|s' l' Ws Wl]; subst. inversion Z as [|s' l' Zs Zl]; subst.
    destruct (plain_step (ss_surface s) r p d (proj1 Ws) P D N U) as (_ & A & B). destruct (A Zs) as [A1 A2].
    rewrite window_image in A2 by exact Ws.
    destruct (IH _ _ d Wl A1 A2 B U Zl) as (k & K1 & K2 & K3).
    exists (- vz (local_point (ss_surface s) p) / vz (local_vector (ss_surface s) d) + k). repeat split; try assumption.
    rewrite K1. f_equal. apply vec_eq; cbn; ring.
Qed.

Lemma windows_arrive : forall l s r p d, Forall window_plane (l ++ [s]) -> r_position r = Some p -> r_direction r = Some d ->
  r_index r = 1 -> is_unit d -> Forall (fun s => vz (local_vector (ss_surface s) d) <> 0) (l ++ [s]) ->
  r_position (propagate_list surface_propagate (map ss_surface (l ++ [s])) r)
  = Some (vadd p (vscale (- vz (local_point (ss_surface s) p) / vz (local_vector (ss_surface s) d)) d)).
Proof.
  intros l s r p d W P D N U Z. rewrite Forall_app in W, Z. destruct W as [W Ws], Z as [Z Zs].
  inversion Ws as [|a b Hs _]; subst. inversion Zs as [|a b Hz _]; subst.
  destruct (windows_trace l r p d W P D N U Z) as (k & K1 & K2 & K3).
  rewrite map_app, propagate_app. cbn.
  destruct (plain_step (ss_surface s) _ _ d (proj1 Hs) K1 K2 K3 U) as (_ & A & _). destruct (A Hz) as [A1 _]. rewrite A1. f_equal.
  assert (E := intercept_line (ss_surface s) p d k 1 R1_neq_R0 Hz). cbn zeta in E.
  replace (vscale 1 d) with d in E by (apply vec_eq; cbn; ring). exact E.
Qed.

(** A ray aimed along a line through a point of the last window meets that point. *)
Lemma windows_hit : forall l s r p d q m, Forall window_plane (l ++ [s]) -> r_position r = Some p -> r_direction r = Some d ->
  r_index r = 1 -> is_unit d -> Forall (fun s => vz (local_vector (ss_surface s) d) <> 0) (l ++ [s]) ->
  q = vadd p (vscale m d) -> vz (local_point (ss_surface s) q) = 0 ->
  r_position (propagate_list surface_propagate (map ss_surface (l ++ [s])) r) = Some q.
Proof.
  intros l s r p d q m W P D N U Z Q L. rewrite (windows_arrive l s r p d) by assumption. f_equal.
  rewrite Forall_app in Z. destruct Z as [_ Zs]. inversion Zs as [|a b Hz _]; subst a b.
  assert (E := intercept_line (ss_surface s) p d m 1 R1_neq_R0 Hz). cbn zeta in E.
  replace (vscale 1 d) with d in E by (apply vec_eq; cbn; ring). rewrite <- Q in E. rewrite <- E, L.
  apply vec_eq; cbn; unfold Rdiv; ring.
Qed.

Lemma windows_unpowered : forall l i, Forall window_plane l -> find_from powered i l = None.
Proof.
  induction l as [|s l IH]; intros i W; [reflexivity|]. inversion W as [|a b H1 H2]; subst. cbn.
  destruct H1 as ((_ & G & _) & M & S & _). unfold powered at 1. rewrite M, S, G. cbn. apply IH. exact H2.
Qed.

Lemma nth_last_solver : forall (rest : list solver_surface) first d, nth (length rest) (first :: rest) d = last rest first.
Proof.
  induction rest as [|a l IH]; intros first d; [reflexivity|]. cbn [length]. change (nth (S (length l)) (first :: a :: l) d) with (nth (length l) (a :: l) d).
  rewrite IH, last_cons. reflexivity.
Qed.

Lemma guess_hit : forall f x y tol, f x y = Some (0, 0) -> 0 <= tol -> guess_only f (Some (x, y)) tol = Some (x, y).
Proof.
  intros f x y tol E T. unfold guess_only. rewrite E, Rabs_R0. destruct (Rle_dec 0 tol); [reflexivity|contradiction].
Qed.

Lemma tolerance_pos : forall s, 0 <= tolerance s.
Proof.
  intros s. unfold tolerance. apply Rmult_le_pos; [|assert (H := Rmax_r s 1); lra].
  apply Rlt_le. apply Rdiv_lt_0_compat; [lra|]. apply pow_lt. lra.
Qed.

Lemma upright_vector : forall s d, upright s -> global_vector (ss_surface s) d = d.
Proof.
  intros s d U. unfold upright, global_vector in *. destruct (sf_transformation (ss_surface s)) as [t|]; [|reflexivity].
  unfold rigid_vector. rewrite U. apply vec_eq; cbn; unfold dot; cbn; ring.
Qed.
Lemma upright_rigid : forall s, upright s -> rigid_surface (ss_surface s).
Proof.
  intros s U. unfold upright, rigid_surface in *. destruct (sf_transformation (ss_surface s)) as [t|]; [|exact I].
  unfold is_rigid, orthogonal. rewrite U. unfold mmul, mid, mtrans. cbn. unfold dot. cbn. f_equal; f_equal; ring.
Qed.

Lemma vlen_sq : forall e, vlen e * vlen e = norm2 e.
Proof. intros e. unfold vlen. apply sqrt_sqrt. unfold norm2, dot. nra. Qed.
Lemma vlen_pos : forall e, vz e <> 0 -> 0 < vlen e.
Proof.
  intros e H. unfold vlen. apply sqrt_lt_R0. unfold norm2, dot.
  assert (0 < vz e * vz e) by (apply Rsqr_pos_lt in H; exact H).
  assert (0 <= vx e * vx e) by apply Rle_0_sqr. assert (0 <= vy e * vy e) by apply Rle_0_sqr. lra.
Qed.

(** The seed along [e]: a unit vector along it that points up. *)
Lemma seed_along : forall aim p e, vsub aim p = e -> vz e <> 0 ->
  exists k, k <> 0 /\ seed_direction aim p = Some (vscale k e) /\ is_unit (vscale k e) /\ 0 <= vz (vscale k e).
Proof.
  intros aim p e E Z. assert (L := vlen_pos e Z). assert (Q := vlen_sq e). set (n := vlen e) in *.
  unfold seed_direction. rewrite E. fold n. rewrite odiv_nz by lra. cbn [obind].
  assert (Zq : vz (vscale (1 / n) e) <> 0).
  { cbn. apply Rmult_integral_contrapositive. split; [|exact Z]. unfold Rdiv. rewrite Rmult_1_l. apply Rinv_neq_0_compat. lra. }
  destruct (Req_EM_T (vz (vscale (1 / n) e)) 0) as [C|_]; [contradiction|].
  exists (rsign (vz (vscale (1 / n) e)) * (1 / n)).
  assert (S : rsign (vz (vscale (1 / n) e)) * rsign (vz (vscale (1 / n) e)) = 1 /\ 0 <= rsign (vz (vscale (1 / n) e)) * vz (vscale (1 / n) e)).
  { unfold rsign. destruct (Rlt_dec 0 _) as [H|H]; [split; lra|]. destruct (Rlt_dec _ 0) as [H'|H']; [split; lra|]. exfalso. apply Zq. lra. }
  set (sg := rsign _) in *. destruct S as [S1 S2].
  assert (Kk : sg * (1 / n) * (sg * (1 / n)) * (n * n) = 1).
  { replace (sg * (1 / n) * (sg * (1 / n)) * (n * n)) with (sg * sg) by (field; lra). exact S1. }
  split; [|split; [|split]].
  - intros K. rewrite K in Kk. lra.
  - f_equal. apply vec_eq; cbn; ring.
  - unfold is_unit, norm2, dot in *. cbn. rewrite Q in Kk. etransitivity; [|exact Kk]. ring.
  - cbn in *. lra.
Qed.

Lemma seed_length : forall w first l s gf gl scale z, upright first -> b_unit gf = Length -> b_unit gl = Length ->
  Forall window_plane (l ++ [s]) -> ss_sag first (V3 (b_x gf) (b_y gf) 0) = Some z ->
  let p := global_border first gf z in let q := global_border s gl 0 in
  vz (vsub q p) <> 0 -> Forall (fun s => vz (local_vector (ss_surface s) (vsub q p)) <> 0) (l ++ [s]) ->
  exists r k, solve_stop guess_only w (first :: l ++ [s]) gf gl scale = Some r /\ r_position r = Some p /\ k <> 0 /\ r_direction r = Some (vscale k (vsub q p)) /\ is_unit (vscale k (vsub q p)) /\ r_position (propagate_list surface_propagate (map ss_surface (l ++ [s])) r) = Some q.
Proof.
  intros w first l s gf gl scale z Up Uf Ul W Z p q Ez Zs.
  assert (Ws : window_plane s) by (rewrite Forall_app in W; destruct W as [_ W]; inversion W; assumption).
  assert (Rf := upright_rigid first Up).
  assert (Rs : rigid_surface (ss_surface s)) by apply Ws.
  assert (La : last (l ++ [s]) first = s) by apply last_last.
  assert (Ai : anchor_index powered (first :: l ++ [s]) = length (l ++ [s])).
  { unfold anchor_index. cbn [tl]. rewrite windows_unpowered by exact W. cbn [length]. lia. }
  assert (Gp : global_point (ss_surface first) (V3 (b_x gf) (b_y gf) z) = p) by reflexivity.
  assert (Gq : global_point (ss_surface s) (V3 (b_x gl) (b_y gl) 0) = q) by reflexivity.
  assert (Lq : local_point (ss_surface s) q = V3 (b_x gl) (b_y gl) 0) by (rewrite <- Gq; apply local_global_point; exact Rs).
  assert (Lp : local_point (ss_surface first) p = V3 (b_x gf) (b_y gf) z) by (rewrite <- Gp; apply local_global_point; exact Rf).
  assert (Aim : move_point_inv (sf_transformation (ss_surface first)) q = local_point (ss_surface first) q).
  { unfold move_point_inv, local_point. destruct (sf_transformation (ss_surface first)) as [t|]; [|reflexivity].
    unfold rigid_point, rigid_inv. cbn. rewrite mapply_sub. apply vec_eq; cbn; ring. }
  assert (Sub : vsub (local_point (ss_surface first) q) (local_point (ss_surface first) p) = vsub q p).
  { unfold local_point, upright in *. destruct (sf_transformation (ss_surface first)) as [t|]; [|reflexivity].
    rewrite Up. apply vec_eq; cbn; unfold dot; cbn; ring. }
  destruct (seed_along _ _ _ Sub Ez) as (k & Kn & Sd & Un & Pz).
  set (d := vscale k (vsub q p)) in *.
  set (r := mkRay w (Some p) (Some d) (Some 1) 0 1 true).
  exists r, k.
  assert (Seed : seeded_ray w first s s true false gf gl = r).
  { unfold seeded_ray, aim_point. rewrite Ul, Z. destruct Ws as (_ & _ & _ & Sg). rewrite Sg. cbn [obind].
    fold (global_border s gl 0). change (global_border s gl 0) with q. rewrite Aim, <- Lp, Sd. rewrite Lp.
    unfold r. transitivity (mkRay w (omap (global_point (ss_surface first)) (Some (V3 (b_x gf) (b_y gf) z)))
      (omap (global_vector (ss_surface first)) (Some d)) (Some 1) 0 1 true).
    - unfold apply_transformation, global_point, global_vector. destruct (sf_transformation (ss_surface first)); reflexivity.
    - cbn [omap]. rewrite Gp, upright_vector by exact Up. reflexivity. }
  assert (Hit : r_position (propagate_list surface_propagate (map ss_surface (l ++ [s])) r) = Some q).
  { apply (windows_hit l s r p d q (1 / k)); try reflexivity; try assumption.
    - eapply Forall_impl; [|exact Zs]. intros a Ha. unfold d. rewrite local_vector_scale. cbn. apply Rmult_integral_contrapositive. auto.
    - unfold d. apply vec_eq; cbn; field; exact Kn.
    - rewrite Lq. reflexivity. }
  split; [|repeat split; assumption].
  assert (Put : put_variable (zfunc first false) false (vx d) (vy d) r = r).
  { unfold put_variable, zfunc. rewrite (unit_z_of (vx d) (vy d) (vz d) Pz) by exact Un. reflexivity. }
  assert (Er : ray_error (zfunc first false) false (l ++ [s]) s true gl r (vx d) (vy d) = Some (0, 0)).
  { unfold ray_error. rewrite Put, inverse_position, Hit. cbn [omap obind]. rewrite Lq. cbn. f_equal. f_equal; ring. }
  unfold solve_stop, varies_position, targets_position. rewrite Uf, Ul, La, Ai, nth_last_solver, La. cbn [obind].
  replace (Nat.eqb (length (l ++ [s])) (length (first :: l ++ [s]) - 1)) with true by (symmetry; apply Nat.eqb_eq; cbn; lia).
  rewrite Seed. cbn [r_direction r obind]. rewrite (guess_hit _ _ _ _ Er (tolerance_pos scale)). cbn [obind fst snd]. rewrite Put. reflexivity.
Qed.

Lemma seed_angle : forall w first l s gf gl scale, sf_transformation (ss_surface first) = None ->
  (forall v, ss_sag first v = Some 0) -> b_unit gf = Dimensionless -> b_unit gl = Length ->
  Forall window_plane (l ++ [s]) -> b_x gf * b_x gf + b_y gf * b_y gf < 1 ->
  let d := V3 (b_x gf) (b_y gf) (sqrt (1 - (b_x gf * b_x gf + b_y gf * b_y gf))) in let q := global_border s gl 0 in
  Forall (fun s => vz (local_vector (ss_surface s) d) <> 0) (l ++ [s]) ->
  exists r m, solve_stop guess_only w (first :: l ++ [s]) gf gl scale = Some r /\ r_position r = Some (vsub q (vscale m d)) /\ vz (vsub q (vscale m d)) = 0 /\ r_direction r = Some d /\ r_position (propagate_list surface_propagate (map ss_surface (l ++ [s])) r) = Some q.
Proof.
  intros w first l s gf gl scale Tn Fl Uf Ul W B d q Zs.
  assert (Ws : window_plane s) by (rewrite Forall_app in W; destruct W as [_ W]; inversion W; assumption).
  assert (Rs : rigid_surface (ss_surface s)) by apply Ws.
  assert (La : last (l ++ [s]) first = s) by apply last_last.
  assert (Ai : anchor_index powered (first :: l ++ [s]) = length (l ++ [s])).
  { unfold anchor_index. cbn [tl]. rewrite windows_unpowered by exact W. cbn [length]. lia. }
  assert (Gq : global_point (ss_surface s) (V3 (b_x gl) (b_y gl) 0) = q) by reflexivity.
  assert (Lq : local_point (ss_surface s) q = V3 (b_x gl) (b_y gl) 0) by (rewrite <- Gq; apply local_global_point; exact Rs).
  assert (Dz : 0 < vz d) by (cbn; apply sqrt_lt_R0; lra).
  assert (Uz : unit_z (b_x gf) (b_y gf) = Some (vz d)).
  { unfold unit_z, osqrt. destruct (Rle_dec 0 _) as [H|H]; [reflexivity|]. exfalso. apply H. lra. }
  assert (Un : is_unit d) by (apply (unit_z_some (b_x gf) (b_y gf) (vz d)); exact Uz).
  set (m := vz q / vz d). set (p := vsub q (vscale m d)).
  assert (Pz : vz p = 0) by (unfold p, m; cbn [vz vsub vscale]; field; lra).
  set (r := mkRay w (Some p) (Some d) (Some 1) 0 1 true). exists r, m.
  assert (Seed : seeded_ray w first s s true true gf gl = r).
  { unfold seeded_ray, aim_point. rewrite Ul, Tn, Uz. destruct Ws as (_ & _ & _ & Sg). rewrite Sg. cbn [obind move_point_inv apply_transformation].
    fold (global_border s gl 0). change (global_border s gl 0) with q. unfold seed_position. change (vz (V3 (b_x gf) (b_y gf) (vz d))) with (vz d).
    rewrite odiv_nz by lra. cbn [obind]. rewrite Fl. cbn [obind]. unfold r. f_equal. f_equal. fold m.
    apply vec_eq; [| |symmetry; exact Pz]; unfold p; cbn; ring. }
  assert (Hit : r_position (propagate_list surface_propagate (map ss_surface (l ++ [s])) r) = Some q).
  { apply (windows_hit l s r p d q m); try reflexivity; try assumption.
    - unfold p. apply vec_eq; cbn; ring.
    - rewrite Lq. reflexivity. }
  split; [|repeat split; assumption].
  assert (Put : put_variable (zfunc first true) true (vx p) (vy p) r = r).
  { unfold put_variable, zfunc. rewrite Fl. cbn [obind]. unfold r, set_position. cbn. f_equal. f_equal. apply vec_eq; cbn; try reflexivity. symmetry. exact Pz. }
  assert (Er : ray_error (zfunc first true) true (l ++ [s]) s true gl r (vx p) (vy p) = Some (0, 0)).
  { unfold ray_error. rewrite Put, inverse_position, Hit. cbn [omap obind]. rewrite Lq. cbn. f_equal. f_equal; ring. }
  unfold solve_stop, varies_position, targets_position. rewrite Uf, Ul, La, Ai, nth_last_solver, La. cbn [obind].
  replace (Nat.eqb (length (l ++ [s])) (length (first :: l ++ [s]) - 1)) with true by (symmetry; apply Nat.eqb_eq; cbn; lia).
  rewrite Seed. cbn [r_position r obind]. rewrite (guess_hit _ _ _ _ Er (tolerance_pos scale)). cbn [obind fst snd]. rewrite Put. reflexivity.
Qed.

Lemma find_from_first : forall {A} (f : A -> bool) l1 a l2 i, Forall (fun s => f s = false) l1 -> f a = true ->
  find_from f i (l1 ++ a :: l2) = Some (i + length l1)%nat.
Proof.
  intros A f l1. induction l1 as [|b l1 IH]; intros a l2 i F T; cbn.
  - rewrite T. f_equal. lia.
  - inversion F; subst. rewrite H1, IH by assumption. f_equal. lia.
Qed.

Lemma seed_anchor : forall w first l1 a l2 gf gl scale z, upright first -> b_unit gf = Length ->
  b_unit gl = Length \/ b_unit gl = Dimensionless ->
  Forall (fun s => powered s = false) l1 -> powered a = true -> (l2 = [] -> b_unit gl = Dimensionless) ->
  ss_sag first (V3 (b_x gf) (b_y gf) 0) = Some z ->
  let p := global_border first gf z in let q := move_point (sf_transformation (ss_surface a)) vzero in
  vz (vsub q p) <> 0 ->
  exists r k, solve_stop keep_guess w (first :: l1 ++ a :: l2) gf gl scale = Some r /\
    r_position r = Some p /\ k <> 0 /\ r_direction r = Some (vscale k (vsub q p)) /\ is_unit (vscale k (vsub q p)).
Proof.
  intros w first l1 a l2 gf gl scale z Up Uf Ul F Pa Last Z p q Ez.
  assert (Rf := upright_rigid first Up).
  assert (Ai : anchor_index powered (first :: l1 ++ a :: l2) = S (length l1)).
  { unfold anchor_index. cbn [tl]. rewrite find_from_first by assumption. reflexivity. }
  assert (Gp : global_point (ss_surface first) (V3 (b_x gf) (b_y gf) z) = p) by reflexivity.
  assert (Lp : local_point (ss_surface first) p = V3 (b_x gf) (b_y gf) z) by (rewrite <- Gp; apply local_global_point; exact Rf).
  assert (Aim : move_point_inv (sf_transformation (ss_surface first)) q = local_point (ss_surface first) q).
  { unfold move_point_inv, local_point. destruct (sf_transformation (ss_surface first)) as [t|]; [|reflexivity].
    unfold rigid_point, rigid_inv. cbn. rewrite mapply_sub. apply vec_eq; cbn; ring. }
  assert (Sub : vsub (local_point (ss_surface first) q) (local_point (ss_surface first) p) = vsub q p).
  { unfold local_point, upright in *. destruct (sf_transformation (ss_surface first)) as [t|]; [|reflexivity].
    rewrite Up. apply vec_eq; cbn; unfold dot; cbn; ring. }
  destruct (seed_along _ _ _ Sub Ez) as (k & Kn & Sd & Un & Pz).
  set (d := vscale k (vsub q p)) in *.
  set (r := mkRay w (Some p) (Some d) (Some 1) 0 1 true).
  exists r, k.
  split; [|repeat split; assumption].
  assert (Seed : forall la b, (b = true -> b_unit gl = Dimensionless) -> seeded_ray w first la a b false gf gl = r).
  { intros la b Hb. unfold seeded_ray, aim_point. rewrite Z.
    replace (match b, b_unit gl with
      | true, Length => let* z := ss_sag la (V3 (b_x gl) (b_y gl) 0) in
          Some (move_point (sf_transformation (ss_surface la)) (V3 (b_x gl) (b_y gl) z))
      | _, _ => Some (move_point (sf_transformation (ss_surface a)) vzero) end) with (Some q)
      by (destruct b; [rewrite Hb by reflexivity|]; reflexivity).
    cbn [obind]. rewrite Aim, <- Lp, Sd. rewrite Lp.
    unfold r. transitivity (mkRay w (omap (global_point (ss_surface first)) (Some (V3 (b_x gf) (b_y gf) z)))
      (omap (global_vector (ss_surface first)) (Some d)) (Some 1) 0 1 true).
    - unfold apply_transformation, global_point, global_vector. destruct (sf_transformation (ss_surface first)); reflexivity.
    - cbn [omap]. rewrite Gp, upright_vector by exact Up. reflexivity. }
  assert (Put : put_variable (zfunc first false) false (vx d) (vy d) r = r).
  { unfold put_variable, zfunc. rewrite (unit_z_of (vx d) (vy d) (vz d) Pz) by exact Un. reflexivity. }
  unfold solve_stop, varies_position, targets_position. rewrite Uf, Ai. cbn [obind].
  replace (nth (S (length l1)) (first :: l1 ++ a :: l2) (last (l1 ++ a :: l2) first)) with a
    by (cbn [nth]; rewrite app_nth2 by lia; rewrite Nat.sub_diag; reflexivity).
  rewrite Seed.
  - destruct Ul as [-> | ->]; cbn [obind r_direction r keep_guess fst snd]; fold r; rewrite Put; reflexivity.
  - intros E. apply Nat.eqb_eq in E. apply Last. cbn in E. rewrite app_length in E. cbn in E.
    destruct l2; [reflexivity|cbn in E; lia].
Qed.
