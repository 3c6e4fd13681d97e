(** Reported stop rays of systems with curved mirrors, traced forward, meet the borders of both stops. *)
From Coq Require Import Reals List Bool Arith Lra Lia.
From Verif Require Import Vec VecLemmas Num NumLemmas RayModel SnellModel SnellSpec SnellProofs SurfaceModel SequenceSpec SequenceProofs
  SystemModel SystemSpec SystemProofs SystemRetraceProofs StopRayModel StopRaySpec StopRayProofs StopTraceProofs CurvedSpec CurvedProofs.
Import ListNotations.
Open Scope R_scope.
Open Scope opt_scope.

Lemma curved_whole : forall root w sys ss i j si sj gf gl scale r,
  dependable root -> (forall t, sys_transformation sys = Some t -> is_rigid t) ->
  map ss_surface ss = map st_surface (surfaces_all sys) -> (i < j)%nat ->
  nth_error ss i = Some si -> nth_error ss j = Some sj ->
  (forall k s, (k <= j)%nat -> nth_error (surfaces_all sys) k = Some s -> figured (st_surface s)) ->
  (b_unit gf = Dimensionless -> sf_transformation (ss_surface si) = None) ->
  solve_stop root w (stop_subsystem ss i j) gf gl scale = Some r ->
  (forall p d, r_position r = Some p -> r_direction r = Some d -> struck (ss_surface si) p d p) ->
  clean_path (map st_surface (reversed_subsystem (surfaces_all sys) i)) r ->
  clean_path (map ss_surface (tl (stop_subsystem ss i j))) r ->
  exists a b, nth_error (trace sys (stop_ray sys i r)) i = Some a /\ nth_error (trace sys (stop_ray sys i r)) j = Some b /\
    meets si gf 0 a /\ meets sj gl (1 / 10 ^ 9 * Rmax scale 1) b.
Proof.
  intros root w sys ss i j si sj gf gl scale r D T M L Ni Nj P An H O Cb Cf.
  set (l := surfaces_all sys) in *.
  assert (Len : length ss = length l) by (rewrite <- (map_length ss_surface), M, map_length; reflexivity).
  assert (Lj : (j < length l)%nat) by (rewrite <- Len; apply nth_error_Some; congruence).
  assert (Li : exists ti, nth_error l i = Some ti /\ st_surface ti = ss_surface si).
  { assert (X : nth_error (map ss_surface ss) i = Some (ss_surface si)) by (rewrite nth_error_map, Ni; reflexivity).
    rewrite M, nth_error_map in X. destruct (nth_error l i) as [t|]; [|discriminate X]. exists t. split; [reflexivity|]. cbn in X. congruence. }
  destruct Li as (ti & Li & Ti).
  set (rest := firstn (j - i) (skipn (S i) ss)).
  assert (Sub : stop_subsystem ss i j = si :: rest).
  { unfold stop_subsystem. replace (S j - i)%nat with (S (j - i)) by lia. rewrite (skipn_nth i ss si Ni). reflexivity. }
  rewrite Sub in H, Cf. cbn [tl] in Cf.
  assert (La : last rest si = sj).
  { unfold rest. replace (j - i)%nat with (S (j - i - 1)) by lia. apply last_firstn. rewrite nth_skipn.
    replace (S i + (j - i - 1))%nat with j by lia. exact Nj. }
  assert (Rn : rest <> []).
  { intros Z. rewrite Z in La. cbn in La. unfold rest in Z. replace (j - i)%nat with (S (j - i - 1)) in Z by lia.
    assert (X : nth_error (skipn (S i) ss) (j - i - 1) = Some sj) by (rewrite nth_skipn; replace (S i + (j - i - 1))%nat with j by lia; exact Nj).
    destruct (skipn (S i) ss); [destruct (j - i - 1)%nat; discriminate X|discriminate Z]. }
  assert (Ri : rigid_surface (ss_surface si)) by (rewrite <- Ti; apply (P i ti); [lia|exact Li]).
  assert (St : starts_from si gf r).
  { destruct (b_unit gf) eqn:U.
    - exact (solved_starts_length _ _ _ _ _ _ _ _ D Ri Rn U H).
    - exact (solved_starts_angle _ _ _ _ _ _ _ _ D (An eq_refl) Rn U H).
    - exfalso. destruct (solved _ _ _ _ _ _ _ _ D H) as (op & tp & x & y & r0 & V & _). unfold varies_position in V. rewrite U in V. discriminate V. }
  assert (Sk := solved_strikes _ _ _ _ _ _ _ _ D H). rewrite La in Sk.
  assert (Ix := solved_index _ _ _ _ _ _ _ _ D H).
  assert (Geo : exists p d, r_position r = Some p /\ r_direction r = Some d /\ is_unit d /\
     (b_unit gf = Length -> exists z, local_point (ss_surface si) p = V3 (b_x gf) (b_y gf) z) /\
     (b_unit gf = Dimensionless -> exists z, local_vector (ss_surface si) d = V3 (b_x gf) (b_y gf) z) /\ b_unit gf <> OtherUnit).
  { unfold starts_from in St. destruct (b_unit gf) eqn:U; [| |destruct St].
    - destruct St as ((z & Z & Q) & d & Hd & Ud). unfold position_on in Q.
      destruct (r_position r) as [p|]; [|discriminate Q]. cbn in Q. injection Q as Q. exists p, d.
      repeat split; auto; try discriminate. intros _. exists z. exact Q.
    - destruct St as ((x & y & z & Z & Q) & z' & _ & Q' & Ud). unfold position_on in Q. unfold direction_on in Q'.
      destruct (r_position r) as [p|]; [|discriminate Q]. destruct (r_direction r) as [d|]; [|discriminate Q']. cbn in Q, Q'.
      injection Q as Q. injection Q' as Q'. exists p, d. repeat split; auto; try discriminate.
      + rewrite <- (global_local_vector _ d Ri). apply global_vector_unit; [exact Ri|]. rewrite Q'. exact Ud.
      + intros _. exists z'. exact Q'. }
  destruct Geo as (p & d & Hp & Hd & Ud & GL & GD & GN).
  destruct (curved_stop_ray sys i ti r p d T Li) as (a & Na & Ap & Ad & Ia); auto.
  { intros k s K. apply P. lia. }
  { rewrite Ti. apply O; assumption. }
  assert (Sg : exists e, (e = 1 \/ e = -1) /\ r_direction a = Some (vscale e d)).
  { destruct Ad as [Ad|Ad]; rewrite Ad; [exists 1|exists (-1)]; split; auto; f_equal; apply vec_eq; cbn; ring. }
  destruct Sg as (e & He & Ae).
  rewrite trace_nth in Na by (fold l; lia).
  assert (Na' : propagate_list surface_propagate (map st_surface (firstn (S i) l)) (apply_inverse (sys_transformation sys) (stop_ray sys i r)) = a).
  { match type of Na with Some ?x = Some a => change (x = a); apply (f_equal (fun o => match o with Some y => y | None => a end)) in Na; exact Na end. }
  clear Na. rename Na' into Na.
  set (r0 := apply_inverse (sys_transformation sys) (stop_ray sys i r)) in *.
  exists a. eexists. split; [rewrite trace_nth by (fold l; lia); fold l r0; rewrite Na; reflexivity|].
  split; [apply trace_nth; exact Lj|]. fold l r0.
  rewrite (firstn_split i j l L), map_app, propagate_app, Na.
  assert (Er : map st_surface (firstn (j - i) (skipn (S i) l)) = map ss_surface rest).
  { unfold rest. rewrite <- !firstn_map, <- !skipn_map, M. reflexivity. }
  rewrite Er.
  assert (Pr : List.Forall figured (map ss_surface rest)).
  { rewrite <- Er. assert (X : List.Forall figured (map st_surface (firstn (S j) l))).
    { rewrite Forall_map, Forall_forall. intros s I. apply In_nth_error in I. destruct I as [m I].
      assert (Lm : (m < S j)%nat).
      { assert (X : (m < length (firstn (S j) l))%nat) by (apply nth_error_Some; congruence). rewrite firstn_length in X. lia. }
      apply (P m); [lia|]. rewrite <- (firstn_skipn (S j) l). rewrite nth_error_app1; [exact I|]. apply nth_error_Some. congruence. }
    rewrite (firstn_split i j l L), map_app in X. apply Forall_app in X. apply X. }
  unfold strikes in Sk. cbn zeta in Sk.
  destruct (curved_same_path _ Pr r a p d e Hp Ap Hd Ae Ud He Ix Ia Cf) as (Sp & c & Sc & Sc').
  split.
  - unfold meets, position_on, direction_on. rewrite Ap, Ae. cbn [omap]. destruct (b_unit gf); [| |congruence].
    + destruct (GL eq_refl) as [z G]. exists (V3 (b_x gf) (b_y gf) z). rewrite G. split; [reflexivity|]. cbn.
      replace (b_x gf - b_x gf) with 0 by ring. replace (b_y gf - b_y gf) with 0 by ring. rewrite Rabs_R0. lra.
    + destruct (GD eq_refl) as [z G]. exists (V3 (b_x gf) (b_y gf) z). rewrite local_vector_scale, G. split.
      * destruct He as [->| ->]; [left|right]; f_equal; apply vec_eq; cbn; ring.
      * cbn. replace (b_x gf - b_x gf) with 0 by ring. replace (b_y gf - b_y gf) with 0 by ring. rewrite Rabs_R0. lra.
  - destruct Sk as (v & V & B). unfold meets, position_on, direction_on in *. exists v. split; [|exact B].
    destruct (b_unit gl); [|rewrite Sc in V; rewrite Sc'|contradiction].
    + rewrite Sp. exact V.
    + cbn [omap] in *. rewrite local_vector_scale. injection V as V. rewrite V.
      destruct He as [->| ->]; [left|right]; f_equal; apply vec_eq; cbn; ring.
Qed.

Lemma reported_curved : forall root w sys ss gf gl scale steps start p f si sj r,
  dependable root -> (forall t, sys_transformation sys = Some t -> is_rigid t) ->
  map ss_surface ss = map st_surface (surfaces_all sys) -> separate_stops (surfaces_all sys) ->
  index_pupil_stop sys = Some p -> index_field_stop sys = Some f ->
  (forall j s, nth_error (surfaces_all sys) j = Some s -> (p < j < f)%nat -> st_field s = false) ->
  (forall j s, nth_error (surfaces_all sys) j = Some s -> (f < j < p)%nat -> st_pupil s = false) ->
  nth_error ss (Nat.min p f) = Some si -> nth_error ss (Nat.max p f) = Some sj ->
  (forall k s, (k <= Nat.max p f)%nat -> nth_error (surfaces_all sys) k = Some s -> figured (st_surface s)) ->
  (b_unit (gf (Nat.min p f)) = Dimensionless -> sf_transformation (ss_surface si) = None) ->
  reported_stop_ray root w sys ss gf gl scale steps start = Some r ->
  (forall x, solve_stop root w (stop_subsystem ss (Nat.min p f) (Nat.max p f))
       (gf (Nat.min p f)) (gl (Nat.max p f)) (scale (Nat.max p f)) = Some x ->
     (forall o u, r_position x = Some o -> r_direction x = Some u -> struck (ss_surface si) o u o) /\
     clean_path (map st_surface (reversed_subsystem (surfaces_all sys) (Nat.min p f))) x /\
     clean_path (map ss_surface (tl (stop_subsystem ss (Nat.min p f) (Nat.max p f)))) x) ->
  exists a b, nth_error (trace sys r) (Nat.min p f) = Some a /\ nth_error (trace sys r) (Nat.max p f) = Some b /\
    meets si (gf (Nat.min p f)) 0 a /\ meets sj (gl (Nat.max p f)) (1 / 10 ^ 9 * Rmax (scale (Nat.max p f)) 1) b.
Proof.
  intros root w sys ss gf gl scale steps start p f si sj r D T M Sep Ip If_ Hf Hp Ni Nj P An H Cl.
  unfold reported_stop_ray in H. rewrite Ip, If_ in H. cbn [obind] in H.
  destruct (stops_only _ sys steps start) as [x| |] eqn:E in H; [|discriminate H|discriminate H].
  assert (R : r = stop_ray sys (Nat.min p f) x) by congruence. subst r. clear H.
  destruct (stops_pair _ _ _ _ _ _ _ _ Sep E Ip If_ Hf Hp) as [b B].
  assert (L : (Nat.min p f < Nat.max p f)%nat).
  { assert (p <> f); [|lia]. intros Q. subst f. apply index_largest in Ip. apply index_largest in If_.
    destruct Ip as [[s [N F]] _], If_ as [[s' [N' F']] _]. rewrite N in N'. injection N' as <-.
    apply (Sep s); auto. apply nth_error_In in N. exact N. }
  unfold stop_solver in B. destruct (Cl x B) as (O & Cb & Cf).
  exact (curved_whole _ _ _ _ _ _ _ _ _ _ _ _ D T M L Ni Nj P An B O Cb Cf).
Qed.
