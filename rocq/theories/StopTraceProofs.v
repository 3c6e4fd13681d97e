(** The reported stop rays, traced forward, meet the borders of both stops. *)
From Coq Require Import Reals List Bool Arith Lra Lia.
From Verif Require Import Vec VecLemmas Num NumLemmas RayModel SnellModel SnellSpec SnellProofs SurfaceModel SequenceSpec SequenceProofs
  SystemModel SystemSpec SystemProofs SystemRetraceProofs StopRayModel StopRaySpec StopRayProofs.
Import ListNotations.
Open Scope R_scope.
Open Scope opt_scope.

Lemma plain_index : forall l r, List.Forall plain l -> r_index r = 1 -> r_index (propagate_list surface_propagate l r) = 1.
Proof.
  intros l. induction l as [|s l IH]; intros r P H; [exact H|]. inversion P as [|? ? Ps Pl]; subst. cbn. apply IH; [exact Pl|].
  destruct Ps as (_ & _ & _ & _ & _ & M).
  assert (X : r_index (surface_propagate s r) = mat_index (sf_material s) (surface_incident s (apply_inverse (sf_transformation s) r))).
  { unfold surface_propagate, surface_local, apply_transformation. destruct (sf_transformation s), (sf_aperture s); reflexivity. }
  rewrite X. destruct M as [[_ M]|[_ M]]; rewrite M; [|reflexivity].
  unfold surface_incident, sag_propagate, apply_inverse. destruct (sf_rulings s), (sf_transformation s); exact H.
Qed.

(** A ray that has lost its position at a plain surface has lost its direction. *)
Lemma plain_lost : forall s r, plain s -> r_position (surface_propagate s r) = None -> r_direction (surface_propagate s r) = None.
Proof.
  intros s r (_ & G & _) H. unfold surface_propagate in *. rewrite transformed_position in H. rewrite transformed_direction.
  assert (N : r_position (surface_local s (apply_inverse (sf_transformation s) r)) = None).
  { destruct (r_position (surface_local s (apply_inverse (sf_transformation s) r))); [discriminate H|reflexivity]. }
  rewrite surface_local_position, incident_rulings_position in N. unfold surface_local.
  assert (Clip : forall x, r_direction (match sf_aperture s with None => x | Some ap => clip_rays ap x end) = r_direction x).
  { intros x. destruct (sf_aperture s); reflexivity. }
  rewrite Clip. cbn [r_direction]. unfold surface_incident. rewrite G. unfold surface_normal. rewrite N. cbn [obind].
  destruct (r_direction (sag_propagate (sf_sag s) (apply_inverse (sf_transformation s) r))); reflexivity.
Qed.

(** Two rays on the same line take the same path. *)
Lemma same_path : forall ss, List.Forall plain ss -> forall r r' p d e, r_position r = Some p -> r_position r' = Some p ->
  r_direction r = Some d -> r_direction r' = Some (vscale e d) -> is_unit d -> e = 1 \/ e = -1 -> r_index r = 1 -> r_index r' = 1 ->
  r_position (propagate_list surface_propagate ss r) <> None \/ r_direction (propagate_list surface_propagate ss r) <> None ->
  r_position (propagate_list surface_propagate ss r') = r_position (propagate_list surface_propagate ss r) /\
  exists c, r_direction (propagate_list surface_propagate ss r) = Some c /\
    r_direction (propagate_list surface_propagate ss r') = Some (vscale e c).
Proof.
  induction ss as [|s ss IH]; intros P r r' p d e Hp Hp' Hd Hd' U E N N' F.
  - cbn. rewrite Hp, Hp', Hd, Hd'. split; [reflexivity|]. exists d. auto.
  - inversion P as [|? ? Ps Pss]; subst. cbn [propagate_list] in *.
    assert (Ne : e <> 0) by (destruct E; lra).
    assert (U' : is_unit (vscale e d)).
    { unfold is_unit in *. rewrite norm2_scale, U. destruct E as [->| ->]; ring. }
    destruct (plain_step s r p d Ps Hp Hd N U) as (S0 & S1 & S2).
    destruct (plain_step s r' p (vscale e d) Ps Hp' Hd' N' U') as (_ & T1 & T2).
    destruct (Req_dec (vz (local_vector s d)) 0) as [Z|Z].
    { exfalso. specialize (S0 Z). assert (S0' := plain_lost s r Ps S0). destruct ss as [|s' ss].
      - cbn in F. destruct F; contradiction.
      - destruct (blank_trace (s' :: ss) (surface_propagate s r)) as [A B]; [discriminate|left; exact S0|].
        rewrite A, B in F. destruct F; contradiction. }
    destruct (S1 Z) as [S1p S1d].
    assert (Z' : vz (local_vector s (vscale e d)) <> 0).
    { rewrite local_vector_scale. cbn. apply Rmult_integral_contrapositive_currified; assumption. }
    destruct (T1 Z') as [T1p T1d]. rewrite image_scale in T1d.
    apply (IH Pss (surface_propagate s r) (surface_propagate s r') (vadd p (vscale (- vz (local_point s p) / vz (local_vector s d)) d)) (image s d) e); auto.
    + rewrite T1p. f_equal. rewrite local_vector_scale. apply vec_eq; cbn; field; auto.
    + apply image_unit; [apply Ps|exact U].
Qed.

Lemma seeded_index : forall w first last anchor b op gf gl, r_index (seeded_ray w first last anchor b op gf gl) = 1.
Proof. intros. unfold seeded_ray, apply_transformation. destruct (sf_transformation _), op; reflexivity. Qed.
Lemma solved_index : forall root w first rest gf gl scale r, dependable root ->
  solve_stop root w (first :: rest) gf gl scale = Some r -> r_index r = 1.
Proof.
  intros root w first rest gf gl scale r D H. destruct (solved _ _ _ _ _ _ _ _ D H) as (op & tp & x & y & r0 & _ & _ & R0 & R & _).
  subst r r0. unfold put_variable. destruct op; apply seeded_index.
Qed.

Lemma skipn_nth : forall {A} i (l : list A) x, nth_error l i = Some x -> skipn i l = x :: skipn (S i) l.
Proof. intros A. induction i as [|i IH]; intros [|a l] x H; try discriminate; [injection H as ->; reflexivity|]. cbn in *. apply IH, H. Qed.
Lemma firstn_split : forall {A} i j (l : list A), (i < j)%nat -> firstn (S j) l = firstn (S i) l ++ firstn (j - i) (skipn (S i) l).
Proof.
  intros A i j l L. replace (S j) with (S i + (j - i))%nat by lia. generalize (S i) (j - i)%nat. clear. intros a b. revert l.
  induction a as [|a IH]; intros l; [reflexivity|]. destruct l as [|x l]; [destruct b; reflexivity|]. cbn. f_equal. apply IH.
Qed.
Lemma last_firstn : forall {A} k (l : list A) d x, nth_error l k = Some x -> last (firstn (S k) l) d = x.
Proof.
  intros A. induction k as [|k IH]; intros [|a l] d x H; try discriminate; [injection H as ->; reflexivity|].
  cbn in H. change (last (a :: firstn (S k) l) d = x). destruct l as [|b l]; [destruct k; discriminate|].
  change (last (firstn (S k) (b :: l)) d = x). apply IH, H.
Qed.
Lemma nth_skipn : forall {A} a (l : list A) b, nth_error (skipn a l) b = nth_error l (a + b)%nat.
Proof. intros A. induction a as [|a IH]; intros l b; [reflexivity|]. destruct l; [destruct b; reflexivity|]. cbn. apply IH. Qed.

Lemma trace_nth : forall sys r k, (k < length (surfaces_all sys))%nat ->
  nth_error (trace sys r) k = Some (propagate_list surface_propagate (map st_surface (firstn (S k) (surfaces_all sys)))
    (apply_inverse (sys_transformation sys) r)).
Proof.
  intros sys r k L. unfold trace.
  destruct (accumulate_spec surface_propagate (map st_surface (surfaces_all sys)) (apply_inverse (sys_transformation sys) r)) as (_ & A & _).
  rewrite A by (rewrite map_length; exact L). unfold propagate_rays. cbn [as_list]. rewrite firstn_map. reflexivity.
Qed.

(** The whole way of a ray solved between the surfaces [i] and [j]. *)
Lemma stop_ray_whole : forall root w sys ss i j si sj gf gl scale r,
  dependable root -> (forall t, sys_transformation sys = Some t -> is_rigid t) ->
  map ss_surface ss = map st_surface (surfaces_all sys) -> (i < j)%nat ->
  nth_error ss i = Some si -> nth_error ss j = Some sj ->
  (forall k s, (k <= j)%nat -> nth_error (surfaces_all sys) k = Some s -> plain (st_surface s)) ->
  (forall p, ss_sag si p = Some 0) ->
  (b_unit gf = Dimensionless -> sf_transformation (ss_surface si) = None) ->
  solve_stop root w (stop_subsystem ss i j) gf gl scale = Some r ->
  r_position (stop_ray sys i r) <> None -> r_direction (stop_ray sys i r) <> None ->
  exists a b, nth_error (trace sys (stop_ray sys i r)) i = Some a /\ nth_error (trace sys (stop_ray sys i r)) j = Some b /\
    meets si gf 0 a /\ meets sj gl (1 / 10 ^ 9 * Rmax scale 1) b.
Proof.
  intros root w sys ss i j si sj gf gl scale r D T M L Ni Nj P Sag An H D1 D2.
  set (l := surfaces_all sys) in *.
  assert (Len : length ss = length l) by (rewrite <- (map_length ss_surface), M, map_length; reflexivity).
  assert (Lj : (j < length l)%nat) by (rewrite <- Len; apply nth_error_Some; congruence).
  assert (Pk : forall k s, (k <= j)%nat -> nth_error ss k = Some s -> plain (ss_surface s)).
  { intros k s K N. assert (X : nth_error (map ss_surface ss) k = Some (ss_surface s)) by (rewrite nth_error_map, N; reflexivity).
    rewrite M, nth_error_map in X. destruct (nth_error l k) as [t|] eqn:E; [|discriminate X]. cbn in X. injection X as <-. exact (P k t K E). }
  assert (Li : exists ti, nth_error l i = Some ti /\ st_surface ti = ss_surface si).
  { assert (X : nth_error (map ss_surface ss) i = Some (ss_surface si)) by (rewrite nth_error_map, Ni; reflexivity).
    rewrite M, nth_error_map in X. destruct (nth_error l i) as [t|]; [|discriminate X]. exists t. split; [reflexivity|]. cbn in X. congruence. }
  destruct Li as (ti & Li & Ti).
  set (rest := firstn (j - i) (skipn (S i) ss)).
  assert (Sub : stop_subsystem ss i j = si :: rest).
  { unfold stop_subsystem. replace (S j - i)%nat with (S (j - i)) by lia. rewrite (skipn_nth i ss si Ni). reflexivity. }
  rewrite Sub in H.
  assert (La : last rest si = sj).
  { unfold rest. replace (j - i)%nat with (S (j - i - 1)) by lia. apply last_firstn. rewrite nth_skipn.
    replace (S i + (j - i - 1))%nat with j by lia. exact Nj. }
  assert (Rn : rest <> []).
  { intros Z. rewrite Z in La. cbn in La. unfold rest in Z. replace (j - i)%nat with (S (j - i - 1)) in Z by lia.
    assert (X : nth_error (skipn (S i) ss) (j - i - 1) = Some sj) by (rewrite nth_skipn; replace (S i + (j - i - 1))%nat with j by lia; exact Nj).
    destruct (skipn (S i) ss); [destruct (j - i - 1)%nat; discriminate X|discriminate Z]. }
  assert (Ri : rigid_surface (ss_surface si)) by (apply (Pk i si); [lia|exact Ni]).
  assert (St : starts_from si gf r).
  { destruct (b_unit gf) eqn:U.
    - exact (solved_starts_length _ _ _ _ _ _ _ _ D Ri Rn U H).
    - exact (solved_starts_angle _ _ _ _ _ _ _ _ D (An eq_refl) Rn U H).
    - exfalso. destruct (solved _ _ _ _ _ _ _ _ D H) as (op & tp & x & y & r0 & V & _). unfold varies_position in V. rewrite U in V. discriminate V. }
  assert (Sk := solved_strikes _ _ _ _ _ _ _ _ D H). rewrite La in Sk.
  assert (Ix := solved_index _ _ _ _ _ _ _ _ D H).
  assert (Geo : exists p d, r_position r = Some p /\ r_direction r = Some d /\ is_unit d /\ vz (local_point (ss_surface si) p) = 0 /\
     (b_unit gf = Length -> local_point (ss_surface si) p = V3 (b_x gf) (b_y gf) 0) /\
     (b_unit gf = Dimensionless -> exists z, local_vector (ss_surface si) d = V3 (b_x gf) (b_y gf) z) /\ b_unit gf <> OtherUnit).
  { unfold starts_from in St. destruct (b_unit gf) eqn:U; [| |destruct St].
    - destruct St as ((z & Z & Q) & d & Hd & Ud). rewrite Sag in Z. injection Z as <-. unfold position_on in Q.
      destruct (r_position r) as [p|]; [|discriminate Q]. cbn in Q. injection Q as Q. exists p, d.
      repeat split; auto; try discriminate. rewrite Q. reflexivity.
    - destruct St as ((x & y & z & Z & Q) & z' & _ & Q' & Ud). rewrite Sag in Z. injection Z as <-. unfold position_on in Q. unfold direction_on in Q'.
      destruct (r_position r) as [p|]; [|discriminate Q]. destruct (r_direction r) as [d|]; [|discriminate Q']. cbn in Q, Q'.
      injection Q as Q. injection Q' as Q'. exists p, d. repeat split; auto; try discriminate.
      + rewrite <- (global_local_vector _ d Ri). apply global_vector_unit; [exact Ri|]. rewrite Q'. exact Ud.
      + rewrite Q. reflexivity.
      + intros _. exists z'. exact Q'. }
  destruct Geo as (p & d & Hp & Hd & Ud & O & GL & GD & GN).
  destruct (stop_ray_retraced sys i ti r p d T Li) as (a & Na & Ap & Ad); auto.
  { intros k s K. apply P. lia. }
  { rewrite Ti. exact O. }
  assert (Sg : exists e, (e = 1 \/ e = -1) /\ r_direction a = Some (vscale e d)).
  { destruct Ad as [Ad|Ad]; rewrite Ad; [exists 1|exists (-1)]; split; auto; f_equal; apply vec_eq; cbn; ring. }
  destruct Sg as (e & He & Ae).
  rewrite trace_nth in Na by (fold l; lia). 
  assert (Na' : propagate_list surface_propagate (map st_surface (firstn (S i) l)) (apply_inverse (sys_transformation sys) (stop_ray sys i r)) = a).
  { match type of Na with Some ?x = Some a => change (x = a); apply (f_equal (fun o => match o with Some y => y | None => a end)) in Na; exact Na end. }
  clear Na. rename Na' into Na.
  set (r0 := apply_inverse (sys_transformation sys) (stop_ray sys i r)) in *.
  assert (Pl : forall k, (k <= j)%nat -> List.Forall plain (map st_surface (firstn (S k) l))).
  { intros k K. rewrite Forall_map, Forall_forall. intros s I. apply In_nth_error in I. destruct I as [m I].
    assert (Lm : (m < S k)%nat).
    { assert (X : (m < length (firstn (S k) l))%nat) by (apply nth_error_Some; congruence). rewrite firstn_length in X. lia. }
    apply (P m); [lia|]. rewrite <- (firstn_skipn (S k) l). rewrite nth_error_app1; [exact I|]. apply nth_error_Some. congruence. }
  assert (Ia : r_index a = 1).
  { rewrite <- Na. apply plain_index; [apply Pl; lia|]. unfold r0, stop_ray.
    assert (X : r_index (propagate_list surface_propagate (map st_surface (reversed_subsystem l i)) r) = 1).
    { apply plain_index; [|exact Ix]. unfold reversed_subsystem. rewrite map_rev. apply Forall_rev, Pl. lia. }
    fold l. unfold turn_round, apply_inverse, apply_transformation. destruct (sys_transformation sys) as [t|].
    - cbn [ray_transform r_index]. destruct (let* x := _ in _) as [c|]; [destruct (Rlt_dec 0 c)|]; exact X.
    - destruct (let* x := _ in _) as [c|]; [destruct (Rlt_dec 0 c)|]; exact X. }
  exists a. eexists. split; [rewrite trace_nth by (fold l; lia); fold l r0; rewrite Na; reflexivity|].
  split; [apply trace_nth; exact Lj|]. fold l r0.
  rewrite (firstn_split i j l L), map_app, propagate_app, Na.
  assert (Er : map st_surface (firstn (j - i) (skipn (S i) l)) = map ss_surface rest).
  { unfold rest. rewrite <- !firstn_map, <- !skipn_map, M. reflexivity. }
  rewrite Er.
  assert (Pr : List.Forall plain (map ss_surface rest)).
  { rewrite <- Er. assert (X := Pl j (Nat.le_refl j)). rewrite (firstn_split i j l L), map_app in X. apply Forall_app in X. apply X. }
  unfold strikes in Sk. cbn zeta in Sk.
  assert (Def : r_position (propagate_list surface_propagate (map ss_surface rest) r) <> None \/
                r_direction (propagate_list surface_propagate (map ss_surface rest) r) <> None).
  { destruct Sk as (v & V & _). unfold position_on, direction_on in V. destruct (b_unit gl); [left|right|contradiction]; intros Z; rewrite Z in V; discriminate V. }
  destruct (same_path _ Pr r a p d e Hp Ap Hd Ae Ud He Ix Ia Def) as (Sp & c & Sc & Sc').
  split.
  - unfold meets, position_on, direction_on. rewrite Ap, Ae. cbn [omap]. destruct (b_unit gf); [| |congruence].
    + exists (V3 (b_x gf) (b_y gf) 0). rewrite GL by reflexivity. split; [reflexivity|]. cbn.
      replace (b_x gf - b_x gf) with 0 by ring. replace (b_y gf - b_y gf) with 0 by ring. rewrite Rabs_R0. lra.
    + destruct (GD eq_refl) as [z G]. exists (V3 (b_x gf) (b_y gf) z). rewrite local_vector_scale, G. split.
      * destruct He as [->| ->]; [left|right]; f_equal; apply vec_eq; cbn; ring.
      * cbn. replace (b_x gf - b_x gf) with 0 by ring. replace (b_y gf - b_y gf) with 0 by ring. rewrite Rabs_R0. lra.
  - destruct Sk as (v & V & B). unfold meets, position_on, direction_on in *. exists v. split; [|exact B].
    destruct (b_unit gl); [|rewrite Sc in V; rewrite Sc'|contradiction].
    + rewrite Sp. exact V.
    + cbn [omap] in *. rewrite local_vector_scale. injection V as V. rewrite V.
      destruct He as [->| ->]; [left|right]; f_equal; apply vec_eq; cbn; ring.
Qed.

Lemma reported_whole : forall root w sys ss gf gl scale steps start p f si sj r,
  dependable root -> (forall t, sys_transformation sys = Some t -> is_rigid t) ->
  map ss_surface ss = map st_surface (surfaces_all sys) -> separate_stops (surfaces_all sys) ->
  index_pupil_stop sys = Some p -> index_field_stop sys = Some f ->
  (forall j s, nth_error (surfaces_all sys) j = Some s -> (p < j < f)%nat -> st_field s = false) ->
  (forall j s, nth_error (surfaces_all sys) j = Some s -> (f < j < p)%nat -> st_pupil s = false) ->
  nth_error ss (Nat.min p f) = Some si -> nth_error ss (Nat.max p f) = Some sj ->
  (forall k s, (k <= Nat.max p f)%nat -> nth_error (surfaces_all sys) k = Some s -> plain (st_surface s)) ->
  (forall v, ss_sag si v = Some 0) ->
  (b_unit (gf (Nat.min p f)) = Dimensionless -> sf_transformation (ss_surface si) = None) ->
  reported_stop_ray root w sys ss gf gl scale steps start = Some r ->
  r_position r <> None -> r_direction r <> None ->
  exists a b, nth_error (trace sys r) (Nat.min p f) = Some a /\ nth_error (trace sys r) (Nat.max p f) = Some b /\
    meets si (gf (Nat.min p f)) 0 a /\ meets sj (gl (Nat.max p f)) (1 / 10 ^ 9 * Rmax (scale (Nat.max p f)) 1) b.
Proof.
  intros root w sys ss gf gl scale steps start p f si sj r D T M Sep Ip If_ Hf Hp Ni Nj P Sag An H D1 D2.
  unfold reported_stop_ray in H. rewrite Ip, If_ in H. cbn [obind] in H.
  destruct (stops_only _ sys steps start) as [x| |] eqn:E in H; [|discriminate H|discriminate H].
  assert (R : r = stop_ray sys (Nat.min p f) x) by congruence. subst r. clear H.
  destruct (stops_pair _ _ _ _ _ _ _ _ Sep E Ip If_ Hf Hp) as [b B].
  assert (L : (Nat.min p f < Nat.max p f)%nat).
  { assert (p <> f); [|lia]. intros Q. subst f. apply index_largest in Ip. apply index_largest in If_.
    destruct Ip as [[s [N F]] _], If_ as [[s' [N' F']] _]. rewrite N in N'. injection N' as <-.
    apply (Sep s); auto. apply nth_error_In in N. exact N. }
  unfold stop_solver in B. exact (stop_ray_whole _ _ _ _ _ _ _ _ _ _ _ _ D T M L Ni Nj P Sag An B D1 D2).
Qed.
