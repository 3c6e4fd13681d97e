(** Rays traced backwards through planes and mirrors retrace their path. *)
From Coq Require Import String Reals List Bool Arith Lra Lia.
From Verif Require Import Vec VecLemmas Num NumLemmas RayModel SnellModel SnellSpec SnellProofs SurfaceModel
  SequenceSpec SequenceProofs SystemModel SystemSpec.
Import ListNotations.
Open Scope R_scope.
Open Scope opt_scope.

Definition global_point (s : surface) (x : vec3) : vec3 :=
  match sf_transformation s with None => x | Some t => rigid_point t x end.
Definition global_vector (s : surface) (x : vec3) : vec3 :=
  match sf_transformation s with None => x | Some t => rigid_vector t x end.

Lemma inverse_ray : forall s w p d i a n v,
  apply_inverse (sf_transformation s) (mkRay w (Some p) (Some d) i a n v)
  = mkRay w (Some (local_point s p)) (Some (local_vector s d)) i a n v.
Proof.
  intros s w p d i a n v. unfold apply_inverse, local_point, local_vector, ray_transform.
  destruct (sf_transformation s) as [t|]; [|reflexivity]. cbn. unfold rigid_point, rigid_inv, rigid_vector. cbn [rg_mat rg_shift].
  f_equal. f_equal. rewrite mapply_sub. apply vec_eq; cbn; ring.
Qed.

Lemma global_local_point : forall s p, rigid_surface s -> global_point s (local_point s p) = p.
Proof.
  intros s p H. unfold global_point, local_point, rigid_surface in *. destruct (sf_transformation s) as [t|]; [|reflexivity].
  unfold rigid_point. rewrite orthogonal_inv_r by exact H. apply vec_eq; cbn; ring.
Qed.
Lemma global_local_vector : forall s p, rigid_surface s -> global_vector s (local_vector s p) = p.
Proof.
  intros s p H. unfold global_vector, local_vector, rigid_surface in *. destruct (sf_transformation s) as [t|]; [|reflexivity].
  unfold rigid_vector. apply orthogonal_inv_r. exact H.
Qed.
Lemma local_global_vector : forall s p, rigid_surface s -> local_vector s (global_vector s p) = p.
Proof.
  intros s p H. unfold global_vector, local_vector, rigid_surface in *. destruct (sf_transformation s) as [t|]; [|reflexivity].
  unfold rigid_vector. apply orthogonal_inv_l. exact H.
Qed.
Lemma global_point_line : forall s p k d, global_point s (vadd p (vscale k d)) = vadd (global_point s p) (vscale k (global_vector s d)).
Proof.
  intros s p k d. unfold global_point, global_vector. destruct (sf_transformation s) as [t|]; [|reflexivity].
  unfold rigid_point, rigid_vector. rewrite mapply_add, mapply_scale. apply vec_eq; cbn; ring.
Qed.
Lemma local_point_line : forall s p k d, local_point s (vadd p (vscale k d)) = vadd (local_point s p) (vscale k (local_vector s d)).
Proof.
  intros s p k d. unfold local_point, local_vector. destruct (sf_transformation s) as [t|]; [|reflexivity].
  rewrite <- mapply_scale, <- mapply_add. f_equal. apply vec_eq; cbn; ring.
Qed.
Lemma local_vector_scale : forall s k d, local_vector s (vscale k d) = vscale k (local_vector s d).
Proof. intros s k d. unfold local_vector. destruct (sf_transformation s); [apply mapply_scale|reflexivity]. Qed.
Lemma global_vector_scale : forall s k d, global_vector s (vscale k d) = vscale k (global_vector s d).
Proof. intros s k d. unfold global_vector, rigid_vector. destruct (sf_transformation s); [apply mapply_scale|reflexivity]. Qed.
Lemma local_vector_unit : forall s d, rigid_surface s -> is_unit d -> is_unit (local_vector s d).
Proof.
  intros s d H U. unfold local_vector, rigid_surface in *. destruct (sf_transformation s) as [t|]; [|exact U].
  apply mapply_unit; [|exact U]. apply orthogonal_trans. exact H.
Qed.
Lemma global_vector_unit : forall s d, rigid_surface s -> is_unit d -> is_unit (global_vector s d).
Proof.
  intros s d H U. unfold global_vector, rigid_surface in *. destruct (sf_transformation s) as [t|]; [|exact U].
  apply mapply_unit; [exact H|exact U].
Qed.

(** What a plain surface does to a direction, in its own coordinates and outside. *)
Definition flip (s : surface) (d : vec3) : vec3 :=
  if mat_is_mirror (sf_material s) then V3 (vx d) (vy d) (- vz d) else d.
Definition image (s : surface) (d : vec3) : vec3 := global_vector s (flip s (local_vector s d)).

Lemma flip_flip : forall s d, flip s (flip s d) = d.
Proof. intros s d. unfold flip. destruct (mat_is_mirror _); [|reflexivity]. apply vec_eq; cbn; ring. Qed.
Lemma flip_scale : forall s k d, flip s (vscale k d) = vscale k (flip s d).
Proof. intros s k d. unfold flip. destruct (mat_is_mirror _); [|reflexivity]. apply vec_eq; cbn; ring. Qed.
Lemma flip_unit : forall s d, is_unit d -> is_unit (flip s d).
Proof. intros s d. unfold flip, is_unit, norm2, dot. destruct (mat_is_mirror _); cbn; intros; lra. Qed.
Lemma flip_z : forall s d, vz (flip s d) = 0 <-> vz d = 0.
Proof. intros s d. unfold flip. destruct (mat_is_mirror _); cbn; split; intros; lra. Qed.

Lemma image_image : forall s d, rigid_surface s -> image s (image s d) = d.
Proof. intros s d H. unfold image. rewrite local_global_vector, flip_flip by exact H. apply global_local_vector. exact H. Qed.
Lemma image_scale : forall s k d, image s (vscale k d) = vscale k (image s d).
Proof. intros. unfold image. rewrite local_vector_scale, flip_scale. apply global_vector_scale. Qed.
Lemma image_unit : forall s d, rigid_surface s -> is_unit d -> is_unit (image s d).
Proof. intros. apply global_vector_unit; [assumption|]. apply flip_unit. apply local_vector_unit; assumption. Qed.
Lemma image_z : forall s d, rigid_surface s -> vz (local_vector s (image s d)) = 0 <-> vz (local_vector s d) = 0.
Proof. intros s d H. unfold image. rewrite local_global_vector by exact H. apply flip_z. Qed.

Lemma plain_step : forall s r p d, plain s -> r_position r = Some p -> r_direction r = Some d ->
  r_index r = 1 -> is_unit d ->
  (vz (local_vector s d) = 0 -> r_position (surface_propagate s r) = None) /\
  (vz (local_vector s d) <> 0 ->
     r_position (surface_propagate s r) = Some (vadd p (vscale (- vz (local_point s p) / vz (local_vector s d)) d)) /\
     r_direction (surface_propagate s r) = Some (image s d)) /\
  r_index (surface_propagate s r) = 1.
Proof.
  intros s r p d (R & G & I1 & I0 & N & M) Hp Hd Hn U.
  destruct r as [w p0 d0 i a n v]. cbn in Hp, Hd, Hn. subst.
  unfold surface_propagate. rewrite inverse_ray.
  assert (U' := local_vector_unit s d R U).
  set (pl := local_point s p) in *. set (dl := local_vector s d) in *.
  assert (Tp : forall x, r_position (apply_transformation (sf_transformation s) x) = omap (global_point s) (r_position x)).
  { intros x. unfold apply_transformation, global_point. destruct (sf_transformation s); [reflexivity|]. destruct (r_position x); reflexivity. }
  assert (Td : forall x, r_direction (apply_transformation (sf_transformation s) x) = omap (global_vector s) (r_direction x)).
  { intros x. unfold apply_transformation, global_vector. destruct (sf_transformation s); [reflexivity|]. destruct (r_direction x); reflexivity. }
  assert (Ti : forall x, r_index (apply_transformation (sf_transformation s) x) = r_index x).
  { intros x. unfold apply_transformation. destruct (sf_transformation s); reflexivity. }
  rewrite Tp, Td, Ti. rewrite surface_local_position, incident_rulings_position.
  assert (Clip : forall A (f : ray -> A) r, (forall b r, f (set_unvignetted b r) = f r) ->
    f (match sf_aperture s with None => r | Some ap => clip_rays ap r end) = f r).
  { intros A f r0 Hf. destruct (sf_aperture s); [apply Hf|reflexivity]. }
  unfold surface_local. rewrite (Clip _ r_direction) by reflexivity. rewrite (Clip _ r_index) by reflexivity.
  cbn [r_direction r_index]. unfold surface_incident. rewrite G. unfold surface_normal, sag_propagate.
  cbn [r_position r_direction r_intensity r_attenuation r_index obind set_intensity set_position].
  split; [|split].
  - intros Z. rewrite (I0 _ _ Z). reflexivity.
  - intros Z. assert (Z' := Z). rewrite (I1 _ _ Z). split.
    + cbn [omap]. rewrite global_point_line. unfold pl at 1, dl at 2. rewrite global_local_point, global_local_vector by exact R. reflexivity.
    + cbn [r_position r_direction r_intensity r_attenuation r_index obind set_intensity set_position].
      rewrite N. cbn [obind].
      unfold image, flip. fold dl. destruct M as [[Mm Mi]|[Mm Mi]]; rewrite Mm, Mi; cbn [r_index set_intensity set_position].
      * rewrite snells_law_reflect; [|lra|unfold is_unit, norm2, dot; cbn; lra|exact U'].
        cbn [omap]. f_equal. f_equal. unfold mirror_image. apply vec_eq; cbn; unfold dot; cbn; ring.
      * rewrite snells_law_transmit_same by (auto; lra). reflexivity.
  - destruct M as [[Mm Mi]|[Mm Mi]]; rewrite Mi; reflexivity.
Qed.

(** The coefficient of the intercept brings the point onto the plane: the intercept of a
    line does not depend on the point chosen on it. *)
Lemma intercept_line : forall s p d k e, e <> 0 -> vz (local_vector s d) <> 0 ->
  let q := vadd p (vscale k d) in let d' := vscale e d in
  vadd q (vscale (- vz (local_point s q) / vz (local_vector s d')) d')
  = vadd p (vscale (- vz (local_point s p) / vz (local_vector s d)) d).
Proof.
  intros s p d k e E Z q d'. unfold q, d'. rewrite local_point_line, local_vector_scale.
  apply vec_eq; cbn; field; auto.
Qed.

Lemma on_plane : forall s p d, vz (local_vector s d) <> 0 ->
  vz (local_point s (vadd p (vscale (- vz (local_point s p) / vz (local_vector s d)) d))) = 0.
Proof. intros s p d Z. rewrite local_point_line. cbn. field. exact Z. Qed.

Lemma retrace : forall ss, List.Forall plain ss -> forall r p d,
  r_position r = Some p -> r_direction r = Some d -> r_index r = 1 -> is_unit d ->
  forall q c, r_position (propagate_list surface_propagate ss r) = Some q ->
  r_direction (propagate_list surface_propagate ss r) = Some c ->
  is_unit c /\
  forall r' e q', e = 1 \/ e = -1 -> on_line q c q' -> r_position r' = Some q' ->
    r_direction r' = Some (vscale e c) -> r_index r' = 1 ->
    exists x, r_position (propagate_list surface_propagate (rev ss) r') = Some x /\
      r_direction (propagate_list surface_propagate (rev ss) r') = Some (vscale e d) /\
      r_index (propagate_list surface_propagate (rev ss) r') = 1 /\
      on_line p d x /\
      (forall s, hd_error ss = Some s -> vz (local_point s x) = 0).
Proof.
  intros ss. induction ss as [|s ss IH]; intros P r p d Hp Hd Hn U q c Hq Hc.
  - cbn in Hq, Hc. rewrite Hp in Hq. rewrite Hd in Hc. injection Hq as <-. injection Hc as <-. split; [exact U|].
    intros r' e q' E L Hp' Hd' Hn'. exists q'. cbn. repeat split; auto. intros s; discriminate.
  - inversion P as [|? ? Ps Pss]; subst. cbn [propagate_list] in Hq, Hc.
    destruct (plain_step s r p d Ps Hp Hd Hn U) as (S0 & S1 & S2).
    destruct (Req_dec (vz (local_vector s d)) 0) as [Z|Z].
    { (* a ray without a position stays without *)
      exfalso. specialize (S0 Z). revert Hq. generalize (surface_propagate s r) S0. clear -Pss.
      induction ss as [|s ss IHs]; intros r0 N H; cbn in H; [congruence|].
      inversion Pss; subst. apply (IHs H3 (surface_propagate s r0)); [|exact H].
      unfold surface_propagate, apply_transformation, apply_inverse. destruct H2 as (R & _).
      assert (L : forall x, r_position x = None -> r_position (surface_local s x) = None).
      { intros x X. rewrite surface_local_position, incident_rulings_position. unfold sag_propagate. rewrite X. reflexivity. }
      destruct (sf_transformation s); cbn; [rewrite L; [reflexivity|cbn; rewrite N; reflexivity]|apply L; exact N]. }
    destruct (S1 Z) as [S1p S1d].
    set (p1 := vadd p (vscale (- vz (local_point s p) / vz (local_vector s d)) d)) in *.
    assert (R : rigid_surface s) by apply Ps.
    destruct (IH Pss (surface_propagate s r) p1 (image s d) S1p S1d S2 (image_unit s d R U) q c Hq Hc) as [Uc K].
    split; [exact Uc|]. intros r' e q' E L Hp' Hd' Hn'.
    destruct (K r' e q' E L Hp' Hd' Hn') as (x & Kx & Kd & Kn & Kl & _).
    cbn [rev]. rewrite propagate_app. cbn [propagate_list].
    set (r1 := propagate_list surface_propagate (rev ss) r') in *.
    assert (Ue : is_unit (vscale e (image s d))).
    { assert (Ui := image_unit s d R U). unfold is_unit in *. rewrite norm2_scale, Ui. destruct E as [->| ->]; ring. }
    destruct (plain_step s r1 x (vscale e (image s d)) Ps Kx Kd Kn Ue) as (_ & T1 & T2).
    assert (Ne : e <> 0) by (destruct E; lra).
    assert (Zi : vz (local_vector s (image s d)) <> 0) by (rewrite image_z by exact R; exact Z).
    assert (Ze : vz (local_vector s (vscale e (image s d))) <> 0).
    { rewrite local_vector_scale. cbn. apply Rmult_integral_contrapositive_currified; assumption. }
    destruct (T1 Ze) as [T1p T1d].
    destruct Kl as [k Kl]. subst x.
    assert (Q := intercept_line s p1 (image s d) k e Ne Zi). cbv zeta in Q. rewrite Q in T1p.
    assert (O := on_plane s p d Z). fold p1 in O.
    rewrite O in T1p.
    exists p1. split; [rewrite T1p; f_equal; apply vec_eq; cbn; field; auto|].
    split; [rewrite T1d, image_scale, image_image by exact R; reflexivity|]. split; [exact T2|].
    split; [exists (- vz (local_point s p) / vz (local_vector s d)); reflexivity|].
    intros s0 Hs. injection Hs as <-. exact O.
Qed.

(** The statement for a stop at the end of the subsystem. *)
Lemma retrace_stop : forall ss stop, List.Forall plain (ss ++ [stop]) -> forall r p d,
  r_position r = Some p -> r_direction r = Some d -> r_index r = 1 -> is_unit d ->
  vz (local_point stop p) = 0 ->
  forall back q c, back = propagate_list surface_propagate (rev (ss ++ [stop])) r ->
  r_position back = Some q -> r_direction back = Some c ->
  forall e, e = 1 \/ e = -1 ->
  exists out, out = propagate_list surface_propagate (ss ++ [stop]) (set_direction (Some (vscale e c)) back) /\
    r_position out = Some p /\ r_direction out = Some (vscale e d).
Proof.
  intros ss stop P r p d Hp Hd Hn U O back q c B Hq Hc e E.
  assert (P' : List.Forall plain (rev (ss ++ [stop]))) by (apply Forall_rev; exact P).
  subst back.
  destruct (retrace _ P' r p d Hp Hd Hn U q c Hq Hc) as [Uc K].
  eexists. split; [reflexivity|].
  set (back := propagate_list surface_propagate (rev (ss ++ [stop])) r) in *.
  assert (Nb : r_index back = 1).
  { unfold back. clear - P' Hn. revert r Hn. induction (rev (ss ++ [stop])) as [|s l IH]; intros r Hn; [exact Hn|].
    inversion P'; subst. cbn. apply IH; [assumption|].
    destruct H1 as (_ & _ & _ & _ & _ & M).
    assert (X : r_index (surface_propagate s r) = mat_index (sf_material s) (surface_incident s (apply_inverse (sf_transformation s) r))).
    { unfold surface_propagate, surface_local, apply_transformation. destruct (sf_transformation s), (sf_aperture s); reflexivity. }
    rewrite X. destruct M as [[_ M]|[_ M]]; rewrite M; [|reflexivity].
    unfold surface_incident, sag_propagate, apply_inverse. destruct (sf_rulings s), (sf_transformation s); exact Hn. }
  destruct (K (set_direction (Some (vscale e c)) back) e q E) as (x & Kx & Kd & _ & Kl & Kz); auto.
  { exists 0. apply vec_eq; cbn; ring. }
  rewrite rev_involutive in Kx, Kd. split; [|exact Kd].
  rewrite Kx. f_equal. destruct Kl as [t ->].
  rewrite rev_app_distr in Kz. cbn in Kz. specialize (Kz stop eq_refl).
  rewrite local_point_line in Kz. cbn in Kz. rewrite O in Kz.
  destruct (Req_dec (vz (local_vector stop d)) 0) as [Z|Z].
  - (* a grazing ray has no image, contradiction *)
    exfalso. revert Hq. unfold back. rewrite rev_app_distr. cbn [rev app propagate_list].
    assert (Ps : plain stop) by (rewrite Forall_forall in P; apply P, in_or_app; right; left; reflexivity).
    destruct (plain_step stop r p d Ps Hp Hd Hn U) as (S0 & _ & _). specialize (S0 Z).
    clear - S0. generalize (surface_propagate stop r) S0. induction (rev ss) as [|s l IHs]; intros r0 N; cbn; [congruence|].
    apply IHs. unfold surface_propagate, apply_transformation, apply_inverse.
    assert (L : forall x, r_position x = None -> r_position (surface_local s x) = None).
    { intros x X. rewrite surface_local_position, incident_rulings_position. unfold sag_propagate. rewrite X. reflexivity. }
    destruct (sf_transformation s); cbn; [rewrite L; [reflexivity|cbn; rewrite N; reflexivity]|apply L; exact N].
  - assert (t = 0) by (destruct (Rmult_integral t (vz (local_vector stop d))); [lra|assumption|contradiction]).
    subst t. apply vec_eq; cbn; ring.
Qed.

Lemma turn_round_sign : forall obj r c, r_direction r = Some c ->
  exists e, (e = 1 \/ e = -1) /\ turn_round obj r = set_direction (Some (vscale e c)) r.
Proof.
  intros obj r c H. unfold turn_round.
  assert (K : exists e, (e = 1 \/ e = -1) /\ r = set_direction (Some (vscale e c)) r).
  { exists 1. split; [left; reflexivity|]. replace (vscale 1 c) with c by (apply vec_eq; cbn; ring).
    rewrite <- H. symmetry. apply ray_eta. }
  destruct (let* x := _ in _) as [x|]; [|exact K]. destruct (Rlt_dec 0 x); [|exact K].
  exists (-1). split; [right; reflexivity|]. rewrite H. cbn. f_equal. f_equal. apply vec_eq; cbn; ring.
Qed.

Lemma stop_ray_retraced : forall sys i stop r p d,
  (forall t, sys_transformation sys = Some t -> is_rigid t) ->
  nth_error (surfaces_all sys) i = Some stop ->
  (forall j s, (j <= i)%nat -> nth_error (surfaces_all sys) j = Some s -> plain (st_surface s)) ->
  r_position r = Some p -> r_direction r = Some d -> r_index r = 1 -> is_unit d ->
  vz (local_point (st_surface stop) p) = 0 ->
  r_position (stop_ray sys i r) <> None -> r_direction (stop_ray sys i r) <> None ->
  exists out, nth_error (trace sys (stop_ray sys i r)) i = Some out /\
    r_position out = Some p /\ (r_direction out = Some d \/ r_direction out = Some (vopp d)).
Proof.
  intros sys i stop r p d T Hi P Hp Hd Hn U O D1 D2.
  set (l := map st_surface (firstn (S i) (surfaces_all sys))).
  assert (Hl : exists ss, l = ss ++ [st_surface stop]).
  { exists (map st_surface (firstn i (surfaces_all sys))). unfold l.
    assert (F : firstn (S i) (surfaces_all sys) = firstn i (surfaces_all sys) ++ [stop]).
    { revert Hi. generalize (surfaces_all sys). clear. intros l. revert i. induction l as [|a l IH]; intros [|i] H; try discriminate.
      - cbn in H. injection H as ->. reflexivity.
      - cbn in H. cbn [firstn app]. f_equal. apply (IH i H). }
    rewrite F, map_app. reflexivity. }
  destruct Hl as [ss Hl].
  assert (Pl : List.Forall plain (ss ++ [st_surface stop])).
  { rewrite <- Hl. unfold l. rewrite Forall_map, Forall_forall. intros s I.
    apply In_nth_error in I. destruct I as [j J].
    assert (j < length (firstn (S i) (surfaces_all sys)))%nat by (apply nth_error_Some; congruence).
    rewrite firstn_length in H.
    apply (P j); [lia|]. rewrite <- J. symmetry.
    assert (X : forall (A : Type) n (m : list A) k, (k < n)%nat -> nth_error (firstn n m) k = nth_error m k).
    { intros A. induction n as [|n IHn]; intros m k K; [lia|]. destruct m as [|a m]; [destruct k; reflexivity|].
      destruct k; [reflexivity|]. cbn. apply IHn. lia. }
    apply X. lia. }
  assert (E0 : apply_inverse (sys_transformation sys) (stop_ray sys i r)
     = turn_round (st_surface (List.last (reversed_subsystem (surfaces_all sys) i) (sys_object sys)))
         (propagate_list surface_propagate (rev l) r)).
  { unfold stop_ray. unfold reversed_subsystem at 2. rewrite map_rev. fold l.
    generalize (turn_round (st_surface (last (reversed_subsystem (surfaces_all sys) i) (sys_object sys)))
      (propagate_list surface_propagate (rev l) r)). intros r0.
    destruct (sys_transformation sys) as [t|]; [|reflexivity]. cbn. apply ray_transform_inv. apply T. reflexivity. }
  set (obj := st_surface (List.last (reversed_subsystem (surfaces_all sys) i) (sys_object sys))) in *.
  set (back := propagate_list surface_propagate (rev l) r) in *.
  assert (Def : r_position back <> None /\ r_direction back <> None).
  { assert (S : r_position (apply_inverse (sys_transformation sys) (stop_ray sys i r)) <> None /\
                r_direction (apply_inverse (sys_transformation sys) (stop_ray sys i r)) <> None).
    { unfold apply_inverse. destruct (sys_transformation sys); [|auto]. cbn.
      destruct (r_position (stop_ray sys i r)), (r_direction (stop_ray sys i r)); cbn; split; congruence. }
    rewrite E0 in S. destruct S as [S1 S2]. unfold turn_round in S1, S2.
    destruct (let* x := _ in _) as [x|]; [|auto]. destruct (Rlt_dec 0 x); [|auto].
    cbn [set_direction r_position r_direction] in S1, S2. split; [exact S1|]. intros X; rewrite X in S2; cbn in S2; congruence. }
  destruct Def as [Dp Dd].
  destruct (r_position back) as [q|] eqn:Hq; [|congruence]. destruct (r_direction back) as [c|] eqn:Hc; [|congruence].
  destruct (turn_round_sign obj back c Hc) as (e & He & Ht).
  assert (Eb : back = propagate_list surface_propagate (rev (ss ++ [st_surface stop])) r) by (unfold back; rewrite Hl; reflexivity).
  destruct (retrace_stop ss (st_surface stop) Pl r p d Hp Hd Hn U O back q c Eb Hq Hc e He) as (out & Eo & Op & Od).
  exists out. split; [|split; [exact Op|]].
  - unfold trace. rewrite E0. fold back. rewrite Ht.
    assert (L : (i < length (map st_surface (surfaces_all sys)))%nat).
    { rewrite map_length. apply nth_error_Some. congruence. }
    destruct (accumulate_spec surface_propagate (map st_surface (surfaces_all sys)) (set_direction (Some (vscale e c)) back)) as (_ & A & _).
    rewrite (A i L). f_equal. rewrite Eo. unfold propagate_rays. cbn [as_list]. rewrite firstn_map. fold l. rewrite Hl. reflexivity.
  - rewrite Od. destruct He as [->| ->]; [left|right]; f_equal; apply vec_eq; cbn; ring.
Qed.
