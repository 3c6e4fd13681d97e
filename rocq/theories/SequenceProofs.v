From Coq Require Import Reals List Bool Lra Lia Psatz.
From Verif Require Import Vec VecLemmas Num NumLemmas RayModel SnellModel SnellSpec SnellProofs
  SurfaceModel SequenceSpec.
Import ListNotations.
Open Scope R_scope.

(** * Lists *)
Lemma last_cons {A} (l : list A) : forall a d, last (a :: l) d = last l a.
Proof.
  induction l as [|b l IH]; intros a d; [reflexivity|].
  change (last (b :: l) d = last (b :: l) a). rewrite !IH. reflexivity.
Qed.

Section Lists.
  Context {P X : Type} (step : P -> X -> X).

  Fixpoint scan (l : list P) (x : X) : list X :=
    match l with [] => [] | p :: l => step p x :: scan l (step p x) end.

  Lemma accumulate_loop_scan l : forall res x,
    accumulate_loop step l res x = res ++ scan l x.
  Proof.
    induction l; simpl; intros; [rewrite app_nil_r; auto|].
    rewrite IHl, <- app_assoc; reflexivity.
  Qed.

  Lemma accumulate_scan p x : accumulate_rays step p x = scan (as_list p) x.
  Proof. unfold accumulate_rays; rewrite accumulate_loop_scan; reflexivity. Qed.

  Lemma scan_length l : forall x, length (scan l x) = length l.
  Proof. induction l; simpl; intros; auto. Qed.

  Lemma scan_nth l : forall x i, (i < length l)%nat ->
    nth_error (scan l x) i = Some (propagate_list step (firstn (S i) l) x).
  Proof.
    induction l; simpl; intros x i Hi; [lia|].
    destruct i; simpl; auto. apply IHl; lia.
  Qed.

  Lemma propagate_app l1 : forall l2 x,
    propagate_list step (l1 ++ l2) x = propagate_list step l2 (propagate_list step l1 x).
  Proof. induction l1; simpl; intros; auto. Qed.

  Lemma scan_app l1 : forall l2 x,
    scan (l1 ++ l2) x = scan l1 x ++ scan l2 (propagate_list step l1 x).
  Proof. induction l1; simpl; intros; auto. rewrite IHl1; auto. Qed.

  Lemma scan_last l : forall x, last (scan l x) x = propagate_list step l x.
  Proof.
    induction l as [|p l IH]; intros x; auto.
    cbn [scan propagate_list]. rewrite <- (IH (step p x)). apply last_cons.
  Qed.
End Lists.

Lemma accumulate_spec {P X} (step : P -> X -> X) (l : list P) (x : X) :
  length (accumulate_rays step (Sequence l) x) = length l /\
  (forall i, (i < length l)%nat ->
     nth_error (accumulate_rays step (Sequence l) x) i
     = Some (propagate_rays step (Sequence (firstn (S i) l)) x)) /\
  last (accumulate_rays step (Sequence l) x) x = propagate_rays step (Sequence l) x.
Proof.
  rewrite accumulate_scan; simpl. repeat split.
  - apply scan_length.
  - intros; apply scan_nth; auto.
  - apply scan_last.
Qed.

Lemma propagate_concat {P X} (step : P -> X -> X) (l1 l2 : list P) (x : X) :
  propagate_rays step (Sequence (l1 ++ l2)) x
    = propagate_rays step (Sequence l2) (propagate_rays step (Sequence l1) x) /\
  accumulate_rays step (Sequence (l1 ++ l2)) x
    = accumulate_rays step (Sequence l1) x
      ++ accumulate_rays step (Sequence l2) (propagate_rays step (Sequence l1) x).
Proof.
  rewrite !accumulate_scan; unfold propagate_rays; simpl.
  split; [apply propagate_app|apply scan_app].
Qed.

Lemma single_spec {P X} (step : P -> X -> X) (p : P) (x : X) :
  propagate_rays step (Single p) x = step p x /\
  accumulate_rays step (Single p) x = [step p x].
Proof. rewrite accumulate_scan; split; reflexivity. Qed.

(** The trace of [propagate_rays] is characterised by its recursion equations, so
    the theorems below speak about every intermediate ray. *)
Lemma accumulate_cons {P X} (step : P -> X -> X) p l x :
  accumulate_rays step (Sequence (p :: l)) x
  = step p x :: accumulate_rays step (Sequence l) (step p x).
Proof. rewrite !accumulate_scan; reflexivity. Qed.

(** * Rigid motions *)
Lemma rigid_inv_point t v : is_rigid t -> rigid_point (rigid_inv t) (rigid_point t v) = v.
Proof.
  intros H. unfold rigid_point, rigid_inv; simpl.
  rewrite mapply_add, orthogonal_inv_l by auto. vec_ring.
Qed.
Lemma rigid_inv_point_r t v : is_rigid t -> rigid_point t (rigid_point (rigid_inv t) v) = v.
Proof.
  intros H. unfold rigid_point, rigid_inv; simpl.
  rewrite mapply_add, mapply_opp, !orthogonal_inv_r by auto. vec_ring.
Qed.
Lemma rigid_inv_vector t v : is_rigid t -> rigid_vector (rigid_inv t) (rigid_vector t v) = v.
Proof. intros H; unfold rigid_vector; simpl. apply orthogonal_inv_l; auto. Qed.
Lemma rigid_inv_vector_r t v : is_rigid t -> rigid_vector t (rigid_vector (rigid_inv t) v) = v.
Proof. intros H; unfold rigid_vector; simpl. apply orthogonal_inv_r; auto. Qed.

Lemma rigid_inv_rigid t : is_rigid t -> is_rigid (rigid_inv t).
Proof. intros; unfold is_rigid; simpl; apply orthogonal_trans; auto. Qed.
Lemma rigid_compose_rigid a b : is_rigid a -> is_rigid b -> is_rigid (rigid_compose a b).
Proof. intros; unfold is_rigid; simpl; apply orthogonal_mmul; auto. Qed.

Lemma rigid_compose_point a b v :
  rigid_point (rigid_compose a b) v = rigid_point a (rigid_point b v).
Proof. unfold rigid_point; simpl. rewrite mapply_mmul, mapply_add. vec_ring. Qed.
Lemma rigid_compose_vector a b v :
  rigid_vector (rigid_compose a b) v = rigid_vector a (rigid_vector b v).
Proof. unfold rigid_vector; simpl. apply mapply_mmul. Qed.

Lemma omap_comp {A B C} (f : A -> B) (g : B -> C) o :
  omap g (omap f o) = omap (fun x => g (f x)) o.
Proof. destruct o; reflexivity. Qed.
Lemma omap_ext {A B} (f g : A -> B) o : (forall x, f x = g x) -> omap f o = omap g o.
Proof. destruct o; simpl; intros; [f_equal; auto|auto]. Qed.
Lemma omap_id {A} (f : A -> A) o : (forall x, f x = x) -> omap f o = o.
Proof. destruct o; simpl; intros; [f_equal; auto|auto]. Qed.

Lemma ray_eta r : mkRay (r_wavelength r) (r_position r) (r_direction r) (r_intensity r)
  (r_attenuation r) (r_index r) (r_unvignetted r) = r.
Proof. destruct r; reflexivity. Qed.

Lemma ray_transform_compose a b r :
  ray_transform (rigid_compose a b) r = ray_transform a (ray_transform b r).
Proof.
  unfold ray_transform; simpl. rewrite !omap_comp. f_equal; apply omap_ext; intros.
  - apply rigid_compose_point.
  - apply rigid_compose_vector.
Qed.
Lemma ray_transform_inv t r : is_rigid t -> ray_transform (rigid_inv t) (ray_transform t r) = r.
Proof.
  intros H. unfold ray_transform; simpl. rewrite !omap_comp, !omap_id.
  - apply ray_eta.
  - intros; apply rigid_inv_vector; auto.
  - intros; apply rigid_inv_point; auto.
Qed.
Lemma ray_transform_inv_r t r : is_rigid t -> ray_transform t (ray_transform (rigid_inv t) r) = r.
Proof.
  intros H. unfold ray_transform; simpl. rewrite !omap_comp, !omap_id.
  - apply ray_eta.
  - intros; apply rigid_inv_vector_r; auto.
  - intros; apply rigid_inv_point_r; auto.
Qed.

(** * C18 *)
Lemma inverse_moved t s r : is_rigid t -> rigid_surface s ->
  apply_inverse (sf_transformation (move_surface t s)) (ray_transform t r)
  = apply_inverse (sf_transformation s) r.
Proof.
  intros Ht Hs. unfold rigid_surface in Hs. simpl.
  destruct (sf_transformation s) as [t'|]; simpl.
  - assert (Hc : is_rigid (rigid_compose t t')) by (apply rigid_compose_rigid; auto).
    rewrite <- (ray_transform_inv_r t' r Hs) at 1.
    rewrite <- (ray_transform_compose t t'), ray_transform_inv; auto.
  - apply ray_transform_inv; auto.
Qed.

Lemma transform_moved t s r :
  apply_transformation (sf_transformation (move_surface t s)) r
  = ray_transform t (apply_transformation (sf_transformation s) r).
Proof.
  simpl. destruct (sf_transformation s); simpl; auto. apply ray_transform_compose.
Qed.

Lemma surface_local_move t s r : surface_local (move_surface t s) r = surface_local s r.
Proof. reflexivity. Qed.

Lemma surface_propagate_move t s r : is_rigid t -> rigid_surface s ->
  surface_propagate (move_surface t s) (ray_transform t r)
  = ray_transform t (surface_propagate s r).
Proof.
  intros. unfold surface_propagate.
  rewrite transform_moved, inverse_moved by auto. reflexivity.
Qed.

Lemma trace_move t ss : is_rigid t -> Forall rigid_surface ss -> forall r,
  propagate_rays surface_propagate (Sequence (map (move_surface t) ss)) (ray_transform t r)
    = ray_transform t (propagate_rays surface_propagate (Sequence ss) r) /\
  accumulate_rays surface_propagate (Sequence (map (move_surface t) ss)) (ray_transform t r)
    = map (ray_transform t) (accumulate_rays surface_propagate (Sequence ss) r).
Proof.
  intros Ht. rewrite !accumulate_scan || idtac.
  induction ss as [|s ss IH]; intros Hss r; [split; reflexivity|].
  inversion Hss; subst.
  destruct (IH H2 (surface_propagate s r)) as [E1 E2].
  cbn [map]. rewrite !accumulate_cons. unfold propagate_rays in *. simpl in *.
  rewrite surface_propagate_move by auto. split; [exact E1|].
  rewrite E2. reflexivity.
Qed.

(** * C16 *)
Lemma mapply_unit m d : orthogonal m -> is_unit d -> is_unit (mapply m d).
Proof. intros; unfold is_unit; rewrite orthogonal_norm2; auto. Qed.

Lemma surface_direction_unit s r d : rigid_surface s -> unit_normals s ->
  r_direction (surface_propagate s r) = Some d -> is_unit d.
Proof.
  intros Hs Hn H.
  set (q := apply_inverse (sf_transformation s) r) in *.
  assert (Hq : forall b, r_direction (surface_local s q) = Some b -> is_unit b).
  { intros b. unfold surface_local.
    set (r1 := surface_incident s q).
    assert (E : forall x, r_direction (match sf_aperture s with None => x
                                       | Some ap => clip_rays ap x end) = r_direction x)
      by (intros; destruct (sf_aperture s); reflexivity).
    rewrite E; cbn [r_direction].
    destruct (r_direction r1) as [a|]; [cbn [obind]|discriminate].
    destruct (surface_normal s r1) as [u|] eqn:Eu; [cbn [obind]|discriminate].
    intros Hb. refine (snells_law_unit _ _ _ _ _ _ _ Hb).
    unfold surface_normal in Eu. destruct (r_position r1); [|discriminate].
    apply (Hn v); auto. }
  unfold surface_propagate in H. fold q in H. unfold rigid_surface in Hs.
  destruct (sf_transformation s) as [t|]; simpl in H; auto.
  destruct (r_direction (surface_local s q)) as [b|]; [|discriminate].
  simpl in H; inversion H; subst. unfold rigid_vector. apply mapply_unit; auto.
Qed.

Lemma trace_direction_unit ss : Forall rigid_surface ss -> Forall unit_normals ss ->
  forall r, (forall d, r_direction r = Some d -> is_unit d) ->
  forall d, r_direction (propagate_rays surface_propagate (Sequence ss) r) = Some d -> is_unit d.
Proof.
  unfold propagate_rays; simpl.
  induction ss as [|s ss IH]; simpl; intros H1 H2 r Hr d Hd; auto.
  inversion H1; inversion H2; subst.
  apply (IH H4 H8 (surface_propagate s r)); auto.
  intros d' Hd'. apply (surface_direction_unit s r); auto.
Qed.

(** * C14 *)
Lemma rigid_inv_point_local t v : is_rigid t ->
  mapply (mtrans (rg_mat t)) (vsub (rigid_point t v) (rg_shift t)) = v.
Proof.
  intros H. unfold rigid_point.
  replace (vsub (vadd (mapply (rg_mat t) v) (rg_shift t)) (rg_shift t))
    with (mapply (rg_mat t) v) by vec_ring.
  apply orthogonal_inv_l; auto.
Qed.

Lemma passes_local s r : rigid_surface s ->
  passes s (apply_transformation (sf_transformation s) r) =
  match sf_aperture s with
  | None => true
  | Some ap => ap_accepts ap (if ap_on_position ap then r_position r else r_direction r)
  end.
Proof.
  intros Hs. unfold passes, local_point, local_vector, rigid_surface in *.
  destruct (sf_aperture s) as [ap|]; auto.
  destruct (sf_transformation s) as [t|]; simpl.
  - rewrite !omap_comp, !omap_id; auto.
    + intros; unfold rigid_vector; apply orthogonal_inv_l; auto.
    + intros; apply rigid_inv_point_local; auto.
  - rewrite !omap_id; auto.
Qed.

Lemma unvignetted_transform t r :
  r_unvignetted (apply_transformation t r) = r_unvignetted r.
Proof. destruct t; reflexivity. Qed.
Lemma unvignetted_inverse t r :
  r_unvignetted (apply_inverse t r) = r_unvignetted r.
Proof. destruct t; reflexivity. Qed.
Lemma unvignetted_incident s r : r_unvignetted (surface_incident s r) = r_unvignetted r.
Proof. unfold surface_incident; destruct (sf_rulings s); reflexivity. Qed.

Lemma surface_local_unvignetted s r :
  r_unvignetted (surface_local s r) = r_unvignetted r &&
  match sf_aperture s with
  | None => true
  | Some ap => ap_accepts ap (if ap_on_position ap then r_position (surface_local s r)
                              else r_direction (surface_local s r))
  end.
Proof.
  unfold surface_local. destruct (sf_aperture s) as [ap|]; simpl.
  - rewrite unvignetted_incident. f_equal.
  - rewrite unvignetted_incident, andb_true_r. reflexivity.
Qed.

Lemma surface_unvignetted s r : rigid_surface s ->
  r_unvignetted (surface_propagate s r)
  = r_unvignetted r && passes s (surface_propagate s r).
Proof.
  intros Hs. unfold surface_propagate at 1 2.
  rewrite unvignetted_transform, surface_local_unvignetted, unvignetted_inverse.
  rewrite passes_local by auto. reflexivity.
Qed.

Lemma trace_unvignetted ss : Forall rigid_surface ss -> forall r,
  r_unvignetted (propagate_rays surface_propagate (Sequence ss) r)
  = r_unvignetted r &&
    forallb (fun p => passes (fst p) (snd p))
      (combine ss (accumulate_rays surface_propagate (Sequence ss) r)).
Proof.
  induction ss as [|s ss IH]; intros Hss r.
  - simpl. rewrite andb_true_r. reflexivity.
  - inversion Hss; subst. rewrite accumulate_cons.
    unfold propagate_rays in *; simpl in *. rewrite IH by auto.
    rewrite surface_unvignetted, andb_assoc; auto.
Qed.

Lemma trace_unvignetted_iff ss : Forall rigid_surface ss -> forall r,
  r_unvignetted (propagate_rays surface_propagate (Sequence ss) r) = true <->
  r_unvignetted r = true /\
  forall i s r', nth_error ss i = Some s ->
    nth_error (accumulate_rays surface_propagate (Sequence ss) r) i = Some r' ->
    passes s r' = true.
Proof.
  intros Hss r. rewrite trace_unvignetted by auto.
  rewrite andb_true_iff. apply and_iff_compat_l.
  rewrite accumulate_scan; simpl.
  assert (Hl := scan_length surface_propagate ss r).
  revert Hl. generalize (scan surface_propagate ss r) as rs. clear.
  induction ss as [|s ss IH]; intros [|r0 rs] Hl; simpl in *; try discriminate.
  - split; auto. intros _ [|i]; discriminate.
  - rewrite andb_true_iff, IH by lia. split.
    + intros [H1 H2] [|i] s' r'; simpl; intros E1 E2.
      * inversion E1; inversion E2; subst; auto.
      * eapply H2; eauto.
    + intros H; split.
      * apply (H O); auto.
      * intros i; apply (H (S i)).
Qed.

Lemma trace_monotone ss : Forall rigid_surface ss -> forall r i j ri rj,
  (i <= j)%nat ->
  nth_error (accumulate_rays surface_propagate (Sequence ss) r) i = Some ri ->
  nth_error (accumulate_rays surface_propagate (Sequence ss) r) j = Some rj ->
  r_unvignetted ri = false -> r_unvignetted rj = false.
Proof.
  intros Hss r i j ri rj Hij Hi Hj Hv.
  rewrite accumulate_scan in *; simpl in *.
  assert (Li : (i < length ss)%nat)
    by (rewrite <- (scan_length surface_propagate ss r); apply nth_error_Some; congruence).
  assert (Lj : (j < length ss)%nat)
    by (rewrite <- (scan_length surface_propagate ss r); apply nth_error_Some; congruence).
  rewrite scan_nth in Hi, Hj by auto.
  assert (Hi' : ri = propagate_list surface_propagate (firstn (S i) ss) r) by congruence.
  assert (Hj' : rj = propagate_list surface_propagate (firstn (S j) ss) r) by congruence.
  rewrite Hi' in Hv. rewrite Hj'. clear Hi Hj Hi' Hj' ri rj.
  assert (E : firstn (S j) ss = firstn (S i) ss ++ firstn (j - i) (skipn (S i) ss)).
  { rewrite <- (firstn_skipn (S i) ss) at 1. rewrite firstn_app.
    rewrite firstn_firstn, firstn_length.
    replace (Nat.min (S j) (S i)) with (S i) by lia.
    replace (Nat.min (S i) (length ss)) with (S i) by lia.
    reflexivity. }
  rewrite E, propagate_app.
  set (r0 := propagate_list surface_propagate (firstn (S i) ss) r) in *.
  assert (Hf : Forall rigid_surface (firstn (j - i) (skipn (S i) ss))).
  { rewrite Forall_forall in *. intros x Hx. apply Hss.
    rewrite <- (firstn_skipn (S i) ss). apply in_or_app; right.
    rewrite <- (firstn_skipn (j - i) (skipn (S i) ss)). apply in_or_app; left; auto. }
  assert (E2 := trace_unvignetted _ Hf r0). unfold propagate_rays in E2; cbn [as_list] in E2.
  rewrite E2, Hv. reflexivity.
Qed.

(** * C12 *)
Lemma vlen_scale_unit t u : 0 <= t -> is_unit u -> vlen (vscale t u) = t.
Proof.
  intros Ht Hu. unfold vlen. rewrite norm2_scale. unfold is_unit in Hu. rewrite Hu, Rmult_1_r.
  apply sqrt_square; auto.
Qed.

Lemma forward_chain_last u p qs : is_unit u -> forward_chain u p qs ->
  exists t, 0 <= t /\ last qs p = vadd p (vscale t u).
Proof.
  intros Hu. revert p. induction qs as [|q qs IH]; intros p H.
  - exists 0; split; [lra|]. simpl. vec_ring.
  - destruct H as [[t [Ht Hq]] H]. destruct (IH q H) as [t' [Ht' E]].
    exists (t + t'); split; [lra|].
    replace (last (q :: qs) p) with (last qs q).
    + rewrite E, Hq. vec_ring.
    + symmetry; apply last_cons.
Qed.

Lemma sag_propagate_att s r : r_attenuation (sag_propagate s r) = r_attenuation r.
Proof. reflexivity. Qed.

Lemma sag_chain ss : forall r p u i qs,
  is_unit u ->
  r_position r = Some p -> r_direction r = Some u -> r_intensity r = Some i ->
  map r_position (accumulate_rays sag_propagate (Sequence ss) r) = map Some qs ->
  forward_chain u p qs ->
  r_intensity (propagate_rays sag_propagate (Sequence ss) r)
  = Some (exp (- (r_attenuation r * vlen (vsub (last qs p) p))) * i).
Proof.
  induction ss as [|s ss IH]; intros r p u i qs Hu Hp Hd Hi Hq Hc.
  - rewrite accumulate_scan in Hq; simpl in Hq.
    destruct qs; [|discriminate]. unfold propagate_rays; simpl. rewrite Hi. f_equal.
    replace (vsub p p) with vzero by vec_ring.
    replace (vlen vzero) with 0 by (unfold vlen; vec_unfold;
      replace (0*0+0*0+0*0) with 0 by ring; symmetry; apply sqrt_0).
    rewrite Rmult_0_r, Ropp_0, exp_0; ring.
  - rewrite accumulate_cons in Hq. destruct qs as [|q qs]; [discriminate|].
    cbn [map] in Hq. inversion Hq as [[Hq1 Hq2]]; clear Hq.
    destruct Hc as [[t [Ht Eq]] Hc].
    set (r1 := sag_propagate s r) in *.
    assert (Hi1 : r_intensity r1 = Some (exp (- r_attenuation r * t) * i)).
    { unfold r1 in *. unfold sag_propagate in *. cbn [set_intensity set_position r_position r_intensity] in *.
      rewrite Hp, Hd in *. cbn [obind] in *. rewrite Hq1. cbn [obind]. rewrite Hi. cbn [obind].
      do 4 f_equal. rewrite Eq.
      replace (vsub (vadd p (vscale t u)) p) with (vscale t u) by vec_ring.
      apply vlen_scale_unit; auto. }
    assert (Hd1 : r_direction r1 = Some u) by (unfold r1; exact Hd).
    change (propagate_rays sag_propagate (Sequence (s :: ss)) r)
      with (propagate_rays sag_propagate (Sequence ss) r1).
    rewrite (IH r1 q u _ qs Hu Hq1 Hd1 Hi1 Hq2 Hc). f_equal.
    destruct (forward_chain_last u q qs Hu Hc) as [t' [Ht' El]].
    replace (last (q :: qs) p) with (last qs q).
    2:{ symmetry; apply last_cons. }
    rewrite El.
    replace (vsub (vadd q (vscale t' u)) q) with (vscale t' u) by vec_ring.
    replace (vsub (vadd q (vscale t' u)) p) with (vscale (t + t') u)
      by (rewrite Eq; vec_ring).
    rewrite !vlen_scale_unit by (auto; lra).
    change (r_attenuation r1) with (r_attenuation r).
    rewrite <- Rmult_assoc, <- exp_plus. do 2 f_equal. ring.
Qed.

Lemma exp_factor_bounds att d : 0 <= att -> 0 <= d ->
  0 < exp (- (att * d)) <= 1.
Proof.
  intros. split; [apply exp_pos|].
  rewrite <- exp_0. destruct (Req_dec (att * d) 0) as [->|Hn].
  - rewrite Ropp_0; lra.
  - left; apply exp_increasing. assert (0 <= att * d) by (apply Rmult_le_pos; auto). lra.
Qed.

Lemma sag_propagate_factor s r p q i :
  r_position r = Some p -> r_position (sag_propagate s r) = Some q -> r_intensity r = Some i ->
  r_intensity (sag_propagate s r) = Some (exp (- (r_attenuation r * vlen (vsub q p))) * i).
Proof.
  intros Hp Hq Hi. unfold sag_propagate in *. cbn in *. rewrite Hp in *.
  destruct (r_direction r) as [d|]; [|discriminate]. cbn in *. rewrite Hq, Hi. cbn.
  do 3 f_equal. ring.
Qed.

(** * C15 *)
Lemma incident_rulings_position s r :
  r_position (surface_incident s r) = r_position (sag_propagate (sf_sag s) r).
Proof. unfold surface_incident; destruct (sf_rulings s); reflexivity. Qed.
Lemma incident_intensity s r :
  r_intensity (surface_incident s r) = r_intensity (sag_propagate (sf_sag s) r).
Proof. unfold surface_incident; destruct (sf_rulings s); reflexivity. Qed.

Lemma surface_local_position s r :
  r_position (surface_local s r) = r_position (surface_incident s r).
Proof. unfold surface_local; destruct (sf_aperture s); reflexivity. Qed.

Lemma vlen_orthogonal m v : orthogonal m -> vlen (mapply m v) = vlen v.
Proof. intros; unfold vlen; rewrite orthogonal_norm2; auto. Qed.

Lemma local_point_transform s x : rigid_surface s ->
  omap (local_point s) (r_position (apply_transformation (sf_transformation s) x)) = r_position x.
Proof.
  intros Hs; unfold local_point, rigid_surface in *.
  destruct (sf_transformation s) as [t|]; simpl.
  - rewrite omap_comp, omap_id; auto. intros; apply rigid_inv_point_local; auto.
  - rewrite omap_id; auto.
Qed.

Lemma surface_intensity s r : rigid_surface s ->
  r_position (surface_propagate s r) <> None ->
  r_intensity (surface_propagate s r)
  = obind (kept_fraction s r (surface_propagate s r))
      (fun f => omap (fun i => i * f) (r_intensity r)).
Proof.
  intros Hs Hpos.
  set (q := apply_inverse (sf_transformation s) r) in *.
  assert (Hloc : omap (local_point s) (r_position (surface_propagate s r))
                 = r_position (surface_local s q)).
  { unfold surface_propagate. apply local_point_transform; auto. }
  assert (Hint : r_intensity (surface_propagate s r) = r_intensity (surface_local s q)).
  { unfold surface_propagate. destruct (sf_transformation s); reflexivity. }
  unfold kept_fraction. rewrite Hloc, Hint.
  rewrite surface_local_position, incident_rulings_position in *.
  destruct (r_position (surface_propagate s r)) as [xo|] eqn:Exo; [|congruence].
  destruct (r_position (sag_propagate (sf_sag s) q)) as [y|] eqn:Ey; [|discriminate].
  (* the sag step *)
  assert (Hq : exists x, r_position r = Some x /\
     exists x', r_position q = Some x' /\ vlen (vsub y x') = vlen (vsub xo x)).
  { unfold q, surface_propagate, rigid_surface, local_point in *.
    destruct (sf_transformation s) as [t|]; simpl in *.
    - destruct (r_position r) as [x|]; simpl in *; [|discriminate].
      exists x; split; auto. exists (rigid_point (rigid_inv t) x); split; [reflexivity|].
      inversion Hloc as [E].
      assert (E' : vsub y (rigid_point (rigid_inv t) x)
                   = mapply (mtrans (rg_mat t)) (vsub xo x)).
      { rewrite <- E. unfold rigid_point; simpl. rewrite !mapply_sub. vec_ring. }
      rewrite E, E'.
      apply vlen_orthogonal, orthogonal_trans; auto.
    - destruct (r_position r) as [x|] eqn:Ex; simpl in *.
      + exists x; split; auto. exists x; split; auto. inversion Hloc; subst; auto.
      + discriminate. }
  destruct Hq as (x & Hx & x' & Hx' & Hlen). rewrite Hx. cbn [obind].
  assert (Hatt : r_attenuation q = r_attenuation r)
    by (unfold q; destruct (sf_transformation s); reflexivity).
  assert (Hii : r_intensity q = r_intensity r)
    by (unfold q; destruct (sf_transformation s); reflexivity).
  fold (arriving s r) in *.
  assert (Hclip : forall z, r_intensity (match sf_aperture s with None => z
                     | Some ap => clip_rays ap z end) = r_intensity z)
    by (intros; destruct (sf_aperture s); reflexivity).
  unfold surface_local. rewrite Hclip. cbn [r_intensity].
  change (surface_incident s q) with (arriving s r).
  assert (Harr : r_intensity (arriving s r)
     = omap (fun i => exp (- (r_attenuation r * vlen (vsub xo x))) * i) (r_intensity r)).
  { unfold arriving. fold q. rewrite incident_intensity.
    rewrite <- Hii, <- Hatt, <- Hlen.
    destruct (r_intensity q) as [i|] eqn:Ei; simpl.
    - apply sag_propagate_factor; auto.
    - unfold sag_propagate; cbn.
      unfold sag_propagate in Ey; cbn in Ey. rewrite Ey; cbn. rewrite Hx'; cbn. rewrite Ei; auto. }
  assert (Hn : surface_normal s (arriving s r) = obind (Some y) (sag_normal (sf_sag s))).
  { unfold surface_normal, arriving. fold q. rewrite incident_rulings_position, Ey. reflexivity. }
  rewrite Harr, Hn. cbn [obind].
  unfold surface_efficiency.
  destruct (r_intensity r) as [i|]; cbn [omap obind].
  - destruct (mat_efficiency (sf_material s) (arriving s r) (sag_normal (sf_sag s) y)) as [e|];
      cbn [obind]; auto.
    destruct (sf_rulings s) as [g|]; cbn [obind].
    + destruct (rul_efficiency g (arriving s r) (sag_normal (sf_sag s) y)); cbn; auto.
      f_equal; ring.
    + f_equal; ring.
  - destruct (mat_efficiency (sf_material s) (arriving s r) (sag_normal (sf_sag s) y)) as [e|];
      cbn [obind]; auto.
    destruct (sf_rulings s) as [g|]; cbn [obind]; auto.
    destruct (rul_efficiency g (arriving s r) (sag_normal (sf_sag s) y)); cbn; auto.
Qed.

Lemma surface_intensity_some s r j : rigid_surface s ->
  r_intensity (surface_propagate s r) = Some j -> r_position (surface_propagate s r) <> None.
Proof.
  intros Hs Hj Hn.
  assert (Hint : r_intensity (surface_propagate s r)
     = r_intensity (surface_local s (apply_inverse (sf_transformation s) r))).
  { unfold surface_propagate. destruct (sf_transformation s); reflexivity. }
  assert (Hpos : r_position (surface_local s (apply_inverse (sf_transformation s) r)) = None).
  { unfold surface_propagate in Hn.
    destruct (sf_transformation s); simpl in *; auto.
    destruct (r_position (surface_local s (ray_transform (rigid_inv r0) r))); [discriminate|auto]. }
  rewrite surface_local_position, incident_rulings_position in Hpos.
  rewrite Hint in Hj. clear Hint.
  unfold surface_local in Hj.
  assert (Hclip : forall z, r_intensity (match sf_aperture s with None => z
                     | Some ap => clip_rays ap z end) = r_intensity z)
    by (intros; destruct (sf_aperture s); reflexivity).
  rewrite Hclip in Hj. cbn [r_intensity] in Hj. rewrite incident_intensity in Hj.
  unfold sag_propagate in Hpos, Hj; cbn in Hpos, Hj. rewrite Hpos in Hj; cbn in Hj. discriminate.
Qed.

Lemma surface_intensity_eq s r j : rigid_surface s ->
  r_intensity (surface_propagate s r) = Some j ->
  exists i f, r_intensity r = Some i /\
     kept_fraction s r (surface_propagate s r) = Some f /\ j = i * f.
Proof.
  intros Hs Hj. assert (Hp := surface_intensity_some s r j Hs Hj).
  rewrite surface_intensity in Hj by auto.
  destruct (kept_fraction s r (surface_propagate s r)) as [f|]; [|discriminate].
  destruct (r_intensity r) as [i|]; [|discriminate].
  simpl in Hj; inversion Hj. exists i, f; auto.
Qed.

Lemma trace_intensity ss : Forall rigid_surface ss -> forall r j,
  r_intensity (propagate_rays surface_propagate (Sequence ss) r) = Some j ->
  exists i k, r_intensity r = Some i /\
    kept_product ss r (accumulate_rays surface_propagate (Sequence ss) r) = Some k /\ j = i * k.
Proof.
  induction ss as [|s ss IH]; intros Hss r j Hj.
  - exists j, 1. rewrite accumulate_scan. unfold propagate_rays in Hj; simpl in *.
    repeat split; auto; ring.
  - inversion Hss; subst.
    destruct (IH H2 (surface_propagate s r) j) as (i' & k & Hi' & Hk & E).
    { exact Hj. }
    destruct (surface_intensity_eq s r i' H1 Hi') as (i & f & Hi & Hf & E').
    exists i, (f * k). rewrite accumulate_cons. cbn [kept_product]. rewrite Hf; cbn [obind].
    rewrite Hk; cbn [obind]. repeat split; auto. subst; ring.
Qed.

Lemma vlen_nonneg v : 0 <= vlen v.
Proof. apply sqrt_pos. Qed.

Lemma kept_fraction_bounds s r ro f : passive s -> 0 <= r_attenuation r ->
  kept_fraction s r ro = Some f -> 0 <= f <= 1.
Proof.
  intros (Hm & _ & Hg) Ha. unfold kept_fraction.
  destruct (r_position r) as [x|]; [cbn [obind]|discriminate].
  destruct (r_position ro) as [y|]; [cbn [obind]|discriminate].
  destruct (mat_efficiency _ _ _) as [e|] eqn:Ee; [cbn [obind]|discriminate].
  apply Hm in Ee.
  assert (Hx := exp_factor_bounds (r_attenuation r) (vlen (vsub y x)) Ha (vlen_nonneg _)).
  destruct (sf_rulings s) as [g|].
  - destruct (rul_efficiency g _ _) as [e'|] eqn:Ee'; [cbn [obind]|discriminate].
    apply (Hg g eq_refl) in Ee'. intro E; inversion E; subst.
    set (X := exp _) in *.
    assert (0 <= X * e <= 1) by nra. nra.
  - cbn [obind]. intro E; inversion E; subst.
    set (X := exp _) in *. nra.
Qed.

Lemma surface_attenuation_nonneg s r : passive s -> 0 <= r_attenuation r ->
  0 <= r_attenuation (surface_propagate s r).
Proof.
  intros (_ & Ha & _) Hr.
  assert (E : r_attenuation (surface_propagate s r)
     = r_attenuation (surface_local s (apply_inverse (sf_transformation s) r)))
    by (unfold surface_propagate; destruct (sf_transformation s); reflexivity).
  rewrite E. unfold surface_local. destruct (sf_aperture s); simpl; apply Ha;
    unfold surface_incident; destruct (sf_rulings s); simpl; destruct (sf_transformation s); auto.
Qed.

Lemma trace_bounded ss : Forall rigid_surface ss -> Forall passive ss -> forall r i j,
  0 <= r_attenuation r -> r_intensity r = Some i -> 0 <= i ->
  r_intensity (propagate_rays surface_propagate (Sequence ss) r) = Some j ->
  0 <= j <= i.
Proof.
  induction ss as [|s ss IH]; intros Hr Hp r i j Ha Hi Hi0 Hj.
  - unfold propagate_rays in Hj; simpl in Hj. rewrite Hi in Hj; inversion Hj; subst; lra.
  - inversion Hr; inversion Hp; subst.
    destruct (trace_intensity ss H2 (surface_propagate s r) j Hj) as (i' & _ & Hi' & _ & _).
    destruct (surface_intensity_eq s r i' H1 Hi') as (i0 & f & Hi0' & Hf & E).
    rewrite Hi in Hi0'; inversion Hi0'; subst i0.
    apply kept_fraction_bounds in Hf; auto.
    assert (0 <= i' <= i) by (subst; nra).
    assert (0 <= j <= i').
    { apply (IH H2 H6 (surface_propagate s r) i' j); auto; try lra.
      apply surface_attenuation_nonneg; auto. }
    lra.
Qed.

(** * C17 *)
Lemma surface_wavelength s r :
  r_wavelength (surface_propagate s r)
  = r_wavelength r / (r_index r / r_index (surface_propagate s r)).
Proof.
  assert (E : forall x, r_wavelength (apply_transformation (sf_transformation s) x) = r_wavelength x)
    by (intros; destruct (sf_transformation s); reflexivity).
  assert (E2 : forall x, r_index (apply_transformation (sf_transformation s) x) = r_index x)
    by (intros; destruct (sf_transformation s); reflexivity).
  unfold surface_propagate. rewrite E, E2. unfold surface_local.
  assert (F : forall x, r_wavelength (match sf_aperture s with None => x
                     | Some ap => clip_rays ap x end) = r_wavelength x)
    by (intros; destruct (sf_aperture s); reflexivity).
  assert (F2 : forall x, r_index (match sf_aperture s with None => x
                     | Some ap => clip_rays ap x end) = r_index x)
    by (intros; destruct (sf_aperture s); reflexivity).
  rewrite F, F2. cbn [r_wavelength r_index].
  f_equal; [|f_equal]; unfold surface_incident; destruct (sf_rulings s); simpl;
    destruct (sf_transformation s); reflexivity.
Qed.

Lemma trace_wavelength ss : forall r,
  0 < r_index r ->
  Forall (fun r' => 0 < r_index r') (accumulate_rays surface_propagate (Sequence ss) r) ->
  r_wavelength (propagate_rays surface_propagate (Sequence ss) r)
    / r_index (propagate_rays surface_propagate (Sequence ss) r)
  = r_wavelength r / r_index r.
Proof.
  induction ss as [|s ss IH]; intros r Hr Hall; [reflexivity|].
  rewrite accumulate_cons in Hall. inversion Hall; subst.
  change (propagate_rays surface_propagate (Sequence (s :: ss)) r)
    with (propagate_rays surface_propagate (Sequence ss) (surface_propagate s r)).
  rewrite IH by auto. rewrite surface_wavelength. field; lra.
Qed.

Lemma trace_wavelength_same ss r :
  0 < r_index r ->
  Forall (fun r' => 0 < r_index r') (accumulate_rays surface_propagate (Sequence ss) r) ->
  r_index (propagate_rays surface_propagate (Sequence ss) r) = r_index r ->
  r_wavelength (propagate_rays surface_propagate (Sequence ss) r) = r_wavelength r.
Proof.
  intros Hr Hall E. assert (H := trace_wavelength ss r Hr Hall). rewrite E in H.
  apply Rmult_eq_reg_r with (/ r_index r); [exact H|]. apply Rinv_neq_0_compat; lra.
Qed.

Lemma ray_transform_fields (t : rigid) (r : ray) (x d : vec3) :
  r_position r = Some x -> r_direction r = Some d ->
  let r' := ray_transform t r in
  r_position r' = Some (vadd (mapply (rg_mat t) x) (rg_shift t)) /\
  r_direction r' = Some (mapply (rg_mat t) d) /\
  r_wavelength r' = r_wavelength r /\ r_intensity r' = r_intensity r /\
  r_index r' = r_index r /\ r_attenuation r' = r_attenuation r /\
  r_unvignetted r' = r_unvignetted r.
Proof. intros Hx Hd. simpl. rewrite Hx, Hd. simpl. tauto. Qed.
