(** Ray traces commute with the symmetries of the surfaces. *)
From Coq Require Import Reals List Bool Lra.
From Verif Require Import Vec VecLemmas Num NumLemmas RayModel SnellModel SurfaceModel SymmetrySpec.
Import ListNotations.
Open Scope R_scope.
Open Scope opt_scope.

Lemma mapply_vadd : forall q a b, mapply q (vadd a b) = vadd (mapply q a) (mapply q b).
Proof. intros. apply vec_eq; cbn; unfold dot; cbn; ring. Qed.
Lemma mapply_vsub : forall q a b, mapply q (vsub a b) = vsub (mapply q a) (mapply q b).
Proof. intros. apply vec_eq; cbn; unfold dot; cbn; ring. Qed.
Lemma mapply_vsc : forall q k a, mapply q (vscale k a) = vscale k (mapply q a).
Proof. intros. apply vec_eq; cbn; unfold dot; cbn; ring. Qed.
Lemma orthogonal_vlen : forall q a, orthogonal q -> vlen (mapply q a) = vlen a.
Proof. intros q a Q. unfold vlen. rewrite orthogonal_norm2 by exact Q. reflexivity. Qed.

Lemma snell_symmetry : forall q a n1 n2 m u, orthogonal q ->
  snells_law (mapply q a) n1 n2 m (mapply q u) = omap (mapply q) (snells_law a n1 n2 m u).
Proof.
  intros q a n1 n2 m u Q. unfold snells_law, snell_radicand. cbv zeta. rewrite !orthogonal_dot by exact Q.
  destruct (Req_EM_T n1 0); [reflexivity|]. destruct (Req_EM_T n2 0); [reflexivity|].
  destruct (osqrt _) as [s|]; [|reflexivity]. cbn [obind omap]. f_equal. apply vec_eq; cbn; unfold dot; cbn; ring.
Qed.

Lemma symmetric_propagate : forall q s r, orthogonal q -> symmetric_sag q s ->
  sag_propagate s (image_ray q r) = image_ray q (sag_propagate s r).
Proof.
  intros q s r Q [I _]. destruct r as [w p d i a n v]. unfold sag_propagate, image_ray.
  cbn [r_wavelength r_position r_direction r_intensity r_attenuation r_index r_unvignetted set_intensity set_position].
  destruct p as [p|], d as [d|]; cbn [omap obind]; try reflexivity.
  rewrite I. destruct (sag_intercept s p d) as [x|]; cbn [omap obind]; [|reflexivity].
  rewrite <- mapply_vsub, orthogonal_vlen by exact Q. reflexivity.
Qed.
Lemma symmetric_effective : forall q g r n, orthogonal q -> symmetric_grooves q g ->
  rulings_effective g (image_ray q r) (omap (mapply q) n) = image_ray q (rulings_effective g r n).
Proof.
  intros q g r n Q S. destruct r as [w p d i a m v]. unfold rulings_effective, image_ray, set_direction.
  cbn [r_wavelength r_position r_direction r_intensity r_attenuation r_index r_unvignetted]. f_equal.
  destruct p as [p|], d as [d|], n as [u|]; cbn [omap obind]; try reflexivity.
  rewrite S. destruct (rul_spacing g p u) as [kappa|]; cbn [omap obind]; [|reflexivity].
  rewrite orthogonal_vlen by exact Q. destruct (odiv 1 (vlen kappa)) as [c|]; [|reflexivity]. cbn [obind]. unfold incident_effective.
  destruct (odiv _ _) as [e|]; [|reflexivity]. cbn [obind omap]. rewrite orthogonal_dot by exact Q. f_equal.
  rewrite mapply_vadd, !mapply_vsc. reflexivity.
Qed.
Lemma symmetric_transformation : forall q t r, for_option (symmetric_rigid q) t ->
  apply_transformation t (image_ray q r) = image_ray q (apply_transformation t r).
Proof.
  intros q [t|] r S; [|reflexivity]. destruct (S t eq_refl) as (M & T & _). destruct r as [w p d i a m v].
  unfold apply_transformation, ray_transform, image_ray.
  cbn [r_wavelength r_position r_direction r_intensity r_attenuation r_index r_unvignetted]. f_equal.
  - destruct p as [p|]; [|reflexivity]. cbn [omap]. f_equal. unfold rigid_point. rewrite mapply_vadd, T, M. reflexivity.
  - destruct d as [d|]; [|reflexivity]. cbn [omap]. unfold rigid_vector. rewrite M. reflexivity.
Qed.
Lemma symmetric_inv : forall q t, symmetric_rigid q t -> symmetric_rigid q (rigid_inv t).
Proof.
  intros q t (M & T & R). unfold is_rigid in R.
  assert (M' : forall v, mapply q (mapply (mtrans (rg_mat t)) v) = mapply (mtrans (rg_mat t)) (mapply q v)).
  { intros v. rewrite <- (orthogonal_inv_l (rg_mat t) (mapply q (mapply (mtrans (rg_mat t)) v)) R).
    rewrite <- M, orthogonal_inv_r by exact R. reflexivity. }
  split; [exact M'|]. split; [|apply orthogonal_trans; exact R]. cbn.
  replace (vopp (mapply (mtrans (rg_mat t)) (rg_shift t))) with (vscale (-1) (mapply (mtrans (rg_mat t)) (rg_shift t))) by (apply vec_eq; cbn; ring).
  rewrite mapply_vsc, M', T. reflexivity.
Qed.
Lemma symmetric_inverse : forall q t r, for_option (symmetric_rigid q) t ->
  apply_inverse t (image_ray q r) = image_ray q (apply_inverse t r).
Proof.
  intros q [t|] r S; [|reflexivity]. apply (symmetric_transformation q (Some (rigid_inv t)) r).
  intros a E. replace a with (rigid_inv t) by congruence. apply symmetric_inv, S. reflexivity.
Qed.


Section Local.
Variables (q : mat3) (s : surface).
Hypothesis Q : orthogonal q.
Hypothesis Sg : symmetric_sag q (sf_sag s).
Hypothesis Ru : for_option (symmetric_grooves q) (sf_rulings s).
Hypothesis Ap : for_option (symmetric_aperture q) (sf_aperture s).
Hypothesis Tr : for_option (symmetric_rigid q) (sf_transformation s).

Lemma image_normal : forall r, surface_normal s (image_ray q r) = omap (mapply q) (surface_normal s r).
Proof. intros r. unfold surface_normal, image_ray. cbn [r_position]. destruct (r_position r) as [p|]; [|reflexivity]. apply Sg. Qed.
Lemma image_incident : forall r, surface_incident s (image_ray q r) = image_ray q (surface_incident s r).
Proof.
  intros r. unfold surface_incident. rewrite symmetric_propagate by assumption.
  destruct (sf_rulings s) as [g|]; [|reflexivity]. rewrite image_normal. apply symmetric_effective; [exact Q|]. apply Ru. reflexivity.
Qed.
Lemma image_direction : forall r1 u n2 m,
  (let* a := r_direction (image_ray q r1) in let* u := omap (mapply q) u in snells_law a (r_index (image_ray q r1)) n2 m u)
    = omap (mapply q) (let* a := r_direction r1 in let* u := u in snells_law a (r_index r1) n2 m u).
Proof.
  intros r1 u n2 m. cbn [image_ray r_direction r_index]. destruct (r_direction r1) as [a|]; [|reflexivity]. cbn [omap obind].
  destruct u as [n|]; [|reflexivity]. apply snell_symmetry. exact Q.
Qed.
Lemma image_clip : forall r, match sf_aperture s with None => image_ray q r | Some a => clip_rays a (image_ray q r) end
  = image_ray q (match sf_aperture s with None => r | Some a => clip_rays a r end).
Proof.
  intros r. destruct (sf_aperture s) as [a|]; [|reflexivity]. assert (A := Ap a eq_refl).
  unfold clip_rays, image_ray, set_unvignetted. cbn [r_wavelength r_position r_direction r_intensity r_attenuation r_index r_unvignetted]. f_equal. f_equal.
  destruct (ap_on_position a); apply A.
Qed.
Lemma image_local : symmetric_material q (sf_material s) -> for_option (symmetric_rulings q) (sf_rulings s) ->
  forall r, surface_local s (image_ray q r) = image_ray q (surface_local s r).
Proof.
  intros (Mi & Ma & Me) G r. unfold surface_local. rewrite image_incident, image_normal. set (r1 := surface_incident s r). set (u := surface_normal s r1).
  rewrite Mi, Ma, image_direction.
  assert (E : surface_efficiency s (image_ray q r1) (omap (mapply q) u) = surface_efficiency s r1 u).
  { unfold surface_efficiency. rewrite Me. destruct (mat_efficiency (sf_material s) r1 u) as [e|]; [|reflexivity]. cbn [obind].
    destruct (sf_rulings s) as [g|]; [|reflexivity]. rewrite (proj2 (G g eq_refl)). reflexivity. }
  rewrite E. rewrite <- image_clip. reflexivity.
Qed.
Lemma same_path_refl : forall r, same_path r r. Proof. repeat split. Qed.
Lemma same_path_trans : forall a b c, same_path a b -> same_path b c -> same_path a c.
Proof. intros a b c (A1 & A2 & A3 & A4 & A5 & A6) (B1 & B2 & B3 & B4 & B5 & B6). repeat split; congruence. Qed.
Lemma same_path_image : forall a b, same_path a b -> same_path (image_ray q a) (image_ray q b).
Proof. intros a b (A1 & A2 & A3 & A4 & A5 & A6). unfold same_path, image_ray; cbn. repeat split; congruence. Qed.
Lemma same_path_transform : forall t a b, same_path a b -> same_path (apply_transformation t a) (apply_transformation t b).
Proof. intros [t|] a b H; [|exact H]. destruct H as (A1 & A2 & A3 & A4 & A5 & A6). unfold same_path; cbn. repeat split; congruence. Qed.
Lemma same_path_inverse : forall t a b, same_path a b -> same_path (apply_inverse t a) (apply_inverse t b).
Proof. intros [t|] a b H; [|exact H]. exact (same_path_transform (Some (rigid_inv t)) a b H). Qed.
Lemma same_path_incident : forall a b, same_path a b -> same_path (surface_incident s a) (surface_incident s b) /\
  surface_normal s (surface_incident s a) = surface_normal s (surface_incident s b).
Proof.
  intros a b H. assert (G : same_path (surface_incident s a) (surface_incident s b)).
  { destruct H as (A1 & A2 & A3 & A4 & A5 & A6).
    unfold surface_incident. destruct (sf_rulings s) as [g|]; unfold same_path, rulings_effective, surface_normal, sag_propagate, set_direction, set_intensity, set_position;
      cbn [r_wavelength r_position r_direction r_intensity r_attenuation r_index r_unvignetted]; rewrite A1, A2, A3, A4, A5, A6; repeat split. }
  split; [exact G|]. unfold surface_normal. destruct G as (_ & -> & _). reflexivity.
Qed.
Lemma same_path_clip : forall a b, same_path a b ->
  same_path (match sf_aperture s with None => a | Some ap => clip_rays ap a end) (match sf_aperture s with None => b | Some ap => clip_rays ap b end).
Proof.
  intros a b H. destruct (sf_aperture s) as [ap|]; [|exact H]. destruct H as (A1 & A2 & A3 & A4 & A5 & A6).
  unfold same_path, clip_rays; cbn. rewrite A2, A3, A6. repeat split; assumption.
Qed.
Lemma path_local : (forall r r', same_path r' (image_ray q r) ->
     mat_index (sf_material s) r' = mat_index (sf_material s) r /\
     mat_attenuation (sf_material s) r' = mat_attenuation (sf_material s) r) ->
  forall r r', same_path r' (image_ray q r) -> same_path (surface_local s r') (image_ray q (surface_local s r)).
Proof.
  intros M r r' H. destruct (same_path_incident _ _ H) as [I N]. rewrite image_incident in I. rewrite image_incident, image_normal in N.
  unfold surface_local. rewrite N. set (r1 := surface_incident s r) in *. set (r1' := surface_incident s r') in *. set (u := surface_normal s r1) in *.
  destruct (M _ _ I) as [Mi Ma]. rewrite Mi, Ma. rewrite <- image_clip. apply same_path_clip.
  assert (D := image_direction r1 u (mat_index (sf_material s) r1) (mat_is_mirror (sf_material s))).
  destruct I as (I1 & I2 & I3 & I4 & I5 & I6). unfold same_path. unfold image_ray at 1 2 3 4 5 6. cbn [r_wavelength r_position r_direction r_intensity r_attenuation r_index r_unvignetted].
  rewrite I1, I2, I3, I5, I6. repeat split. exact D.
Qed.
End Local.

Lemma image_surface : forall q s, orthogonal q -> symmetric_surface q s -> forall r,
  surface_propagate s (image_ray q r) = image_ray q (surface_propagate s r).
Proof.
  intros q s Q (Sg & Mt & Ap & Ru & Tr) r. unfold surface_propagate. rewrite symmetric_inverse by exact Tr.
  rewrite image_local; try assumption; [apply symmetric_transformation; exact Tr|]. intros g E. apply (Ru g E).
Qed.
Lemma path_surface : forall q s, orthogonal q -> symmetric_figure q s -> forall r r', same_path r' (image_ray q r) ->
  same_path (surface_propagate s r') (image_ray q (surface_propagate s r)).
Proof.
  intros q s Q (Sg & Mt & Ap & Ru & Tr) r r' H. unfold surface_propagate. rewrite <- symmetric_transformation by exact Tr.
  apply same_path_transform. apply path_local; try assumption. rewrite <- symmetric_inverse by exact Tr. apply same_path_inverse. exact H.
Qed.

Lemma symmetric_trace : forall q ss, orthogonal q -> List.Forall (symmetric_surface q) ss -> forall r,
  propagate_rays surface_propagate (Sequence ss) (image_ray q r) = image_ray q (propagate_rays surface_propagate (Sequence ss) r) /\
  accumulate_rays surface_propagate (Sequence ss) (image_ray q r) = map (image_ray q) (accumulate_rays surface_propagate (Sequence ss) r).
Proof.
  intros q ss Q F. unfold propagate_rays, accumulate_rays. cbn [as_list].
  assert (L : forall r acc, propagate_list surface_propagate ss (image_ray q r) = image_ray q (propagate_list surface_propagate ss r) /\
    accumulate_loop surface_propagate ss (map (image_ray q) acc) (image_ray q r) = map (image_ray q) (accumulate_loop surface_propagate ss acc r)).
  { induction F as [|s ss S F IH]; intros r acc; [split; reflexivity|]. cbn [propagate_list accumulate_loop].
    rewrite (image_surface q s Q S). split; [apply IH; exact []|].
    replace (map (image_ray q) acc ++ [image_ray q (surface_propagate s r)]) with (map (image_ray q) (acc ++ [surface_propagate s r])) by (rewrite map_app; reflexivity).
    apply IH. }
  intros r. apply (L r []).
Qed.
Lemma symmetric_paths : forall q ss, orthogonal q -> List.Forall (symmetric_figure q) ss -> forall r,
  Forall2 same_path (accumulate_rays surface_propagate (Sequence ss) (image_ray q r)) (map (image_ray q) (accumulate_rays surface_propagate (Sequence ss) r)).
Proof.
  intros q ss Q F. unfold accumulate_rays. cbn [as_list].
  assert (L : forall r r' acc acc', same_path r' (image_ray q r) -> Forall2 same_path acc' (map (image_ray q) acc) ->
    Forall2 same_path (accumulate_loop surface_propagate ss acc' r') (map (image_ray q) (accumulate_loop surface_propagate ss acc r))).
  { induction F as [|s ss S F IH]; intros r r' acc acc' H A; [exact A|]. cbn [accumulate_loop]. cbv zeta.
    assert (P := path_surface q s Q S r r' H). apply IH; [exact P|]. rewrite map_app. apply Forall2_app; [exact A|]. constructor; [exact P|constructor]. }
  intros r. apply L; [repeat split|constructor].
Qed.
(** A ray in the plane or on the axis of the symmetry stays there. *)
Lemma symmetric_fixed : forall q ss, orthogonal q -> List.Forall (symmetric_figure q) ss -> forall r, image_ray q r = r ->
  List.Forall (fun out => (forall p, r_position out = Some p -> mapply q p = p) /\ (forall d, r_direction out = Some d -> mapply q d = d))
    (accumulate_rays surface_propagate (Sequence ss) r).
Proof.
  intros q ss Q F r E. assert (P := symmetric_paths q ss Q F r). rewrite E in P.
  set (l := accumulate_rays surface_propagate (Sequence ss) r) in *. clearbody l.
  assert (G : forall l l', Forall2 same_path l (map (image_ray q) l') -> l = l' ->
    List.Forall (fun out => (forall p, r_position out = Some p -> mapply q p = p) /\ (forall d, r_direction out = Some d -> mapply q d = d)) l).
  { clear. induction l as [|x l IH]; intros l' H H'; [constructor|]. subst l'. cbn in H. inversion H as [|a b c d X Y E1 E2]; subst.
    constructor; [|apply (IH l Y eq_refl)]. destruct X as (_ & A & B & _). cbn in A, B. split.
    - intros p Z. rewrite Z in A. cbn in A. congruence.
    - intros p Z. rewrite Z in B. cbn in B. congruence. }
  exact (G l l P eq_refl).
Qed.
