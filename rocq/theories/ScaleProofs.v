(** Ray tracing in another unit of length. *)
From Coq Require Import Reals List Bool Lra.
From Verif Require Import Vec VecLemmas Num NumLemmas RayModel SurfaceModel SnellModel SequenceSpec SequenceProofs ScaleSpec.
Import ListNotations.
Open Scope R_scope.
Open Scope opt_scope.

Lemma vscale_vsub : forall k a b, vsub (vscale k a) (vscale k b) = vscale k (vsub a b).
Proof. intros. apply vec_eq; cbn; ring. Qed.
Lemma vscale_vadd : forall k a b, vadd (vscale k a) (vscale k b) = vscale k (vadd a b).
Proof. intros. apply vec_eq; cbn; ring. Qed.
Lemma mapply_vscale : forall m k v, mapply m (vscale k v) = vscale k (mapply m v).
Proof. intros. unfold mapply, dot. apply vec_eq; cbn; ring. Qed.
Lemma vlen_scale : forall k v, 0 < k -> vlen (vscale k v) = k * vlen v.
Proof.
  intros k v K. unfold vlen. replace (norm2 (vscale k v)) with (k * k * norm2 v) by (unfold norm2, dot; cbn; ring).
  rewrite sqrt_mult; [|nra|unfold norm2, dot; nra]. rewrite sqrt_square by lra. reflexivity.
Qed.

Lemma scale_sag_propagate : forall k s s' r, 0 < k -> same_sag k s s' ->
  sag_propagate s' (scale_ray k r) = scale_ray k (sag_propagate s r).
Proof.
  intros k s s' r K [I _]. destruct r as [w p d i a n v]. unfold sag_propagate, scale_ray.
  cbn [r_wavelength r_position r_direction r_intensity r_attenuation r_index r_unvignetted set_intensity set_position].
  destruct p as [p|], d as [d|]; cbn [omap obind]; try reflexivity.
  rewrite I. destruct (sag_intercept s p d) as [q|]; cbn [omap obind]; [|reflexivity].
  rewrite vscale_vsub, vlen_scale by exact K. replace (- (a / k) * (k * vlen (vsub q p))) with (- a * vlen (vsub q p)) by (field; lra). reflexivity.
Qed.

Lemma scale_effective : forall k g g' r n, 0 < k -> same_rulings k g g' ->
  rulings_effective g' (scale_ray k r) n = scale_ray k (rulings_effective g r n).
Proof.
  intros k g g' r n K (O & S & _). destruct r as [w p d i a m v]. unfold rulings_effective, scale_ray, set_direction.
  cbn [r_wavelength r_position r_direction r_intensity r_attenuation r_index r_unvignetted]. f_equal.
  destruct p as [p|], d as [d|], n as [u|]; cbn [omap obind]; try reflexivity.
  rewrite S. destruct (rul_spacing g p u) as [kappa|]; cbn [omap obind]; [|reflexivity].
  rewrite vlen_scale by exact K. destruct (Req_dec (vlen kappa) 0) as [Z|Z].
  { rewrite Z, Rmult_0_r, !odiv_0. reflexivity. }
  rewrite !odiv_nz by nra. cbn [obind]. unfold incident_effective. rewrite O.
  destruct (Req_dec m 0) as [M|M].
  { rewrite M, !Rmult_0_l, !odiv_0. reflexivity. }
  rewrite !odiv_nz by (repeat apply Rmult_integral_contrapositive_currified; lra). cbn [obind]. f_equal.
  apply vec_eq; cbn; field; repeat split; lra.
Qed.

Lemma scale_transformation : forall k t t' r, same_option (same_rigid k) t t' ->
  apply_transformation t' (scale_ray k r) = scale_ray k (apply_transformation t r).
Proof.
  intros k t t' r S. destruct t as [t|], t' as [t'|]; cbn in S; try contradiction; [|reflexivity].
  destruct S as [M T]. destruct r as [w p d i a m v]. unfold apply_transformation, ray_transform, scale_ray.
  cbn [r_wavelength r_position r_direction r_intensity r_attenuation r_index r_unvignetted]. f_equal.
  - destruct p as [p|]; [|reflexivity]. cbn [omap]. f_equal. unfold rigid_point. rewrite M, T, mapply_vscale, vscale_vadd. reflexivity.
  - destruct d as [d|]; [|reflexivity]. cbn [omap]. unfold rigid_vector. rewrite M. reflexivity.
Qed.
Lemma same_inverse : forall k t t', same_rigid k t t' -> same_rigid k (rigid_inv t) (rigid_inv t').
Proof.
  intros k t t' [M T]. split; cbn; rewrite M; [reflexivity|]. rewrite T, mapply_vscale. apply vec_eq; cbn; ring.
Qed.
Lemma scale_inverse : forall k t t' r, same_option (same_rigid k) t t' ->
  apply_inverse t' (scale_ray k r) = scale_ray k (apply_inverse t r).
Proof.
  intros k t t' r S. destruct t as [t|], t' as [t'|]; cbn in S; try contradiction; [|reflexivity].
  apply (scale_transformation k (Some (rigid_inv t)) (Some (rigid_inv t')) r). apply same_inverse. exact S.
Qed.

Lemma scale_local : forall k s s' r, 0 < k -> same_surface k s s' ->
  surface_local s' (scale_ray k r) = scale_ray k (surface_local s r).
Proof.
  intros k s s' r K (Sg & Mt & Ap & Ru & _).
  assert (N : forall x, surface_normal s' (scale_ray k x) = surface_normal s x).
  { intros x. unfold surface_normal, scale_ray. cbn [r_position]. destruct (r_position x) as [p|]; [|reflexivity]. cbn. apply Sg. }
  assert (I : surface_incident s' (scale_ray k r) = scale_ray k (surface_incident s r)).
  { unfold surface_incident. rewrite (scale_sag_propagate k _ _ _ K Sg).
    destruct (sf_rulings s) as [g|], (sf_rulings s') as [g'|]; cbn in Ru; try contradiction; [|reflexivity].
    rewrite N. apply scale_effective; assumption. }
  unfold surface_local. rewrite I, N. set (r1 := surface_incident s r). set (u := surface_normal s r1).
  destruct Mt as (Mi & Ma & Me & Mm). rewrite Mi, Ma, Mm.
  assert (E : surface_efficiency s' (scale_ray k r1) u = surface_efficiency s r1 u).
  { unfold surface_efficiency. rewrite Me. destruct (mat_efficiency (sf_material s) r1 u) as [e|]; [|reflexivity]. cbn [obind].
    destruct (sf_rulings s) as [g|], (sf_rulings s') as [g'|]; cbn in Ru; try contradiction; [|reflexivity].
    rewrite (proj2 (proj2 Ru)). reflexivity. }
  rewrite E.
  replace (r_wavelength (scale_ray k r1) / (r_index (scale_ray k r1) / mat_index (sf_material s) r1))
    with (k * (r_wavelength r1 / (r_index r1 / mat_index (sf_material s) r1))) by (unfold scale_ray; cbn; unfold Rdiv; ring).
  destruct (sf_aperture s) as [a|], (sf_aperture s') as [a'|]; cbn in Ap; try contradiction.
  - destruct Ap as [P A]. unfold clip_rays. rewrite P.
    unfold scale_ray, set_unvignetted. cbn [r_wavelength r_position r_direction r_intensity r_attenuation r_index r_unvignetted]. f_equal.
    f_equal. destruct (ap_on_position a); apply A.
  - reflexivity.
Qed.
Lemma scale_surface : forall k s s' r, 0 < k -> same_surface k s s' ->
  surface_propagate s' (scale_ray k r) = scale_ray k (surface_propagate s r).
Proof.
  intros k s s' r K S. assert (S' := S). destruct S' as (_ & _ & _ & _ & T). unfold surface_propagate.
  rewrite (scale_inverse k _ _ _ T), (scale_local k s s' _ K S). apply scale_transformation. exact T.
Qed.

Lemma scale_trace : forall k ss ss', 0 < k -> Forall2 (same_surface k) ss ss' -> forall r,
  propagate_rays surface_propagate (Sequence ss') (scale_ray k r)
    = scale_ray k (propagate_rays surface_propagate (Sequence ss) r) /\
  accumulate_rays surface_propagate (Sequence ss') (scale_ray k r)
    = map (scale_ray k) (accumulate_rays surface_propagate (Sequence ss) r).
Proof.
  intros k ss ss' K F. unfold propagate_rays, accumulate_rays. cbn [as_list].
  assert (L : forall r acc, propagate_list surface_propagate ss' (scale_ray k r) = scale_ray k (propagate_list surface_propagate ss r) /\
    accumulate_loop surface_propagate ss' (map (scale_ray k) acc) (scale_ray k r) = map (scale_ray k) (accumulate_loop surface_propagate ss acc r)).
  { induction F as [|s s' ss ss' S F IH]; intros r acc; [split; reflexivity|]. cbn [propagate_list accumulate_loop].
    rewrite (scale_surface k s s' r K S). split; [apply IH; exact []|].
    replace (map (scale_ray k) acc ++ [scale_ray k (surface_propagate s r)]) with (map (scale_ray k) (acc ++ [surface_propagate s r])) by (rewrite map_app; reflexivity).
    apply IH. }
  intros r. split; [exact (proj1 (L r []))|exact (proj2 (L r []))].
Qed.
