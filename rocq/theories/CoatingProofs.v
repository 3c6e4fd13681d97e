(** Surfaces with multilayer coatings (C99), layers of the medium that surrounds them (C100) and the
    transfer matrix of one slab (C101). *)
From Coq Require Import Reals Lra Psatz List Bool ZArith Lia Sorting.Sorted.
From Coquelicot Require Import Coquelicot.
From Verif Require MonteCarloMeanProofs.
From Verif Require Import Vec VecLemmas Num NumLemmas ComplexModel ComplexLemmas ProfileModel SnellModel SnellSpec SnellProofs
  RayModel MaterialModel SurfaceModel LayerModel LayerSpec LayerProofs LayerTrivialProofs LayerCaseProofs CoatingModel.
Import ListNotations.
Open Scope C_scope.
Open Scope opt_scope.

(** *** Coated surfaces *)
Lemma surface_coated : forall sg m ap r x d q u i (e : R), mat_index m = r_index -> mat_attenuation m = r_attenuation ->
  r_index r <> 0%R ->
  r_position r = Some x -> r_direction r = Some d -> r_intensity r = Some i ->
  sag_intercept sg x d = Some q -> sag_normal sg q = Some u ->
  (forall y, r_direction y = Some d -> r_wavelength y = r_wavelength r -> r_attenuation y = r_attenuation r -> r_index y = r_index r ->
     mat_efficiency m y (Some u) = Some e) ->
  let out := surface_propagate (mkSurface sg m ap None None) r in
  r_position out = Some q /\ r_direction out = snells_law d (r_index r) (r_index r) (mat_is_mirror m) u /\
  r_wavelength out = r_wavelength r /\ r_index out = r_index r /\ r_attenuation out = r_attenuation r /\
  r_intensity out = Some (i * exp (- r_attenuation r * vlen (vsub q x)) * e)%R.
Proof.
  intros sg m ap [w p dd ii a n v] x d q u i e MI MA N P D I Q U E out. cbn [r_position r_direction r_intensity r_index r_wavelength r_attenuation] in *.
  subst p dd ii. 
  set (r := mkRay w (Some x) (Some d) (Some i) a n v) in *.
  assert (S : sag_propagate sg r = mkRay w (Some q) (Some d) (Some (exp (- a * vlen (vsub q x)) * i)%R) a n v).
  { unfold sag_propagate, r. cbn [r_position r_direction r_attenuation r_intensity obind]. rewrite Q. reflexivity. }
  assert (L : forall ap, surface_local (mkSurface sg m ap None None) r =
    let r2 := mkRay w (Some q) (snells_law d n n (mat_is_mirror m) u) (Some (exp (- a * vlen (vsub q x)) * i * e)%R) a n v in
    match ap with None => r2 | Some ap => clip_rays ap r2 end).
  { intros ap0. unfold surface_local, surface_incident. cbn [sf_sag sf_rulings sf_material sf_aperture]. rewrite S.
    unfold surface_normal. cbn [sf_sag r_position obind r_direction r_index r_intensity r_wavelength r_unvignetted]. rewrite U.
    unfold surface_efficiency. cbn [sf_material sf_rulings]. rewrite MI, MA. rewrite E by reflexivity.
    cbn [r_index r_attenuation obind]. replace (w / (n / n))%R with w by (field; exact N). reflexivity. }
  unfold out, surface_propagate. cbn [sf_transformation apply_transformation apply_inverse]. rewrite L. cbv zeta.
  destruct ap as [ap|]; cbn; repeat split; f_equal; ring.
Qed.

Lemma wavenumber : forall w a k, (4 * PI * k = a * w)%R -> (a * w / (4 * PI) = k)%R.
Proof. intros w a k H. rewrite <- H. field. apply PI_neq0. Qed.

Lemma film_surface : forall l sg ap r x d q u i k rs ts rp tp, r_index r <> 0%R ->
  r_position r = Some x -> r_direction r = Some d -> is_unit d -> r_intensity r = Some i ->
  sag_intercept sg x d = Some q -> sag_normal sg q = Some u ->
  (4 * PI * k = r_attenuation r * r_wavelength r)%R ->
  multilayer_efficiency (r_wavelength r) (RtoC (- dot d u)) (r_index r, k) l None true = (rs, Some ts) ->
  multilayer_efficiency (r_wavelength r) (RtoC (- dot d u)) (r_index r, k) l None false = (rp, Some tp) ->
  let out := surface_propagate (mkSurface sg (film l) ap None None) r in
  r_position out = Some q /\ r_direction out = Some d /\
  r_wavelength out = r_wavelength r /\ r_index out = r_index r /\ r_attenuation out = r_attenuation r /\
  r_intensity out = Some (i * exp (- r_attenuation r * vlen (vsub q x)) * ((ts + tp) / 2))%R.
Proof.
  intros l sg ap r x d q u i k rs ts rp tp N P D DU I Q U K TS TP.
  rewrite <- (snells_law_transmit_same d (r_index r) u N DU). 
  apply (surface_coated sg (film l) ap r x d q u i ((ts + tp) / 2)%R); try assumption; try reflexivity.
  { intros y Y1 Y2 Y3 Y4. unfold film. cbn [mat_efficiency]. rewrite Y1. cbn [obind]. unfold film_efficiency. rewrite Y2, Y3, Y4.
    unfold ambient_n, ambient_direction. rewrite (wavenumber _ _ _ K).
    replace (dot (vopp d) u) with (- dot d u)%R by (unfold dot, vopp; cbn; ring). cbv zeta. rewrite TS, TP. reflexivity. }
Qed.

Lemma coated_surface : forall l sub sg ap r x d q u i k rs ts rp tp, r_index r <> 0%R ->
  r_position r = Some x -> r_direction r = Some d -> is_unit d -> r_intensity r = Some i ->
  sag_intercept sg x d = Some q -> sag_normal sg q = Some u -> is_unit u ->
  (4 * PI * k = r_attenuation r * r_wavelength r)%R ->
  multilayer_efficiency (r_wavelength r) (RtoC (- dot d u)) (r_index r, k) l sub true = (Some rs, ts) ->
  multilayer_efficiency (r_wavelength r) (RtoC (- dot d u)) (r_index r, k) l sub false = (Some rp, tp) ->
  let out := surface_propagate (mkSurface sg (coated l sub) ap None None) r in
  r_position out = Some q /\ r_direction out = Some (mirror_image u d) /\
  r_wavelength out = r_wavelength r /\ r_index out = r_index r /\ r_attenuation out = r_attenuation r /\
  r_intensity out = Some (i * exp (- r_attenuation r * vlen (vsub q x)) * ((rs + rp) / 2))%R.
Proof.
  intros l sub sg ap r x d q u i k rs ts rp tp N P D DU I Q U UU K TS TP.
  rewrite <- (snells_law_reflect d (r_index r) u N UU DU).
  apply (surface_coated sg (coated l sub) ap r x d q u i ((rs + rp) / 2)%R); try assumption; try reflexivity.
  { intros y Y1 Y2 Y3 Y4. unfold coated. cbn [mat_efficiency]. rewrite Y1. cbn [obind]. unfold mirror_efficiency. rewrite Y2, Y3, Y4.
    unfold ambient_n, ambient_direction. rewrite (wavenumber _ _ _ K).
    replace (dot (vopp d) u) with (- dot d u)%R by (unfold dot, vopp; cbn; ring). cbv zeta. rewrite TS, TP. reflexivity. }
Qed.

(** *** A layer of the medium that surrounds it *)
Lemma mat_id_where : forall w d n, (w <> 0)%R -> where_propagation (propagation w d 0 n) = true.
Proof.
  intros w d n W. rewrite propagation_zero by exact W. cbn [where_propagation mat_id mxx].
  destruct (Rlt_dec (Cmod 1) (10 ^ 10)) as [|L]; [reflexivity|]. exfalso. apply L. rewrite Cmod_1. lra.
Qed.

Lemma matched_layer : forall w s c n l sub, (w <> 0)%R -> n <> (0 : C) -> (0 < c)%R ->
  layer_n l w = n -> ly_interface l = None -> layer_n sub w = n -> ly_interface sub = None ->
  (exp (2 * PI * ly_thickness l * Im n * c / w) < 10 ^ 10)%R ->
  multilayer_efficiency w (RtoC c) n (ALayer l) (Some sub) s =
  (Some 0%R, Some (exp (- (4 * PI * Im n / w) * (ly_thickness l * c)))%R).
Proof.
  intros w s c n l sub W N C0 L LI S SI O.
  assert (Cn : RtoC c <> 0) by (apply RtoC_neq_0; lra).
  assert (SN : snells_law_scalar (RtoC c) n n = Some (RtoC c)) by (apply snell_identity; [exact N|exact C0]).
  set (h := ly_thickness l) in *.
  set (beta := (RtoC (2 * PI * h / w) * (n * RtoC c))%C).
  assert (M : multilayer_matrix w (RtoC c) n (ALayer l) (Some sub) s =
    (LState n (Some (RtoC c)) true, Some (Mat2 (cexp (- Ci * beta)) 0 0 (cexp (Ci * beta))))).
  { unfold multilayer_matrix. cbn [transfer]. unfold layer_transfer at 2. cbv zeta. cbn [st_n st_direction st_where obind].
    unfold layer_transfer. cbv zeta. rewrite L, LI. fold h. cbn [st_n st_direction st_where obind]. rewrite SN. cbn [obind].
    rewrite refraction_same by (try assumption; exact I).
    change (layer_n (substrate_layer (Some sub)) w) with (layer_n sub w). rewrite S.
    cbn [substrate_layer ly_interface ly_thickness fst snd st_n st_direction st_where obind].
    rewrite SN. cbn [obind]. rewrite SI.
    assert (WT : where_propagation (propagation w (RtoC c) h n) = true).
    { apply where_value; [exact W|]. unfold opacity. eapply Rle_lt_trans; [|exact O]. apply Req_le. f_equal. cparts. field. exact W. }
    rewrite WT. cbn [andb]. rewrite refraction_same by (try assumption; exact I). 
    rewrite mat_id_where by exact W. rewrite propagation_zero by exact W. rewrite propagation_value by exact W. fold beta. cbv zeta.
    rewrite !omul_id_l. rewrite omul_id_r. reflexivity. }
  assert (IM : Re (Ci * beta) = (- (2 * PI * Im n / w) * (h * c))%R) by (unfold beta; cparts; field; exact W).
  unfold multilayer_efficiency. cbv zeta. unfold multilayer_coefficients. cbv zeta.
  change (multilayer_matrix w (RtoC c) n (ALayer l) (Some (substrate_layer (Some sub))) s) with (multilayer_matrix w (RtoC c) n (ALayer l) (Some sub) s).
  rewrite M. cbn [fst snd obind st_where mxx myx].
  assert (X := cexp_neq_0 (- Ci * beta)). rewrite !cdiv_nz by exact X. cbn [omap obind].
  change (layer_n (substrate_layer (Some sub)) w) with (layer_n sub w). rewrite S, SN. cbn [obind].
  destruct (q_factor_some s (RtoC c) n N Cn) as (qf & Q & Q0). rewrite Q. cbn [obind]. rewrite cdiv_nz by exact Q0. cbn [obind].
  assert (E : 1 / cexp (- Ci * beta) = cexp (Ci * beta)).
  { assert (H := cexp_opp (Ci * beta)). replace (- Ci * beta) with (- (Ci * beta)) in * by ring.
    rewrite <- H. field. exact X. }
  rewrite E, Cmod_cexp, IM. f_equal.
  - f_equal. replace (0 / cexp (- Ci * beta)) with (0 : C) by (field; exact X). rewrite Cmod_0. ring.
  - f_equal. replace (qf / qf) with (1 : C) by (field; exact Q0). cbn [Re RtoC fst].
    rewrite Rmult_1_r. simpl pow. rewrite Rmult_1_r, <- exp_plus. f_equal. field. exact W.
Qed.

Lemma matched_distance : forall w s c n k a l sub sg r x d q i, (0 < w)%R -> (0 < n)%R -> (0 < c)%R -> (4 * PI * k = a * w)%R ->
  layer_n l w = (n, k) -> ly_interface l = None -> layer_n sub w = (n, k) -> ly_interface sub = None ->
  (exp (a * (ly_thickness l * c) / 2) < 10 ^ 10)%R ->
  r_attenuation r = a -> r_position r = Some x -> r_direction r = Some d -> r_intensity r = Some i ->
  sag_intercept sg x d = Some q -> vlen (vsub q x) = (ly_thickness l * c)%R ->
  exists t, multilayer_efficiency w (RtoC c) (n, k) (ALayer l) (Some sub) s = (Some 0%R, Some t) /\
    r_intensity (sag_propagate sg r) = Some (t * i)%R.
Proof.
  intros w s c n k a l sub sg r x d q i W N C0 K L LI S SI O A P D I Q V.
  assert (Z : (n, k) <> (0 : C)) by (apply Cneq_pair; left; lra).
  assert (E : (4 * PI * k / w = a)%R) by (rewrite K; field; lra).
  exists (exp (- a * (ly_thickness l * c)))%R. split.
  - rewrite (matched_layer w s c (n, k) l sub); try assumption; try lra.
    + cbn [Im snd]. rewrite E. reflexivity.
    + cbn [Im snd]. eapply Rle_lt_trans; [|exact O]. apply Req_le. f_equal. rewrite <- E. field. lra.
  - unfold sag_propagate. rewrite P, D. cbn [obind]. rewrite Q. cbn [obind]. rewrite I. cbn [obind]. cbn. rewrite V, A. reflexivity.
Qed.

Lemma matched_mirror : forall w index a k d u l sub, (0 < w)%R -> (0 < index)%R -> (4 * PI * k = a * w)%R ->
  (dot d u < 0)%R ->
  layer_n l w = (index, k) -> ly_interface l = None -> layer_n sub w = (index, k) -> ly_interface sub = None ->
  (exp (a * (ly_thickness l * - dot d u) / 2) < 10 ^ 10)%R ->
  mirror_efficiency (ALayer l) (Some sub) w a index d u = Some 0%R.
Proof.
  intros w n a k d u l sub W N K D L LI S SI O.
  assert (Z : (n, k) <> (0 : C)) by (apply Cneq_pair; left; lra).
  unfold mirror_efficiency, ambient_n, ambient_direction. rewrite (wavenumber _ _ _ K).
  replace (dot (vopp d) u) with (- dot d u)%R by (unfold dot, vopp; cbn; ring). cbv zeta.
  rewrite !(fun s => matched_layer w s (- dot d u) (n, k) l sub) ; try assumption; try lra.
  - cbn [fst average obind]. f_equal. lra.
  - cbn [Im snd]. eapply Rle_lt_trans; [|exact O]. apply Req_le. f_equal. replace a with (4 * PI * k / w)%R by (rewrite K; field; lra). field. lra.
  - cbn [Im snd]. eapply Rle_lt_trans; [|exact O]. apply Req_le. f_equal. replace a with (4 * PI * k / w)%R by (rewrite K; field; lra). field. lra.
Qed.

(** *** One slab *)
Lemma slab_layer : forall w s c n l, (w <> 0)%R -> n <> (0 : C) -> (0 < c)%R ->
  layer_n l w = n -> ly_interface l = None ->
  let d' := cos_in (RtoC (1 - c * c)) n in
  (opacity w (ly_thickness l) n d' < 10 ^ 10)%R ->
  snd (multilayer_matrix w (RtoC c) 1 (ALayer l) None s) =
  omul (omul (refraction w (RtoC c) d' s 1 n None) (propagation w d' (ly_thickness l) n)) (refraction w d' (RtoC c) s n 1 None).
Proof.
  intros w s c n l W N C0 L LI d' O.
  assert (T : tangential2 (RtoC c) 1 = RtoC (1 - c * c)) by (unfold tangential2; cring).
  assert (A : snells_law_scalar (RtoC c) 1 n = Some d') by (rewrite snell_value, T by exact N; reflexivity).
  assert (B : snells_law_scalar d' n 1 = Some (RtoC c)).
  { rewrite snell_value by apply C1_neq_0. unfold d'. rewrite tangential2_cos_in by exact N. f_equal. unfold cos_in.
    replace (1 - RtoC (1 - c * c) / (1 * 1)) with (RtoC c * RtoC c).
    - apply csqrt_of_sq. exact C0.
    - rewrite RtoC_minus, RtoC_mult. field. apply C1_neq_0. }
  unfold multilayer_matrix. cbv zeta. cbn [transfer snd]. unfold layer_transfer. cbv zeta.
  cbn [fst snd st_n st_direction st_where obind]. rewrite L, LI, A. cbn [obind].
  apply where_value in O; [|exact W]. rewrite O. cbn [andb]. cbn [substrate_layer layer_n ly_chemical ly_interface ly_thickness obind].
  rewrite B. cbn [obind]. rewrite mat_id_where by exact W. rewrite propagation_zero, omul_id_r by exact W. reflexivity.
Qed.

Lemma slab_direction : forall d u v b, is_unit d -> is_unit u -> (0 < v)%R -> (dot d u < 0)%R -> snells_law d 1 v false u = Some b ->
  (0 <= dot (vopp b) u /\ dot (vopp b) u * dot (vopp b) u = 1 - (1 - dot d u * dot d u) / (v * v))%R.
Proof.
  intros d u v b D U V F B. assert (H := snells_law_normal _ _ _ _ _ _ U B). apply snells_law_some in B. destruct B as (_ & _ & R0 & _).
  replace (dot (vopp b) u) with (- dot b u)%R by (unfold dot, vopp; cbn; ring).
  assert (CS : copysign1 (dot d u) = (-1)%R) by (unfold copysign1; destruct (Rle_dec 0 (dot d u)); lra).
  rewrite CS in H. rewrite H. assert (SP := sqrt_pos (snell_radicand d 1 v u)). assert (SS := sqrt_sqrt _ R0).
  assert (I0 : (0 < / v)%R) by (apply Rinv_0_lt_compat, V). split.
  - replace (- (1 / v * (-1 * sqrt (snell_radicand d 1 v u))))%R with (/ v * sqrt (snell_radicand d 1 v u))%R by (field; lra). nra.
  - transitivity (1 / v * (1 / v) * (sqrt (snell_radicand d 1 v u) * sqrt (snell_radicand d 1 v u)))%R; [field; lra|].
    rewrite SS, radicand_sq by lra. unfold is_unit, norm2 in D. rewrite D. field. lra.
Qed.

Lemma slab_transparent : forall w s d u n l, (w <> 0)%R -> is_unit d -> is_unit u -> (dot d u < 0)%R -> (0 < n)%R ->
  (1 - dot d u * dot d u <= n * n)%R -> layer_n l w = RtoC n -> ly_interface l = None ->
  slab_transfer w d s (ly_thickness l) (RtoC n) u = snd (multilayer_matrix w (RtoC (- dot d u)) 1 (ALayer l) None s).
Proof.
  intros w s d u n l W D U F N T L LI.
  assert (N0 : RtoC n <> 0) by (apply RtoC_neq_0; lra).
  destruct (snells_law_defined d 1 n false u) as (b & B); try lra.
  { unfold snell_radicand. cbv zeta. unfold is_unit, norm2 in D. rewrite D. replace (1 / (1 / n * (1 / n)))%R with (n * n)%R by (field; lra). lra. }
  destruct (slab_direction d u n b D U N F B) as [E0 E].
  assert (X : cos_in (RtoC (1 - - dot d u * - dot d u)) (RtoC n) = RtoC (dot (vopp b) u)).
  { unfold cos_in. apply csqrt_unique.
    - rewrite <- RtoC_mult, E. rewrite <- RtoC_mult, <- RtoC_div, <- RtoC_minus by nra. f_equal. field. lra.
    - cbn [Re Im RtoC fst snd]. destruct E0 as [E0|E0]; [left; exact E0|right; lra]. }
  rewrite (slab_layer w s (- dot d u) (RtoC n) l); try assumption; try lra.
  - rewrite X. unfold slab_transfer. change (Re (RtoC n)) with n. rewrite B. cbn [obind]. cbv zeta.
    replace (dot (vopp d) u) with (- dot d u)%R by (unfold dot, vopp; cbn; ring). reflexivity.
  - rewrite X. unfold opacity. rewrite <- RtoC_mult. cbn [Im RtoC snd]. rewrite Rmult_0_r, exp_0. lra.
Qed.

Lemma slab_along : forall w s u n l, (w <> 0)%R -> is_unit u -> (0 < Re n)%R ->
  layer_n l w = n -> ly_interface l = None -> (exp (2 * PI * ly_thickness l * Im n / w) < 10 ^ 10)%R ->
  slab_transfer w (vopp u) s (ly_thickness l) n u = snd (multilayer_matrix w 1 1 (ALayer l) None s).
Proof.
  intros w s u n l W U N L LI O.
  assert (N0 : n <> 0) by (intros X; rewrite X in N; cbn in N; lra).
  assert (DU : (dot (vopp u) u = -1)%R). { unfold is_unit, norm2 in U. transitivity (- dot u u)%R; [unfold dot, vopp; cbn; ring|lra]. }
  assert (D : is_unit (vopp u)) by (unfold is_unit, norm2 in *; unfold dot, vopp in *; cbn in *; lra).
  destruct (snells_law_defined (vopp u) 1 (Re n) false u) as (b & B); try lra.
  { unfold snell_radicand. cbv zeta. unfold is_unit, norm2 in D. rewrite D, DU. replace (1 / (1 / Re n * (1 / Re n)))%R with (Re n * Re n)%R by (field; lra). nra. }
  destruct (slab_direction (vopp u) u (Re n) b D U N ltac:(lra) B) as [E0 E]. rewrite DU in E.
  assert (E1 : dot (vopp b) u = 1%R).
  { replace (1 - (1 - -1 * -1) / (Re n * Re n))%R with 1%R in E by (field; lra). nra. }
  assert (X : cos_in (RtoC (1 - 1 * 1)) n = 1).
  { replace (1 - 1 * 1)%R with 0%R by ring. apply cos_in_0. }
  change (RtoC 1) with (RtoC 1). rewrite (slab_layer w s 1 n l); try assumption; try lra.
  - rewrite X. unfold slab_transfer. rewrite B. cbn [obind]. cbv zeta. rewrite E1.
    replace (dot (vopp (vopp u)) u) with 1%R by (unfold is_unit, norm2 in U; unfold dot, vopp in *; cbn in *; lra). reflexivity.
  - rewrite X. unfold opacity. eapply Rle_lt_trans; [|exact O]. apply Req_le. f_equal. cparts. field. exact W.
Qed.

Lemma matched_oblique : forall w s c n k a l sub, (0 < w)%R -> (0 < n)%R -> (0 < c < 1)%R -> (4 * PI * k = a * w)%R -> (0 < a)%R ->
  layer_n l w = (n, k) -> ly_interface l = None -> layer_n sub w = (n, k) -> ly_interface sub = None -> (0 < ly_thickness l)%R ->
  (exp (a * (ly_thickness l * c) / 2) < 10 ^ 10)%R ->
  exists t, multilayer_efficiency w (RtoC c) (n, k) (ALayer l) (Some sub) s = (Some 0%R, Some t) /\
    (exp (- a * (ly_thickness l / c)) < t)%R.
Proof.
  intros w s c n k a l sub W N C0 K A L LI S SI H O.
  assert (Z : (n, k) <> (0 : C)) by (apply Cneq_pair; left; lra).
  assert (E : (4 * PI * k / w = a)%R) by (rewrite K; field; lra).
  exists (exp (- a * (ly_thickness l * c)))%R. split.
  - rewrite (matched_layer w s c (n, k) l sub); try assumption; try lra.
    + cbn [Im snd]. rewrite E. reflexivity.
    + cbn [Im snd]. eapply Rle_lt_trans; [|exact O]. apply Req_le. f_equal. rewrite <- E. field. lra.
  - apply exp_increasing. assert (Y : (ly_thickness l * c < ly_thickness l / c)%R).
    2: { apply (Rmult_lt_compat_l a) in Y; [|exact A]. lra. }
    apply (Rmult_lt_reg_r c); [lra|]. replace (ly_thickness l / c * c)%R with (ly_thickness l) by (field; lra).
    assert (CC : (c * c < 1)%R) by nra. apply (Rmult_lt_compat_l (ly_thickness l)) in CC; [|exact H]. lra.
Qed.

(** *** Mirrors with a measured reflectivity *)
Lemma measured_surface : forall nodes sg ap r x d q u i e, (r_index r <> 0)%R ->
  r_position r = Some x -> r_direction r = Some d -> is_unit d -> r_intensity r = Some i ->
  sag_intercept sg x d = Some q -> sag_normal sg q = Some u -> is_unit u ->
  interp (r_wavelength r) nodes = Some e ->
  let out := surface_propagate (mkSurface sg (measured_mirror nodes) ap None None) r in
  r_position out = Some q /\ r_direction out = Some (mirror_image u d) /\
  r_wavelength out = r_wavelength r /\ r_index out = r_index r /\ r_attenuation out = r_attenuation r /\
  r_intensity out = Some (i * exp (- r_attenuation r * vlen (vsub q x)) * e)%R.
Proof.
  intros nodes sg ap r x d q u i e N P D DU I Q U UU E.
  rewrite <- (snells_law_reflect d (r_index r) u N UU DU).
  apply (surface_coated sg (measured_mirror nodes) ap r x d q u i e); try assumption; try reflexivity.
  intros y _ Y2 _ _. unfold measured_mirror. cbn [mat_efficiency]. rewrite Y2. exact E.
Qed.

Lemma measured_node : forall nodes sg ap r x d q u i e, (r_index r <> 0)%R ->
  r_position r = Some x -> r_direction r = Some d -> is_unit d -> r_intensity r = Some i ->
  sag_intercept sg x d = Some q -> sag_normal sg q = Some u -> is_unit u ->
  StronglySorted (fun a b => (fst a < fst b)%R) nodes -> In (r_wavelength r, e) nodes ->
  let out := surface_propagate (mkSurface sg (measured_mirror nodes) ap None None) r in
  r_position out = Some q /\ r_direction out = Some (mirror_image u d) /\
  r_wavelength out = r_wavelength r /\ r_index out = r_index r /\ r_attenuation out = r_attenuation r /\
  r_intensity out = Some (i * exp (- r_attenuation r * vlen (vsub q x)) * e)%R.
Proof.
  intros nodes sg ap r x d q u i e N P D DU I Q U UU S E.
  apply measured_surface; try assumption. apply MonteCarloMeanProofs.interp_node; assumption.
Qed.
