(** Apertures, rulings and materials in another unit of length. *)
From Coq Require Import Reals List Bool ZArith Lra.
From Coquelicot Require Import Coquelicot.
From Verif Require Import Vec VecLemmas Num NumLemmas Trig RayModel SurfaceModel SagModel ApertureModel RulingModel MaterialModel
  ScaleSpec ScaleProofs ScaleClassProofs.
Import ListNotations.
Open Scope R_scope.
Open Scope opt_scope.

(** ** Apertures *)
Lemma rle_scale : forall k a b, 0 < k -> rle (k * a) (k * b) = rle a b.
Proof. intros k a b K. unfold rle. destruct (Rle_dec (k * a) (k * b)), (Rle_dec a b); try reflexivity; exfalso; nra. Qed.
Lemma xy_length_scale : forall k p, 0 < k -> xy_length (vscale k p) = k * xy_length p.
Proof.
  intros k p K. unfold xy_length. cbn [vscale vx vy].
  replace (k * vx p * (k * vx p) + k * vy p * (k * vy p)) with (k * k * (vx p * vx p + vy p * vy p)) by ring.
  rewrite sqrt_mult by nra. rewrite sqrt_square by lra. reflexivity.
Qed.
Lemma atan2_scale : forall k y x, 0 < k -> atan2 (k * y) (k * x) = atan2 y x.
Proof.
  intros k y x K. unfold atan2.
  assert (Q : x <> 0 -> k * y / (k * x) = y / x) by (intros X; field; lra).
  repeat match goal with |- context [Rlt_dec ?a ?b] => destruct (Rlt_dec a b) | |- context [Rle_dec ?a ?b] => destruct (Rle_dec a b) end;
    try (exfalso; nra); rewrite ?Q by lra; try reflexivity.
Qed.
Lemma vertices_scale : forall k s, ap_vertices (scale_shape k s) = map (vscale k) (ap_vertices s).
Proof.
  intros k s. destruct s; cbn [scale_shape ap_vertices]; try reflexivity.
  - rewrite map_map. apply map_ext. intros a. apply vec_eq; cbn; ring.
  - rewrite map_map. apply map_ext. intros a. apply vec_eq; cbn; ring.
  - cbn. repeat apply f_equal2; try reflexivity; apply vec_eq; cbn; ring.
Qed.
Lemma shape_mask_scale : forall k pip s p, 0 < k -> same_pip k pip -> shape_mask pip (scale_shape k s) (vscale k p) = shape_mask pip s p.
Proof.
  intros k pip s p K P.
  assert (V : pip (ap_vertices (scale_shape k s)) (vx (vscale k p)) (vy (vscale k p)) = pip (ap_vertices s) (vx p) (vy p)).
  { rewrite vertices_scale. apply P. }
  destruct s; cbn [scale_shape shape_mask] in *; try exact V.
  - rewrite xy_length_scale, rle_scale by exact K. reflexivity.
  - rewrite xy_length_scale, rle_scale by exact K. cbn [vscale vx vy]. rewrite atan2_scale by exact K. reflexivity.
  - cbn [vscale vx vy]. rewrite !odiv_scale by lra. reflexivity.
  - cbn [vscale vx vy]. rewrite !Ropp_mult_distr_r, !rle_scale by exact K. reflexivity.
Qed.
Lemma aperture_scale : forall k pip a, 0 < k -> same_pip k pip ->
  same_aperture k (as_aperture pip a) (as_aperture pip (scale_aperture k a)).
Proof.
  intros k pip a K P. unfold scale_aperture, same_aperture, as_aperture. cbn [ap_on_position ap_accepts].
  destruct (ao_is_length a) eqn:L; [|split; [exact L|intros p; reflexivity]].
  split; [reflexivity|]. intros p. unfold aperture_call. cbn [ao_transformation ao_shape ao_inverted ao_active].
  destruct (negb (ao_active a)); [reflexivity|].
  assert (E : forall q, (match omap (vscale k) q with None => false | Some q => shape_mask pip (scale_shape k (ao_shape a)) q end)
              = match q with None => false | Some q => shape_mask pip (ao_shape a) q end).
  { intros [q|]; [|reflexivity]. cbn. apply shape_mask_scale; assumption. }
  destruct (ao_transformation a) as [t|]; cbn [scale_rigid omap].
  - destruct p as [p|]; [|reflexivity]. cbn [omap]. rewrite scale_point_inv. rewrite <- (E (Some (rigid_point (rigid_inv t) p))). reflexivity.
  - rewrite E. reflexivity.
Qed.

(** ** Rulings *)
Lemma normalized_scale : forall k v, 0 < k -> normalized (vscale k v) = normalized v.
Proof.
  intros k v K. unfold normalized. rewrite vlen_scale by exact K. destruct (Req_dec (vlen v) 0) as [Z|Z]; [rewrite Z, Rmult_0_r, odiv_0; reflexivity|].
  rewrite !odiv_nz by nra. cbn. f_equal. apply vec_eq; cbn; field; split; lra.
Qed.
Lemma constant_spacing_scale : forall k c g x n, constant_spacing (k * c) g (vscale k x) n = omap (vscale k) (constant_spacing c g x n).
Proof. intros. unfold constant_spacing. cbn [omap]. f_equal. apply vec_eq; cbn; ring. Qed.
Lemma polynomial_scale : forall k l x, 0 < k -> polynomial (scale_coefficients k l) (k * x) = k * polynomial l x.
Proof.
  intros k l x K. unfold polynomial. replace 0 with (k * 0) at 1 by ring. generalize 0.
  induction l as [|[n a] l IH]; intros acc; cbn [scale_coefficients map fold_left fst snd]; [reflexivity|].
  replace (k * acc + k * (a / k ^ n) * (k * x) ^ n) with (k * (acc + a * x ^ n)); [apply IH|].
  rewrite Rpow_mult_distr. field. apply pow_nonzero. lra.
Qed.
Lemma polynomial_spacing_scale : forall k l g t x n, 0 < k ->
  polynomial_spacing (scale_coefficients k l) g (scale_rigid k t) (vscale k x) n = omap (vscale k) (polynomial_spacing l g t x n).
Proof.
  intros k l g t x n K. unfold polynomial_spacing.
  assert (D : forall v, dot (vscale k v) g = k * dot v g) by (intros v; unfold dot; cbn; ring).
  assert (E : forall v, Some (vscale (polynomial (scale_coefficients k l) (dot (vscale k v) g)) g) = omap (vscale k) (Some (vscale (polynomial l (dot v g)) g))).
  { intros v. rewrite D, polynomial_scale by exact K. cbn. f_equal. apply vec_eq; cbn; ring. }
  destruct t as [t|]; cbn [scale_rigid omap]; [rewrite scale_point|]; apply E.
Qed.
Lemma holographic_spacing_scale : forall k x1 x2 w d1 d2 t x n, 0 < k ->
  holographic_spacing (vscale k x1) (vscale k x2) (k * w) d1 d2 (scale_rigid k t) (vscale k x) n = omap (vscale k) (holographic_spacing x1 x2 w d1 d2 t x n).
Proof.
  intros k x1 x2 w d1 d2 t x n K. unfold holographic_spacing. rewrite !vscale_vsub, !normalized_scale by exact K.
  destruct (normalized (vsub x x1)) as [r1|]; [|reflexivity]. cbn [obind]. destruct (normalized (vsub x x2)) as [r2|]; [|reflexivity]. cbn [obind].
  destruct (odiv 1 _) as [q|]; [|reflexivity]. cbn [obind omap]. f_equal. apply vec_eq; cbn; ring.
Qed.

Lemma interp_from_scale : forall k x x0 y0 l, 0 < k ->
  interp_from (k * x) (k * x0) y0 (map (fun n => (k * fst n, snd n)) l) = interp_from x x0 y0 l.
Proof.
  intros k x x0 y0 l K. revert x0 y0. induction l as [|[x1 y1] l IH]; intros x0 y0; cbn [map fst snd interp_from]; [reflexivity|].
  destruct (Rle_dec (k * x) (k * x1)), (Rle_dec x x1); try (exfalso; nra); [|apply IH].
  replace (k * x - k * x0) with (k * (x - x0)) by ring. replace (k * x1 - k * x0) with (k * (x1 - x0)) by ring. rewrite odiv_scale by lra. reflexivity.
Qed.
Lemma interp_scale : forall k x l, 0 < k -> interp (k * x) (map (fun n => (k * fst n, snd n)) l) = interp x l.
Proof.
  intros k x [|[x0 y0] l] K; [reflexivity|]. cbn [map fst snd interp].
  destruct (Rle_dec (k * x) (k * x0)), (Rle_dec x x0); try (exfalso; nra); [reflexivity|]. apply interp_from_scale. exact K.
Qed.
Lemma profile_scale : forall k p i w c, 0 < k -> profile_efficiency (scale_profile k p) i (k * w) c = profile_efficiency p i w c.
Proof.
  intros k p i w c K. assert (Kn : k <> 0) by lra.
  assert (G : forall d, odiv (PI * (k * d)) (k * w * c) = odiv (PI * d) (w * c)).
  { intros d. replace (PI * (k * d)) with (k * (PI * d)) by ring. rewrite Rmult_assoc. apply odiv_scale. exact Kn. }
  destruct p as [|nodes|d|d|d|d|d ratio]; cbn [scale_profile profile_efficiency].
  - reflexivity.
  - apply interp_scale. exact K.
  - rewrite G. reflexivity.
  - rewrite odiv_scale_l. destruct (odiv d _) as [e|]; [|reflexivity]. cbn [omap obind]. rewrite G. reflexivity.
  - rewrite odiv_scale_l. destruct (odiv d _) as [e|]; [|reflexivity]. cbn [omap obind]. rewrite G. reflexivity.
  - rewrite odiv_scale_l. destruct (odiv d _) as [e|]; [|reflexivity]. cbn [omap obind]. rewrite G. reflexivity.
  - destruct (odiv PI _) as [am|]; [|reflexivity]. cbn [obind]. rewrite odiv_scale_l. destruct (odiv d _) as [e|]; [|reflexivity]. cbn [omap obind]. rewrite G. reflexivity.
Qed.
Lemma rulings_scale : forall k p i spacing spacing', 0 < k ->
  (forall x n, spacing' (vscale k x) n = omap (vscale k) (spacing x n)) ->
  same_rulings k (make_rulings p i spacing) (make_rulings (scale_profile k p) i spacing').
Proof.
  intros k p i spacing spacing' K S. split; [reflexivity|]. split; [exact S|]. intros r n.
  unfold make_rulings, rul_efficiency, rulings_efficiency.
  replace (uses_angle (scale_profile k p)) with (uses_angle p) by (destruct p; reflexivity).
  unfold scale_ray. cbn [r_position r_direction r_wavelength]. destruct (uses_angle p).
  - destruct (r_position r) as [x|]; [|reflexivity]. cbn [omap obind]. destruct (r_direction r) as [d|]; [|reflexivity]. cbn [obind].
    destruct n as [u|]; [|reflexivity]. cbn [obind]. rewrite S. destruct (spacing x u) as [kappa|]; [|reflexivity]. cbn [omap obind].
    unfold groove_cosine. rewrite normalized_scale by exact K.
    destruct (normalized kappa) as [nr|]; [|reflexivity]. cbn [obind]. destruct (normalized (cross u nr)) as [pr|]; [|reflexivity]. cbn [obind].
    apply profile_scale. exact K.
  - apply profile_scale. exact K.
Qed.

(** ** Materials *)
Lemma vacuum_scale : forall k, same_material k vacuum vacuum.
Proof. intros k. repeat split. intros r. cbn. unfold Rdiv. ring. Qed.
Lemma mirror_scale : forall k, same_material k mirror mirror.
Proof. intros k. repeat split. Qed.
Lemma measured_mirror_scale : forall k l, 0 < k -> same_material k (measured_mirror l) (measured_mirror (map (fun n => (k * fst n, snd n)) l)).
Proof. intros k l K. repeat split. intros r n. cbn. apply interp_scale. exact K. Qed.
Lemma sellmeier_scale : forall k b c w2, 0 < k -> sellmeier_term b (k * k * c) (k * k * w2) = sellmeier_term b c w2.
Proof.
  intros k b c w2 K. unfold sellmeier_term. replace (b * (k * k * w2)) with (k * k * (b * w2)) by ring.
  replace (k * k * w2 - k * k * c) with (k * k * (w2 - c)) by ring. apply odiv_scale. nra.
Qed.
Lemma glass_scale : forall k b1 b2 b3 c1 c2 c3, 0 < k ->
  same_material k (glass b1 b2 b3 c1 c2 c3) (glass b1 b2 b3 (k * k * c1) (k * k * c2) (k * k * c3)).
Proof.
  intros k b1 b2 b3 c1 c2 c3 K. repeat split.
  - intros r. cbn. unfold glass_index. replace (k * r_wavelength r * (k * r_wavelength r)) with (k * k * (r_wavelength r * r_wavelength r)) by ring.
    rewrite !sellmeier_scale by exact K. reflexivity.
  - intros r. cbn. unfold Rdiv. ring.
Qed.
Lemma every_rulings_scale : forall k p i, 0 < k ->
  (forall c g, same_rulings k (make_rulings p i (constant_spacing c g))
     (make_rulings (scale_profile k p) i (constant_spacing (k * c) g))) /\
  (forall l g t, same_rulings k (make_rulings p i (polynomial_spacing l g t))
     (make_rulings (scale_profile k p) i (polynomial_spacing (scale_coefficients k l) g (scale_rigid k t)))) /\
  (forall x1 x2 w d1 d2 t, same_rulings k (make_rulings p i (holographic_spacing x1 x2 w d1 d2 t))
     (make_rulings (scale_profile k p) i (holographic_spacing (vscale k x1) (vscale k x2) (k * w) d1 d2 (scale_rigid k t)))).
Proof.
  intros k p i K. split; [|split].
  - intros c g. apply rulings_scale; [exact K|]. intros x n. apply constant_spacing_scale.
  - intros l g t. apply rulings_scale; [exact K|]. intros x n. apply polynomial_spacing_scale. exact K.
  - intros x1 x2 w d1 d2 t. apply rulings_scale; [exact K|]. intros x n. apply holographic_spacing_scale. exact K.
Qed.
