(** The classes of sags, apertures, rulings and materials in another unit of length. *)
From Coq Require Import Reals List Bool ZArith Lra.
From Verif Require Import Vec VecLemmas Num NumLemmas Trig RayModel SurfaceModel SagModel SagInterceptProofs ApertureModel RulingModel MaterialModel
  ScaleSpec ScaleProofs.
Import ListNotations.
Open Scope R_scope.
Open Scope opt_scope.

Lemma odiv_scale : forall k a b, k <> 0 -> odiv (k * a) (k * b) = odiv a b.
Proof.
  intros k a b K. destruct (Req_dec b 0) as [Z|Z]; [rewrite Z, Rmult_0_r, !odiv_0; reflexivity|].
  rewrite !odiv_nz by (try apply Rmult_integral_contrapositive_currified; assumption). f_equal. field. split; assumption.
Qed.
Lemma odiv_scale_l : forall k a b, odiv (k * a) b = omap (Rmult k) (odiv a b).
Proof.
  intros k a b. destruct (Req_dec b 0) as [Z|Z]; [rewrite Z, !odiv_0; reflexivity|].
  rewrite !odiv_nz by assumption. cbn. f_equal. field. assumption.
Qed.
Lemma osqrt_scale : forall k x, 0 < k -> osqrt (k * k * x) = omap (Rmult k) (osqrt x).
Proof.
  intros k x K. unfold osqrt. assert (P : 0 < k * k) by nra. destruct (Rle_dec 0 (k * k * x)) as [A|A], (Rle_dec 0 x) as [B|B].
  - cbn. f_equal. rewrite sqrt_mult by lra. rewrite sqrt_square by lra. reflexivity.
  - exfalso. nra.
  - exfalso. nra.
  - reflexivity.
Qed.
Lemma rsign_scale : forall k x, 0 < k -> rsign (k * x) = rsign x.
Proof.
  intros k x K. unfold rsign.
  destruct (Rlt_dec 0 (k * x)), (Rlt_dec 0 x), (Rlt_dec (k * x) 0), (Rlt_dec x 0); try reflexivity; exfalso; nra.
Qed.
Lemma inverse_scale : forall k r c, 0 < k -> odiv 1 r = Some c -> odiv 1 (k * r) = Some (c / k).
Proof. intros k r c K H. apply odiv_some in H. destruct H as (Z & -> & _). rewrite odiv_nz by nra. f_equal. field. split; lra. Qed.
Lemma inverse_none : forall k r, odiv 1 r = None -> odiv 1 (k * r) = None.
Proof.
  intros k r H. destruct (Req_dec r 0) as [Z|Z]; [rewrite Z, Rmult_0_r; apply odiv_0|]. rewrite odiv_nz in H by exact Z. discriminate H.
Qed.

(** ** Sags *)
Lemma class_z_scale : forall k c x y, 0 < k -> class_z (scale_class k c) (k * x) (k * y) = omap (Rmult k) (class_z c x y).
Proof.
  intros k c x y K. assert (Kn : k <> 0) by lra.
  destruct c as [|r|r kappa|f|r|r r']; cbn [scale_class class_z].
  - unfold flat_z. cbn. f_equal. ring.
  - unfold sphere_z. destruct (odiv 1 r) as [c|] eqn:E; [rewrite (inverse_scale k r c K E)|rewrite (inverse_none k r E); reflexivity].
    cbn [obind]. replace (1 - c / k * (c / k) * (k * x * (k * x) + k * y * (k * y))) with (1 - c * c * (x * x + y * y)) by (field; exact Kn).
    destruct (osqrt _) as [s|]; [|reflexivity]. cbn [obind].
    replace (c / k * (k * x * (k * x) + k * y * (k * y))) with (k * (c * (x * x + y * y))) by (field; exact Kn). apply odiv_scale_l.
  - unfold conic_z. destruct (odiv 1 r) as [c|] eqn:E; [rewrite (inverse_scale k r c K E)|rewrite (inverse_none k r E); reflexivity].
    cbn [obind]. replace (1 - (1 + kappa) * (c / k * (c / k)) * (k * x * (k * x) + k * y * (k * y))) with (1 - (1 + kappa) * (c * c) * (x * x + y * y)) by (field; exact Kn).
    destruct (osqrt _) as [s|]; [|reflexivity]. cbn [obind].
    replace (c / k * (k * x * (k * x) + k * y * (k * y))) with (k * (c * (x * x + y * y))) by (field; exact Kn). apply odiv_scale_l.
  - unfold parabola_z, conic_z. replace (2 * (k * f)) with (k * (2 * f)) by ring.
    destruct (odiv 1 (2 * f)) as [c|] eqn:E; [rewrite (inverse_scale k _ c K E)|rewrite (inverse_none k _ E); reflexivity].
    cbn [obind]. replace (1 - (1 + -1) * (c / k * (c / k)) * (k * x * (k * x) + k * y * (k * y))) with (1 - (1 + -1) * (c * c) * (x * x + y * y)) by (field; exact Kn).
    destruct (osqrt _) as [s|]; [|reflexivity]. cbn [obind].
    replace (c / k * (k * x * (k * x) + k * y * (k * y))) with (k * (c * (x * x + y * y))) by (field; exact Kn). apply odiv_scale_l.
  - unfold cylinder_z. destruct (odiv 1 r) as [c|] eqn:E; [rewrite (inverse_scale k r c K E)|rewrite (inverse_none k r E); reflexivity].
    cbn [obind]. replace (1 - c / k * (c / k) * (k * x * (k * x))) with (1 - c * c * (x * x)) by (field; exact Kn).
    destruct (osqrt _) as [s|]; [|reflexivity]. cbn [obind].
    replace (c / k * (k * x * (k * x))) with (k * (c * (x * x))) by (field; exact Kn). apply odiv_scale_l.
  - unfold torus_z. destruct (odiv 1 r) as [c|] eqn:E; [rewrite (inverse_scale k r c K E)|rewrite (inverse_none k r E); reflexivity].
    cbn [obind]. replace (1 - c / k * (c / k) * (k * y * (k * y))) with (1 - c * c * (y * y)) by (field; exact Kn).
    destruct (osqrt (1 - c * c * (y * y))) as [s|]; [|reflexivity]. cbn [obind].
    replace (c / k * (k * y * (k * y))) with (k * (c * (y * y))) by (field; exact Kn). rewrite odiv_scale_l.
    destruct (odiv (c * (y * y)) (1 + s)) as [zy|]; [|reflexivity]. cbn [omap obind].
    replace ((k * r' - k * zy) * (k * r' - k * zy) - k * x * (k * x)) with (k * k * ((r' - zy) * (r' - zy) - x * x)) by ring.
    rewrite osqrt_scale by exact K. destruct (osqrt _) as [w|]; [|reflexivity]. cbn. f_equal. ring.
Qed.

Lemma class_normal_scale : forall k c p, 0 < k -> class_normal (scale_class k c) (vscale k p) = class_normal c p.
Proof.
  intros k c p K. assert (Kn : k <> 0) by lra. destruct p as [x y z].
  destruct c as [|r|r kappa|f|r|r r']; cbn [scale_class class_normal].
  - reflexivity.
  - unfold sphere_normal. cbn [vscale vx vy vz]. destruct (odiv 1 r) as [c|] eqn:E; [rewrite (inverse_scale k r c K E)|rewrite (inverse_none k r E); reflexivity].
    cbn [obind]. replace (c / k * (k * x)) with (c * x) by (field; exact Kn). replace (c / k * (k * y)) with (c * y) by (field; exact Kn). reflexivity.
  - unfold conic_normal. cbn [vscale vx vy vz]. destruct (odiv 1 r) as [c|] eqn:E; [rewrite (inverse_scale k r c K E)|rewrite (inverse_none k r E); reflexivity].
    cbn [obind]. replace (1 - (1 + kappa) * (c / k * (c / k)) * (k * x * (k * x) + k * y * (k * y))) with (1 - (1 + kappa) * (c * c) * (x * x + y * y)) by (field; exact Kn).
    replace (c / k * (k * x)) with (c * x) by (field; exact Kn). replace (c / k * (k * y)) with (c * y) by (field; exact Kn). reflexivity.
  - unfold parabola_normal. cbn [vscale vx vy vz]. replace (2 * (k * f)) with (k * (2 * f)) by ring. rewrite !odiv_scale by exact Kn.
    destruct (odiv x (2 * f)) as [a|]; [|reflexivity]. cbn [obind]. destruct (odiv y (2 * f)) as [b|]; [|reflexivity]. cbn [obind].
    destruct (odiv 1 (sqrt _)) as [q|]; [|reflexivity]. cbn [obind].
    destruct (odiv 1 (2 * f)) as [c|] eqn:E; [rewrite (inverse_scale k _ c K E)|rewrite (inverse_none k _ E); reflexivity].
    cbn [obind]. f_equal. apply vec_eq; cbn; field; exact Kn.
  - unfold cylinder_normal. cbn [vscale vx vy vz]. rewrite odiv_scale by exact Kn. reflexivity.
  - unfold torus_normal. cbn [vscale vx vy vz]. destruct (odiv 1 r) as [c|] eqn:E; [rewrite (inverse_scale k r c K E)|rewrite (inverse_none k r E); reflexivity].
    cbn [obind]. replace (1 - c / k * (c / k) * (k * y * (k * y))) with (1 - c * c * (y * y)) by (field; exact Kn).
    destruct (osqrt (1 - c * c * (y * y))) as [s|]; [|reflexivity]. cbn [obind].
    replace (c / k * (k * y * (k * y))) with (k * (c * (y * y))) by (field; exact Kn). rewrite odiv_scale_l.
    destruct (odiv (c * (y * y)) (1 + s)) as [zy|]; [|reflexivity]. cbn [omap obind].
    replace ((k * r' - k * zy) * (k * r' - k * zy) - k * x * (k * x)) with (k * k * ((r' - zy) * (r' - zy) - x * x)) by ring.
    rewrite osqrt_scale by exact K. destruct (osqrt ((r' - zy) * (r' - zy) - x * x)) as [w|]; [|reflexivity]. cbn [omap obind].
    rewrite odiv_scale by exact Kn. destruct (odiv x w) as [dx|]; [|reflexivity]. cbn [obind].
    replace (c / k * (k * y)) with (c * y) by (field; exact Kn). destruct (odiv (c * y) s) as [dy|]; [|reflexivity]. cbn [obind].
    replace ((k * r' - k * zy) * dy) with (k * ((r' - zy) * dy)) by ring. rewrite odiv_scale by exact Kn. reflexivity.
Qed.

Lemma ray_at_scale : forall k o u t, ray_at (vscale k o) u (k * t) = vscale k (ray_at o u t).
Proof. intros. apply vec_eq; cbn; ring. Qed.

Lemma flat_intercept_scale : forall k o u, flat_intercept (vscale k o) u = omap (vscale k) (flat_intercept o u).
Proof.
  intros k o u. unfold flat_intercept. cbn [vscale vz]. replace (- (k * vz o)) with (k * - vz o) by ring. rewrite odiv_scale_l.
  destruct (odiv _ _) as [t|]; [|reflexivity]. cbn. f_equal. apply vec_eq; cbn; ring.
Qed.
Lemma sphere_intercept_scale : forall k r o u, 0 < k -> sphere_intercept (k * r) (vscale k o) u = omap (vscale k) (sphere_intercept r o u).
Proof.
  intros k r o u K. unfold sphere_intercept. cbn [vscale vx vy vz].
  replace ((vx u * (k * vx o) + vy u * (k * vy o) + vz u * (k * vz o - k * r)) * (vx u * (k * vx o) + vy u * (k * vy o) + vz u * (k * vz o - k * r)) -
     (k * vx o * (k * vx o) + k * vy o * (k * vy o) + (k * vz o - k * r) * (k * vz o - k * r) - k * r * (k * r)))
    with (k * k * ((vx u * vx o + vy u * vy o + vz u * (vz o - r)) * (vx u * vx o + vy u * vy o + vz u * (vz o - r)) - (vx o * vx o + vy o * vy o + (vz o - r) * (vz o - r) - r * r))) by ring.
  rewrite osqrt_scale by exact K. destruct (osqrt _) as [s|]; [|reflexivity]. cbn [omap obind]. f_equal.
  rewrite Rmult_assoc, rsign_scale by exact K. apply vec_eq; cbn; ring.
Qed.
Lemma parabola_intercept_scale : forall k f o u, 0 < k -> parabola_intercept (k * f) (vscale k o) u = omap (vscale k) (parabola_intercept f o u).
Proof.
  intros k f o u K. unfold parabola_intercept. cbn [vscale vx vy vz]. destruct (Rlt_dec _ _) as [H|H].
  - match goal with |- context [osqrt ?e] => replace e with (k * k * (- ((vy o * vx u) * (vy o * vx u)) - (vx o * vy u) * (vx o * vy u)
                       + 2 * vy o * vy u * (vx o * vx u - 2 * f * vz u)
                       + 4 * f * (vz o * (vx u * vx u + vy u * vy u) - vx o * vx u * vz u + f * (vz u * vz u)))) by ring end.
    rewrite osqrt_scale by exact K. destruct (osqrt _) as [s|]; [|reflexivity]. cbn [omap obind].
    replace (k * f * vz u) with (k * (f * vz u)) by ring. rewrite rsign_scale by exact K.
    replace (- (k * vx o) * vx u - k * vy o * vy u + 2 * (k * f) * vz u - rsign (f * vz u) * (k * s))
      with (k * (- vx o * vx u - vy o * vy u + 2 * f * vz u - rsign (f * vz u) * s)) by ring.
    rewrite odiv_scale_l. destruct (odiv _ _) as [t|]; [|reflexivity]. cbn. f_equal. apply vec_eq; cbn; ring.
  - replace (k * vx o * (k * vx o) + k * vy o * (k * vy o) - 4 * (k * f) * (k * vz o)) with (k * (k * (vx o * vx o + vy o * vy o - 4 * f * vz o))) by ring.
    replace (4 * (k * f) * vz u) with (k * (4 * f * vz u)) by ring. rewrite odiv_scale, odiv_scale_l by lra.
    destruct (odiv _ _) as [t|]; [|reflexivity]. cbn. f_equal. apply vec_eq; cbn; ring.
Qed.
Lemma cylinder_intercept_scale : forall k r o u, 0 < k -> cylinder_intercept (k * r) (vscale k o) u = omap (vscale k) (cylinder_intercept r o u).
Proof.
  intros k r o u K. rewrite !cylinder_eq.
  assert (Ed : cyl_disc (k * r) (vscale k o) u = k * k * cyl_disc r o u) by (unfold cyl_disc; cbn; ring).
  rewrite Ed. assert (P : 0 < k * k) by nra.
  destruct (Rlt_dec 0 (k * k * cyl_disc r o u)) as [A|A], (Rlt_dec 0 (cyl_disc r o u)) as [B|B]; try (exfalso; nra).
  - rewrite sqrt_mult by lra. rewrite sqrt_square by lra. replace (k * r * vz u) with (k * (r * vz u)) by ring. rewrite rsign_scale by exact K.
    replace (cyl_b (k * r) (vscale k o) u) with (k * cyl_b r o u) by (unfold cyl_b; cbn; ring).
    replace (- (k * cyl_b r o u) - rsign (r * vz u) * (k * sqrt (cyl_disc r o u))) with (k * (- cyl_b r o u - rsign (r * vz u) * sqrt (cyl_disc r o u))) by ring.
    rewrite odiv_scale_l. destruct (odiv _ _) as [t|]; [|reflexivity]. cbn. f_equal. apply vec_eq; cbn; ring.
  - cbn [vscale vz]. replace (- (k * vz o)) with (k * - vz o) by ring. rewrite odiv_scale_l.
    destruct (odiv _ _) as [t|]; [|reflexivity]. cbn. f_equal. apply vec_eq; cbn; ring.
Qed.

Lemma conic_root_scale : forall k c kappa o u s, 0 < k ->
  1 / 10 ^ 12 <= Rabs (conic_a c kappa u) -> 1 / 10 ^ 12 <= Rabs (conic_a (c / k) kappa u) ->
  conic_root (c / k) kappa (vscale k o) u s = omap (Rmult k) (conic_root c kappa o u s).
Proof.
  intros k c kappa o u s K A A'. assert (Kn : k <> 0) by lra. unfold conic_root, conic_degenerate.
  destruct (Rlt_dec (Rabs (conic_a (c / k) kappa u)) _) as [X|_]; [lra|]. destruct (Rlt_dec (Rabs (conic_a c kappa u)) _) as [X|_]; [lra|].
  assert (Ea : conic_a (c / k) kappa u = conic_a c kappa u / k) by (unfold conic_a; field; exact Kn).
  assert (Eb : conic_b (c / k) kappa (vscale k o) u = conic_b c kappa o u) by (unfold conic_b; cbn; field; exact Kn).
  assert (Ec : conic_cc (c / k) kappa (vscale k o) = k * conic_cc c kappa o) by (unfold conic_cc; cbn; field; exact Kn).
  assert (Ed : conic_disc (c / k) kappa (vscale k o) u = conic_disc c kappa o u) by (unfold conic_disc; rewrite Ea, Eb, Ec; field; exact Kn).
  rewrite Ea, Eb, Ed. destruct (Rle_dec 0 (conic_disc c kappa o u)) as [D|D]; [|reflexivity]. cbn [obind].
  assert (Za : conic_a c kappa u <> 0). { intros Z. rewrite Z, Rabs_R0 in A. lra. }
  set (a := conic_a c kappa u) in *.
  assert (Za2 : 2 * a <> 0) by lra. assert (Zak : 2 * (a / k) <> 0).
  { intros X. apply Za. apply (Rmult_eq_reg_r (2 / k)); [|unfold Rdiv; apply Rmult_integral_contrapositive_currified; [lra|apply Rinv_neq_0_compat; exact Kn]].
    rewrite Rmult_0_l, <- X. field. exact Kn. }
  rewrite !odiv_nz by assumption.
  cbn [obind].
  set (t := (- conic_b c kappa o u + s * sqrt (conic_disc c kappa o u)) / (2 * a)).
  replace ((- conic_b c kappa o u + s * sqrt (conic_disc c kappa o u)) / (2 * (a / k))) with (k * t) by (unfold t; field; auto).
  rewrite ray_at_scale. set (q := ray_at o u t). cbn [vscale vx vy vz].
  replace (k * vz q * (c / k * (k * vx q * (k * vx q) + k * vy q * (k * vy q)) - k * vz q)) with (k * k * (vz q * (c * (vx q * vx q + vy q * vy q) - vz q))) by (field; exact Kn).
  assert (P : 0 < k * k) by nra.
  destruct (Rle_dec 0 (k * k * _)) as [X|X], (Rle_dec 0 (vz q * _)) as [Y|Y]; try (exfalso; nra); reflexivity.
Qed.
Lemma conic_intercept_scale : forall k r kappa o u, 0 < k ->
  1 / 10 ^ 12 <= Rabs (conic_a (1 / r) kappa u) -> 1 / 10 ^ 12 <= Rabs (conic_a (1 / (k * r)) kappa u) ->
  conic_intercept (k * r) kappa (vscale k o) u = omap (vscale k) (conic_intercept r kappa o u).
Proof.
  intros k r kappa o u K A A'. unfold conic_intercept. destruct (Req_dec r 0) as [Z|Z]; [rewrite Z, Rmult_0_r, odiv_0; reflexivity|].
  rewrite !odiv_nz by nra. cbn [obind]. replace (1 / (k * r)) with (1 / r / k) in * by (field; split; lra).
  unfold conic_t. rewrite !conic_root_scale by assumption.
  destruct (conic_root (1 / r) kappa o u (-1)) as [ta|], (conic_root (1 / r) kappa o u 1) as [tb|]; cbn [omap].
  - rewrite !Rabs_mult, (Rabs_right k) by lra.
    destruct (Rle_dec (k * Rabs ta) (k * Rabs tb)) as [X|X], (Rle_dec (Rabs ta) (Rabs tb)) as [Y|Y]; try (exfalso; nra); cbn [obind omap]; rewrite ray_at_scale; reflexivity.
  - cbn [obind omap]. rewrite ray_at_scale. reflexivity.
  - cbn [obind omap]. rewrite ray_at_scale. reflexivity.
  - reflexivity.
Qed.

Lemma class_intercept_scale : forall k c solver solver' o u, 0 < k -> same_search k c solver solver' -> above_threshold k c u ->
  class_intercept solver' (scale_class k c) (vscale k o) u = omap (vscale k) (class_intercept solver c o u).
Proof.
  intros k c solver solver' o u K S A. destruct c as [|r|r kappa|f|r|r r']; cbn [scale_class class_intercept].
  - apply flat_intercept_scale.
  - apply sphere_intercept_scale; exact K.
  - apply conic_intercept_scale; [exact K|apply A|apply A].
  - apply parabola_intercept_scale; exact K.
  - apply cylinder_intercept_scale; exact K.
  - cbn in S. rewrite S. destruct (solver o u) as [t|]; [|reflexivity]. cbn. f_equal. apply vec_eq; cbn; ring.
Qed.

Lemma scale_point : forall k t p, rigid_point (mkRigid (rg_mat t) (vscale k (rg_shift t))) (vscale k p) = vscale k (rigid_point t p).
Proof. intros. unfold rigid_point. cbn [rg_mat rg_shift]. rewrite mapply_vscale, vscale_vadd. reflexivity. Qed.
Lemma scale_point_inv : forall k t p, rigid_point (rigid_inv (mkRigid (rg_mat t) (vscale k (rg_shift t)))) (vscale k p) = vscale k (rigid_point (rigid_inv t) p).
Proof.
  intros. unfold rigid_inv, rigid_point. cbn [rg_mat rg_shift]. rewrite !mapply_vscale. apply vec_eq; cbn; ring.
Qed.

Lemma make_sag_scale : forall k c solver solver' t, 0 < k -> same_search k c solver solver' -> (forall u, above_threshold k c u) ->
  same_sag k (make_sag solver c t) (make_sag solver' (scale_class k c) (scale_rigid k t)).
Proof.
  intros k c solver solver' t K S A. split.
  - intros o u. unfold make_sag, sag_intercept_t. cbn [sag_intercept].
    destruct t as [t|]; cbn [scale_rigid omap].
    + assert (G : omap (rigid_point (mkRigid (rg_mat t) (vscale k (rg_shift t))))
          (class_intercept solver' (scale_class k c) (rigid_point (rigid_inv (mkRigid (rg_mat t) (vscale k (rg_shift t)))) (vscale k o))
             (rigid_vector (rigid_inv (mkRigid (rg_mat t) (vscale k (rg_shift t)))) u))
        = omap (vscale k) (omap (rigid_point t) (class_intercept solver c (rigid_point (rigid_inv t) o) (rigid_vector (rigid_inv t) u)))).
      { rewrite scale_point_inv. change (rigid_vector (rigid_inv (mkRigid (rg_mat t) (vscale k (rg_shift t)))) u) with (rigid_vector (rigid_inv t) u).
        rewrite (class_intercept_scale k c solver solver') by auto.
        destruct (class_intercept solver c _ _) as [q|]; [|reflexivity]. cbn [omap]. f_equal. apply scale_point. }
      destruct c as [|r|r kappa|f|r|r r']; try exact G.
      apply (class_intercept_scale k (ToroidalSag r r') solver solver'); auto.
    + destruct c; apply class_intercept_scale; auto.
  - intros x. unfold make_sag, sag_normal_t. cbn [sag_normal]. destruct t as [t|]; cbn [scale_rigid omap].
    + rewrite scale_point_inv. apply class_normal_scale; exact K.
    + apply class_normal_scale; exact K.
Qed.
