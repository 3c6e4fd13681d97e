(** The symmetries of the sags of the library. *)
From Coq Require Import Reals List Bool Lra.
From Verif Require Import Vec VecLemmas Num NumLemmas RayModel SurfaceModel SagModel SymmetrySpec SymmetryProofs.
Import ListNotations.
Open Scope R_scope.
Open Scope opt_scope.

Definition xy (a b : vec3) : R := vx a * vx b + vy a * vy b.

Section Axial.
Variable q : mat3.
Hypothesis A : axial q.

Lemma axial_form : exists a b c d, q = M3 (V3 a b 0) (V3 c d 0) (V3 0 0 1) /\ a * a + c * c = 1 /\ b * b + d * d = 1 /\ a * b + c * d = 0.
Proof.
  destruct A as [Q Z]. destruct q as [[a b e] [c d f] [g h i]].
  assert (Ce : e = 0) by (assert (X := f_equal vx Z); cbn in X; unfold dot in X; cbn in X; lra).
  assert (Cf : f = 0) by (assert (X := f_equal vy Z); cbn in X; unfold dot in X; cbn in X; lra).
  assert (Ci : i = 1) by (assert (X := f_equal vz Z); cbn in X; unfold dot in X; cbn in X; lra).
  subst e f i.
  assert (D := fun v w => orthogonal_dot _ v w Q).
  assert (D1 := D (V3 1 0 0) (V3 0 0 1)). assert (D2 := D (V3 0 1 0) (V3 0 0 1)). assert (D3 := D (V3 1 0 0) (V3 1 0 0)).
  assert (D4 := D (V3 0 1 0) (V3 0 1 0)). assert (D5 := D (V3 1 0 0) (V3 0 1 0)).
  unfold dot in D1, D2, D3, D4, D5; cbn in D1, D2, D3, D4, D5; unfold dot in D1, D2, D3, D4, D5; cbn in D1, D2, D3, D4, D5.
  assert (g = 0) by lra. assert (h = 0) by lra. subst g h. exists a, b, c, d. split; [reflexivity|]. repeat split; lra.
Qed.
Lemma axial_z : forall v, vz (mapply q v) = vz v.
Proof. intros v. destruct axial_form as (a & b & c & d & -> & _). cbn. unfold dot. cbn. ring. Qed.
Lemma axial_xy : forall v w, xy (mapply q v) (mapply q w) = xy v w.
Proof.
  intros v w. assert (D := orthogonal_dot q v w (proj1 A)). assert (Zv := axial_z v). assert (Zw := axial_z w).
  unfold dot in D. unfold xy. rewrite Zv, Zw in D. lra.
Qed.
Lemma axial_flat : forall k z p, mapply q (V3 (k * vx p) (k * vy p) z) = V3 (k * vx (mapply q p)) (k * vy (mapply q p)) z.
Proof. intros k z p. destruct axial_form as (a & b & c & d & -> & _). apply vec_eq; cbn; unfold dot; cbn; ring. Qed.
Lemma ray_at_image : forall o u t, ray_at (mapply q o) (mapply q u) t = mapply q (ray_at o u t).
Proof. intros. unfold ray_at. rewrite mapply_vadd, mapply_vsc. reflexivity. Qed.

Lemma revolution_intercept : forall c solver o u, of_revolution c ->
  class_intercept solver c (mapply q o) (mapply q u) = omap (mapply q) (class_intercept solver c o u).
Proof.
  intros c solver o u H. set (o' := mapply q o). set (u' := mapply q u).
  assert (Zo : vz o' = vz o) by apply axial_z. assert (Zu : vz u' = vz u) by apply axial_z.
  assert (Xoo : xy o' o' = xy o o) by apply axial_xy. assert (Xou : xy o' u' = xy o u) by apply axial_xy.
  assert (Xuu : xy u' u' = xy u u) by apply axial_xy.
  assert (G : forall x y, x = y -> omap (fun t => vadd o' (vscale t u')) x = omap (mapply q) (omap (fun t => vadd o (vscale t u)) y)).
  { intros x y ->. destruct y as [t|]; [|reflexivity]. cbn [omap]. f_equal. apply (ray_at_image o u t). }
  destruct c as [|r|r kappa|f|r|r r']; cbn [of_revolution] in H; try contradiction; cbn [class_intercept].
  - unfold flat_intercept. rewrite Zo, Zu. exact (G _ _ eq_refl).
  - unfold sphere_intercept. cbn [vx vy vz]. rewrite Zo, Zu.
    replace (vx u' * vx o' + vy u' * vy o' + vz u * (vz o - r)) with (xy o' u' + vz u * (vz o - r)) by (unfold xy; ring).
    replace (vx o' * vx o' + vy o' * vy o') with (xy o' o') by reflexivity. rewrite Xou, Xoo.
    replace (xy o u + vz u * (vz o - r)) with (vx u * vx o + vy u * vy o + vz u * (vz o - r)) by (unfold xy; ring). unfold xy.
    destruct (osqrt _) as [s|]; [|reflexivity]. exact (G (Some _) (Some _) eq_refl).
  - assert (Root : forall c s, conic_root c kappa o' u' s = conic_root c kappa o u s).
    { intros c s. 
      assert (Ea : conic_a c kappa u' = conic_a c kappa u).
      { unfold conic_a. rewrite Zu. change (vx u' * vx u' + vy u' * vy u') with (xy u' u'). rewrite Xuu. reflexivity. }
      assert (Eb : conic_b c kappa o' u' = conic_b c kappa o u).
      { unfold conic_b. rewrite Zo, Zu. change (vx o' * vx u' + vy o' * vy u') with (xy o' u'). rewrite Xou. reflexivity. }
      assert (Ec : conic_cc c kappa o' = conic_cc c kappa o).
      { unfold conic_cc. rewrite Zo. change (vx o' * vx o' + vy o' * vy o') with (xy o' o'). rewrite Xoo. reflexivity. }
      unfold conic_root, conic_disc, conic_degenerate. rewrite Ea, Eb, Ec.
      destruct (Rle_dec 0 _) as [_|_]; [|reflexivity]. cbn [obind].
      match goal with |- obind ?x _ = _ => destruct x as [t|]; [|reflexivity] end. cbn [obind]. unfold o', u'. rewrite ray_at_image, axial_z.
      change (vx (mapply q (ray_at o u t)) * vx (mapply q (ray_at o u t)) + vy (mapply q (ray_at o u t)) * vy (mapply q (ray_at o u t)))
        with (xy (mapply q (ray_at o u t)) (mapply q (ray_at o u t))). rewrite axial_xy. reflexivity. }
    unfold conic_intercept, conic_t. destruct (odiv 1 r) as [c|]; [|reflexivity]. cbn [obind]. rewrite !Root. exact (G _ _ eq_refl).
  - unfold parabola_intercept. rewrite Zo, Zu.
    replace (- (vy o' * vx u' * (vy o' * vx u')) - vx o' * vy u' * (vx o' * vy u') + 2 * vy o' * vy u' * (vx o' * vx u' - 2 * f * vz u) +
        4 * f * (vz o * (vx u' * vx u' + vy u' * vy u') - vx o' * vx u' * vz u + f * (vz u * vz u)))
      with (xy o' u' * xy o' u' - xy o' o' * xy u' u' + 4 * f * (vz o * xy u' u' - xy o' u' * vz u + f * (vz u * vz u))) by (unfold xy; ring).
    change (vx u' * vx u' + vy u' * vy u') with (xy u' u'). change (vx o' * vx o' + vy o' * vy o') with (xy o' o').
    replace (- vx o' * vx u' - vy o' * vy u') with (- xy o' u') by (unfold xy; ring). rewrite Xou, Xoo, Xuu.
    replace (xy o u * xy o u - xy o o * xy u u + 4 * f * (vz o * xy u u - xy o u * vz u + f * (vz u * vz u)))
      with (- (vy o * vx u * (vy o * vx u)) - vx o * vy u * (vx o * vy u) + 2 * vy o * vy u * (vx o * vx u - 2 * f * vz u) +
        4 * f * (vz o * (vx u * vx u + vy u * vy u) - vx o * vx u * vz u + f * (vz u * vz u))) by (unfold xy; ring).
    replace (- xy o u) with (- vx o * vx u - vy o * vy u) by (unfold xy; ring). unfold xy. exact (G _ _ eq_refl).
Qed.
Lemma revolution_normal : forall c p, of_revolution c -> class_normal c (mapply q p) = omap (mapply q) (class_normal c p).
Proof.
  intros c p H. set (p' := mapply q p). assert (X : xy p' p' = xy p p) by apply axial_xy.
  destruct c as [|r|r kappa|f|r|r r']; cbn [of_revolution] in H; try contradiction; cbn [class_normal].
  - unfold flat_normal. cbn [omap]. f_equal. assert (F := axial_flat 0 (-1) p). rewrite !Rmult_0_l in F. symmetry. exact F.
  - unfold sphere_normal. destruct (odiv 1 r) as [c|]; [|reflexivity]. cbn [obind].
    replace (1 - c * vx p' * (c * vx p') - c * vy p' * (c * vy p')) with (1 - c * c * xy p' p') by (unfold xy; ring). rewrite X.
    replace (1 - c * vx p * (c * vx p) - c * vy p * (c * vy p)) with (1 - c * c * xy p p) by (unfold xy; ring).
    destruct (osqrt _) as [s|]; [|reflexivity]. cbn [obind omap]. f_equal. symmetry. apply axial_flat.
  - unfold conic_normal. destruct (odiv 1 r) as [c|]; [|reflexivity]. cbn [obind].
    change (vx p' * vx p' + vy p' * vy p') with (xy p' p'). rewrite X. change (vx p * vx p + vy p * vy p) with (xy p p).
    destruct (osqrt _) as [g|]; [|reflexivity]. cbn [obind]. destruct (Req_dec g 0) as [Z|Z]; [rewrite Z, !odiv_0; reflexivity|].
    rewrite !odiv_nz by exact Z. cbn [obind].
    assert (F : mapply q (V3 (c * vx p / g) (c * vy p / g) (-1)) = V3 (c * vx p' / g) (c * vy p' / g) (-1)).
    { replace (c * vx p / g) with (c / g * vx p) by (unfold Rdiv; ring). replace (c * vy p / g) with (c / g * vy p) by (unfold Rdiv; ring).
      rewrite axial_flat. unfold p'. apply vec_eq; cbn [vx vy vz]; unfold Rdiv; ring. }
    rewrite <- F, orthogonal_vlen by exact (proj1 A). destruct (odiv 1 _) as [n|]; [|reflexivity]. cbn [obind omap]. rewrite mapply_vsc. reflexivity.
  - unfold parabola_normal. destruct (Req_dec (2 * f) 0) as [Z|Z]; [rewrite Z, !odiv_0; reflexivity|].
    rewrite !odiv_nz by exact Z. cbn [obind].
    replace (vx p' / (2 * f) * (vx p' / (2 * f)) + vy p' / (2 * f) * (vy p' / (2 * f)) + 1) with (xy p' p' / (2 * f) / (2 * f) + 1) by (unfold xy, Rdiv; ring).
    rewrite X. replace (xy p p / (2 * f) / (2 * f) + 1) with (vx p / (2 * f) * (vx p / (2 * f)) + vy p / (2 * f) * (vy p / (2 * f)) + 1) by (unfold xy, Rdiv; ring).
    destruct (odiv 1 (sqrt _)) as [n|]; [|reflexivity]. cbn [obind omap]. f_equal.
    set (k := n * (1 / (2 * f))).
    replace (V3 (vx p * n * (1 / (2 * f))) (vy p * n * (1 / (2 * f))) (- (2 * f) * n * (1 / (2 * f)))) with (V3 (k * vx p) (k * vy p) (- (2 * f) * n * (1 / (2 * f)))) by (apply vec_eq; cbn [vx vy vz]; unfold k; ring).
    rewrite axial_flat. unfold k, p'. apply vec_eq; cbn [vx vy vz]; ring.
Qed.
End Axial.

Lemma flips_axial : forall q, flips q -> axial q.
Proof.
  intros q (a & b & Ha & Hb & ->). split; [|apply vec_eq; cbn; unfold dot; cbn; ring].
  unfold orthogonal. apply mat_eq; apply vec_eq; cbn; unfold dot; cbn; destruct Ha as [-> | ->], Hb as [-> | ->]; ring.
Qed.
Lemma flips_intercept : forall q c solver o u, flips q -> symmetric_search q c solver ->
  class_intercept solver c (mapply q o) (mapply q u) = omap (mapply q) (class_intercept solver c o u).
Proof.
  intros q c solver o u F S. assert (A := flips_axial q F).
  destruct c as [|r|r kappa|f|r|r r']; try (apply revolution_intercept; [exact A|exact I]); cbn [class_intercept].
  - destruct F as (a & b & Ha & Hb & ->). set (q := M3 (V3 a 0 0) (V3 0 b 0) (V3 0 0 1)).
    assert (Ea : a * a = 1) by (destruct Ha as [-> | ->]; ring).
    assert (Vx : forall v, vx (mapply q v) = a * vx v) by (intros v; cbn; unfold dot; cbn; ring).
    assert (Vz : forall v, vz (mapply q v) = vz v) by (intros v; cbn; unfold dot; cbn; ring).
    unfold cylinder_intercept. cbv zeta.
    set (N := fun n : vec3 => dot (cross n (V3 0 1 0)) (cross n (V3 0 1 0))).
    set (B := fun o n : vec3 => dot (cross n (V3 0 1 0)) (cross (vsub (V3 0 0 r) o) (V3 0 1 0))).
    set (D := fun o n : vec3 => dot (vsub (V3 0 0 r) o) (cross n (V3 0 1 0))).
    assert (EN : N (mapply q u) = N u).
    { unfold N, dot, cross, vsub. cbn [vx vy vz]. rewrite Vx, Vz.
      transitivity (a * a * (vx u * vx u) + vz u * vz u); [ring|]. rewrite Ea. ring. }
    assert (EB : B (mapply q o) (mapply q u) = B o u).
    { unfold B, dot, cross, vsub. cbn [vx vy vz]. rewrite !Vx, !Vz.
      transitivity (- (a * a * (vx o * vx u)) + vz u * (r - vz o)); [ring|]. rewrite Ea. ring. }
    assert (ED : D (mapply q o) (mapply q u) = a * D o u).
    { unfold D, dot, cross, vsub. cbn [vx vy vz]. rewrite !Vx, !Vz. ring. }
    change (dot (cross (mapply q u) (V3 0 1 0)) (cross (mapply q u) (V3 0 1 0))) with (N (mapply q u)).
    change (dot (cross (mapply q u) (V3 0 1 0)) (cross (vsub (V3 0 0 r) (mapply q o)) (V3 0 1 0))) with (B (mapply q o) (mapply q u)).
    change (dot (vsub (V3 0 0 r) (mapply q o)) (cross (mapply q u) (V3 0 1 0))) with (D (mapply q o) (mapply q u)).
    change (dot (cross u (V3 0 1 0)) (cross u (V3 0 1 0))) with (N u).
    change (dot (cross u (V3 0 1 0)) (cross (vsub (V3 0 0 r) o) (V3 0 1 0))) with (B o u).
    change (dot (vsub (V3 0 0 r) o) (cross u (V3 0 1 0))) with (D o u).
    rewrite EN, EB, ED, !Vz. replace (a * D o u * (a * D o u)) with (D o u * D o u) by (transitivity (a * a * (D o u * D o u)); [rewrite Ea; ring|ring]).
    match goal with |- obind ?x _ = _ => destruct x as [t|]; [|reflexivity] end. cbn [obind omap]. f_equal. apply (ray_at_image q o u t).
  - rewrite S. destruct (solver o u) as [t|]; [|reflexivity]. cbn [omap]. f_equal. apply ray_at_image.
Qed.
Lemma flips_normal : forall q c p, flips q -> class_normal c (mapply q p) = omap (mapply q) (class_normal c p).
Proof.
  intros q c p F. assert (A := flips_axial q F).
  destruct c as [|r|r kappa|f|r|r r']; try (apply revolution_normal; [exact A|exact I]); cbn [class_normal];
    destruct F as (a & b & Ha & Hb & ->); set (q := M3 (V3 a 0 0) (V3 0 b 0) (V3 0 0 1)) in *;
    assert (Ea : a * a = 1) by (destruct Ha as [-> | ->]; ring); assert (Eb : b * b = 1) by (destruct Hb as [-> | ->]; ring);
    assert (Vx : forall v, vx (mapply q v) = a * vx v) by (intros v; cbn; unfold dot; cbn; ring);
    assert (Vy : forall v, vy (mapply q v) = b * vy v) by (intros v; cbn; unfold dot; cbn; ring).
  - unfold cylinder_normal. rewrite Vx. destruct (Req_dec r 0) as [Z|Z]; [rewrite Z, !odiv_0; reflexivity|]. rewrite !odiv_nz by exact Z. cbn [obind].
    replace (a * vx p / r * (a * vx p / r)) with (a * a * (vx p / r * (vx p / r))) by (unfold Rdiv; ring). rewrite Ea, Rmult_1_l.
    destruct (osqrt _) as [s|]; [|reflexivity]. cbn [obind omap]. f_equal. apply vec_eq; cbn; unfold dot; cbn; unfold Rdiv; ring.
  - unfold torus_normal. cbv zeta. rewrite Vx, Vy. destruct (odiv 1 r) as [c|]; [|reflexivity]. cbn [obind].
    replace (b * vy p * (b * vy p)) with (vy p * vy p) by (transitivity (b * b * (vy p * vy p)); [rewrite Eb|]; ring).
    replace (a * vx p * (a * vx p)) with (vx p * vx p) by (transitivity (a * a * (vx p * vx p)); [rewrite Ea|]; ring).
    destruct (osqrt (1 - _)) as [g|]; [|reflexivity]. cbn [obind]. destruct (odiv (c * _) (1 + g)) as [zy|]; [|reflexivity]. cbn [obind].
    destruct (osqrt _) as [f|]; [|reflexivity]. cbn [obind]. destruct (Req_dec f 0) as [Z|Z]; [rewrite Z, !odiv_0; reflexivity|].
    rewrite !(odiv_nz _ f) by exact Z. cbn [obind]. destruct (Req_dec g 0) as [Zg|Zg]; [rewrite Zg, !odiv_0; reflexivity|].
    rewrite !(odiv_nz _ g) by exact Zg. cbn [obind]. rewrite !(odiv_nz _ f) by exact Z. cbn [obind].
    assert (E : V3 (a * vx p / f) ((r' - zy) * (c * (b * vy p) / g) / f) (-1) = mapply q (V3 (vx p / f) ((r' - zy) * (c * vy p / g) / f) (-1))).
    { apply vec_eq; cbn; unfold dot; cbn; unfold Rdiv; ring. }
    rewrite E, orthogonal_vlen by exact (proj1 A). destruct (odiv 1 _) as [n|]; [|reflexivity]. cbn [obind omap]. rewrite mapply_vsc. reflexivity.
Qed.

Lemma image_point : forall q t p, symmetric_rigid q t -> rigid_point t (mapply q p) = mapply q (rigid_point t p).
Proof. intros q t p (M & T & _). unfold rigid_point. rewrite mapply_vadd, T, M. reflexivity. Qed.
Lemma image_vector : forall q t p, symmetric_rigid q t -> rigid_vector t (mapply q p) = mapply q (rigid_vector t p).
Proof. intros q t p (M & _ & _). unfold rigid_vector. rewrite M. reflexivity. Qed.

Lemma make_sag_symmetric : forall q solver c t, for_option (symmetric_rigid q) t ->
  (forall o u, class_intercept solver c (mapply q o) (mapply q u) = omap (mapply q) (class_intercept solver c o u)) ->
  (forall p, class_normal c (mapply q p) = omap (mapply q) (class_normal c p)) ->
  symmetric_sag q (make_sag solver c t).
Proof.
  intros q solver c t T HI HN. split.
  - intros o u. unfold make_sag, sag_intercept_t. cbn [sag_intercept]. destruct t as [t|].
    + assert (S := T t eq_refl). assert (S' := symmetric_inv q t S).
      assert (G : omap (rigid_point t) (class_intercept solver c (rigid_point (rigid_inv t) (mapply q o)) (rigid_vector (rigid_inv t) (mapply q u)))
        = omap (mapply q) (omap (rigid_point t) (class_intercept solver c (rigid_point (rigid_inv t) o) (rigid_vector (rigid_inv t) u)))).
      { rewrite image_point, image_vector by exact S'. rewrite HI. destruct (class_intercept solver c _ _) as [x|]; [|reflexivity].
        cbn [omap]. f_equal. apply image_point. exact S. }
      destruct c; try exact G. apply HI.
    + destruct c; apply HI.
  - intros x. unfold make_sag, sag_normal_t. cbn [sag_normal]. destruct t as [t|]; [|apply HN].
    rewrite image_point by (apply symmetric_inv, T; reflexivity). apply HN.
Qed.
Lemma revolution_symmetric : forall q solver c t, axial q -> of_revolution c -> for_option (symmetric_rigid q) t ->
  symmetric_sag q (make_sag solver c t).
Proof.
  intros q solver c t A C T. apply make_sag_symmetric; [exact T| |].
  - intros o u. apply revolution_intercept; assumption.
  - intros p. apply revolution_normal; assumption.
Qed.
Lemma flips_symmetric : forall q solver c t, flips q -> symmetric_search q c solver -> for_option (symmetric_rigid q) t ->
  symmetric_sag q (make_sag solver c t).
Proof.
  intros q solver c t A C T. apply make_sag_symmetric; [exact T| |].
  - intros o u. apply flips_intercept; assumption.
  - intros p. apply flips_normal; assumption.
Qed.
