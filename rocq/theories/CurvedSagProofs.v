(** Which classes of sags make figured surfaces, and on which lines their intercepts are determined. *)
From Coq Require Import Reals List Bool Lra.
From Verif Require Import Vec VecLemmas Num NumLemmas RayModel SnellModel SnellSpec SnellProofs SurfaceModel SagModel SagInterceptProofs SequenceSpec SystemModel SystemSpec
  SystemRetraceProofs CurvedSpec.
Import ListNotations.
Open Scope R_scope.
Open Scope opt_scope.

Lemma normalised_unit : forall v q, odiv 1 (vlen v) = Some q -> is_unit (vscale q v).
Proof.
  intros v q H. apply odiv_some in H. destruct H as (Z & H & _). rewrite H. unfold is_unit. rewrite norm2_scale.
  unfold vlen in *. assert (N : 0 <= norm2 v) by (unfold norm2, dot; nra).
  assert (S := sqrt_sqrt _ N). field_simplify; [|exact Z]. rewrite <- S at 1. field. exact Z.
Qed.

Lemma class_unit : forall s p n, class_normal s p = Some n -> is_unit n.
Proof.
  intros s p n H. destruct s as [|r|r k|f|r|r rr]; cbn [class_normal] in H.
  - injection H as <-. unfold is_unit, norm2, dot. cbn. ring.
  - unfold sphere_normal in H. destruct (odiv 1 r) as [c|]; [|discriminate H]. cbn [obind] in H.
    destruct (osqrt _) as [s|] eqn:E; [|discriminate H]. cbn [obind] in H. injection H as <-.
    apply osqrt_some in E. destruct E as (_ & _ & _ & E2). unfold is_unit, norm2, dot. cbn. lra.
  - unfold conic_normal in H. destruct (odiv 1 r) as [c|]; [|discriminate H]. cbn [obind] in H.
    destruct (osqrt _) as [g|]; [|discriminate H]. cbn [obind] in H.
    destruct (odiv (c * vx p) g) as [a|]; [|discriminate H]. cbn [obind] in H. destruct (odiv (c * vy p) g) as [b|]; [|discriminate H]. cbn [obind] in H.
    destruct (odiv 1 _) as [q|] eqn:E; [|discriminate H]. cbn [obind] in H.
    assert (N : n = vscale q (V3 a b (-1))) by congruence. rewrite N. apply normalised_unit. exact E.
  - unfold parabola_normal in H. destruct (odiv (vx p) (2 * f)) as [a|] eqn:Ea; [|discriminate H]. cbn [obind] in H.
    destruct (odiv (vy p) (2 * f)) as [b|] eqn:Eb; [|discriminate H]. cbn [obind] in H.
    destruct (odiv 1 (sqrt _)) as [q|] eqn:Eq; [|discriminate H]. cbn [obind] in H.
    destruct (odiv 1 (2 * f)) as [q'|] eqn:Er; [|discriminate H]. cbn [obind] in H. injection H as <-.
    apply odiv_some in Ea, Eb, Eq, Er. destruct Ea as (Z & Ea & _), Eb as (_ & Eb & _), Eq as (Zs & Eq & _), Er as (_ & Er & _).
    assert (N : 0 <= a * a + b * b + 1) by nra. assert (S := sqrt_sqrt _ N).
    replace (V3 (vx p * q * q') (vy p * q * q') (- (2 * f) * q * q')) with (vscale q (V3 a b (-1))).
    + unfold is_unit. rewrite norm2_scale. unfold norm2, dot. cbn. rewrite Eq.
      replace (a * a + b * b + -1 * -1) with (a * a + b * b + 1) by ring. rewrite <- S at 3. field. exact Zs.
    + rewrite Ea, Eb, Er. apply vec_eq; cbn; field; lra.
  - unfold cylinder_normal in H. destruct (odiv (vx p) r) as [a|]; [|discriminate H]. cbn [obind] in H.
    destruct (osqrt _) as [s|] eqn:E; [|discriminate H]. cbn [obind] in H. injection H as <-.
    apply osqrt_some in E. destruct E as (_ & _ & _ & E2). unfold is_unit, norm2, dot. cbn. lra.
  - unfold torus_normal in H. destruct (odiv 1 r) as [c|]; [|discriminate H]. cbn [obind] in H.
    destruct (osqrt (1 - _)) as [g|]; [|discriminate H]. cbn [obind] in H.
    destruct (odiv (c * (vy p * vy p)) _) as [zy|]; [|discriminate H]. cbn [obind] in H.
    destruct (osqrt _) as [f|]; [|discriminate H]. cbn [obind] in H.
    destruct (odiv (vx p) f) as [a|]; [|discriminate H]. cbn [obind] in H.
    destruct (odiv (c * vy p) g) as [b|]; [|discriminate H]. cbn [obind] in H.
    destruct (odiv ((rr - zy) * b) f) as [d|]; [|discriminate H]. cbn [obind] in H.
    destruct (odiv 1 _) as [q|] eqn:E; [|discriminate H]. cbn [obind] in H.
    assert (N : n = vscale q (V3 a d (-1))) by congruence. rewrite N. apply normalised_unit. exact E.
Qed.

Lemma class_figured : forall solver c m ap t, (forall t', t = Some t' -> is_rigid t') ->
  (mat_is_mirror m = true /\ (forall r, mat_index m r = r_index r) \/
   mat_is_mirror m = false /\ (forall r, mat_index m r = 1)) ->
  figured (mkSurface (make_sag solver c None) m ap None t).
Proof.
  intros solver c m ap t T M. unfold figured. cbn [sf_sag sf_material sf_rulings].
  split.
  { unfold rigid_surface. cbn. destruct t as [t|]; [|exact I]. apply (T t eq_refl). }
  split; [reflexivity|]. split.
  { intros o u q H. apply (class_on_line solver c). destruct c; exact H. }
  split; [|exact M].
  intros x n H. apply (class_unit c x). unfold make_sag in H. cbn [sag_normal] in H. destruct c; exact H.
Qed.

(** ** Intercepts that depend on the line only *)

Lemma rsign_odd : forall e x, e = 1 \/ e = -1 -> rsign (e * x) = e * rsign x.
Proof.
  intros e x [->| ->]; unfold rsign.
  - replace (1 * x) with x by ring. ring.
  - destruct (Rlt_dec 0 (-1 * x)), (Rlt_dec 0 x), (Rlt_dec (-1 * x) 0), (Rlt_dec x 0); lra.
Qed.
Lemma square_one : forall e, e = 1 \/ e = -1 -> e * e = 1.
Proof. intros e [->| ->]; ring. Qed.
Lemma ray_moved : forall o u k e t t', e = 1 \/ e = -1 -> t' = e * (t - k) -> ray_at (vadd o (vscale k u)) (vscale e u) t' = ray_at o u t.
Proof. intros o u k e t t' [->| ->] ->; apply vec_eq; cbn; ring. Qed.

Lemma flat_determined : forall o u k e, e = 1 \/ e = -1 ->
  flat_intercept (vadd o (vscale k u)) (vscale e u) = flat_intercept o u.
Proof.
  intros o u k e E. unfold flat_intercept. cbn [vz vadd vscale].
  assert (Ne : e <> 0) by (destruct E; lra).
  destruct (Req_dec (vz u) 0) as [Z|Z].
  - rewrite Z. replace (e * 0) with 0 by ring. rewrite !odiv_0. reflexivity.
  - rewrite !odiv_nz by (try apply Rmult_integral_contrapositive_currified; assumption). cbn [obind]. f_equal.
    apply (ray_moved o u k e); [exact E|]. destruct E as [->| ->]; field; lra.
Qed.

Lemma sphere_determined : forall r o u k e, is_unit u -> e = 1 \/ e = -1 ->
  sphere_intercept r (vadd o (vscale k u)) (vscale e u) = sphere_intercept r o u.
Proof.
  intros r o u k e U E. rewrite !sphere_intercept_eq.
  assert (Eu : sph_up r (vadd o (vscale k u)) (vscale e u) = e * (sph_up r o u + k)).
  { unfold sph_up. cbn. unfold is_unit, norm2, dot in U.
    replace (e * vx u * (vx o + k * vx u) + e * vy u * (vy o + k * vy u) + e * vz u * (vz o + k * vz u - r))
      with (e * (vx u * vx o + vy u * vy o + vz u * (vz o - r) + k * (vx u * vx u + vy u * vy u + vz u * vz u))) by ring.
    rewrite U. ring. }
  assert (Er : sph_rad r (vadd o (vscale k u)) (vscale e u) = sph_rad r o u).
  { unfold sph_rad. rewrite Eu. replace (e * (sph_up r o u + k) * (e * (sph_up r o u + k))) with (e * e * ((sph_up r o u + k) * (sph_up r o u + k))) by ring.
    rewrite (square_one e E). unfold sph_up. cbn. unfold is_unit, norm2, dot in U.
    set (a := vx u * vx o + vy u * vy o + vz u * (vz o - r)).
    replace ((vx o + k * vx u) * (vx o + k * vx u) + (vy o + k * vy u) * (vy o + k * vy u) + (vz o + k * vz u - r) * (vz o + k * vz u - r) - r * r)
      with (vx o * vx o + vy o * vy o + (vz o - r) * (vz o - r) - r * r + 2 * k * a + k * k * (vx u * vx u + vy u * vy u + vz u * vz u)) by (unfold a; ring).
    rewrite U. ring. }
  rewrite Er. destruct (osqrt _) as [s|]; [|reflexivity]. cbn [obind]. f_equal.
  apply ray_moved; [exact E|]. rewrite Eu. cbn [vz vscale]. replace (r * (e * vz u)) with (e * (r * vz u)) by ring.
  rewrite rsign_odd by exact E. ring.
Qed.

Lemma cylinder_determined : forall r o u k e, e = 1 \/ e = -1 ->
  cylinder_intercept r (vadd o (vscale k u)) (vscale e u) = cylinder_intercept r o u.
Proof.
  intros r o u k e E. rewrite !cylinder_eq. assert (Ne : e <> 0) by (destruct E; lra). assert (Q := square_one e E).
  assert (Ed : cyl_disc r (vadd o (vscale k u)) (vscale e u) = cyl_disc r o u).
  { unfold cyl_disc. cbn. transitivity (e * e * ((vx u * vx u + vz u * vz u) * (r * r) - (vx o * vz u - (vz o - r) * vx u) * (vx o * vz u - (vz o - r) * vx u))); [ring|].
    rewrite Q. ring. }
  rewrite Ed. destruct (Rlt_dec 0 (cyl_disc r o u)) as [P|P].
  - assert (Ea : vx (vscale e u) * vx (vscale e u) + vz (vscale e u) * vz (vscale e u) = vx u * vx u + vz u * vz u).
    { cbn. transitivity (e * e * (vx u * vx u + vz u * vz u)); [ring|rewrite Q; ring]. }
    assert (Eb : cyl_b r (vadd o (vscale k u)) (vscale e u) = e * (cyl_b r o u + k * (vx u * vx u + vz u * vz u))).
    { unfold cyl_b. cbn. ring. }
    rewrite Ea, Eb. destruct (Req_dec (vx u * vx u + vz u * vz u) 0) as [Z|Z].
    + rewrite Z, !odiv_0. reflexivity.
    + rewrite !odiv_nz by exact Z. cbn [obind]. f_equal. apply ray_moved; [exact E|]. cbn [vz vscale].
      replace (r * (e * vz u)) with (e * (r * vz u)) by ring. rewrite rsign_odd by exact E. field. exact Z.
  - cbn [vz vadd vscale]. destruct (Req_dec (vz u) 0) as [Z|Z].
    + rewrite Z. replace (e * 0) with 0 by ring. rewrite !odiv_0. reflexivity.
    + rewrite !odiv_nz by (try apply Rmult_integral_contrapositive_currified; assumption). cbn [obind]. f_equal.
      apply (ray_moved o u k e); [exact E|]. destruct E as [->| ->]; field; lra.
Qed.

Lemma parabola_determined : forall f o u k e, e = 1 \/ e = -1 ->
  1 / 10 ^ 10 < vx u * vx u + vy u * vy u \/ vx u = 0 /\ vy u = 0 ->
  parabola_intercept f (vadd o (vscale k u)) (vscale e u) = parabola_intercept f o u.
Proof.
  intros f o u k e E L. rewrite !parabola_eq. assert (Ne : e <> 0) by (destruct E; lra). assert (Q := square_one e E).
  assert (Ea : par_a (vscale e u) = par_a u).
  { unfold par_a. cbn. transitivity (e * e * (vx u * vx u + vy u * vy u)); [ring|rewrite Q; ring]. }
  rewrite Ea. destruct (Rlt_dec (1 / 10 ^ 10) (par_a u)) as [P|P].
  - assert (Eb : par_b f (vadd o (vscale k u)) (vscale e u) = e * (par_b f o u + k * par_a u)) by (unfold par_b, par_a; cbn; ring).
    assert (Ec : par_c f (vadd o (vscale k u)) = par_c f o + 2 * k * par_b f o u + k * k * par_a u) by (unfold par_b, par_c, par_a; cbn; ring).
    assert (Ed : par_b f (vadd o (vscale k u)) (vscale e u) * par_b f (vadd o (vscale k u)) (vscale e u) - par_a u * par_c f (vadd o (vscale k u))
      = par_b f o u * par_b f o u - par_a u * par_c f o).
    { rewrite Eb, Ec. transitivity (e * e * ((par_b f o u + k * par_a u) * (par_b f o u + k * par_a u)) - par_a u * (par_c f o + 2 * k * par_b f o u + k * k * par_a u)); [ring|].
      rewrite Q. ring. }
    rewrite Ed, Eb. destruct (osqrt _) as [s|]; [|reflexivity]. cbn [obind].
    assert (Z : par_a u <> 0) by (assert (X := thr10); lra).
    rewrite !odiv_nz by exact Z. cbn [obind]. f_equal. apply ray_moved; [exact E|]. cbn [vz vscale].
    replace (f * (e * vz u)) with (e * (f * vz u)) by ring. rewrite rsign_odd by exact E. field. exact Z.
  - destruct L as [L|[L1 L2]]; [unfold par_a in P; lra|].
    cbn [vz vscale]. unfold par_c. cbn [vx vy vz vadd vscale]. rewrite L1, L2.
    destruct (Req_dec (4 * f * vz u) 0) as [Z|Z].
    + replace (4 * f * (e * vz u)) with (e * (4 * f * vz u)) by ring. rewrite Z. replace (e * 0) with 0 by ring. rewrite !odiv_0. reflexivity.
    + assert (Z' : 4 * f * (e * vz u) <> 0).
      { replace (4 * f * (e * vz u)) with (e * (4 * f * vz u)) by ring. apply Rmult_integral_contrapositive_currified; assumption. }
      rewrite !odiv_nz by assumption. cbn [obind]. f_equal. apply ray_moved; [exact E|].
      assert (f <> 0 /\ vz u <> 0) as [F Vz] by (split; intros X; apply Z; rewrite X; ring).
      destruct E as [->| ->]; field; auto.
Qed.

Lemma conic_root_moved : forall c k o u s m e, e = 1 \/ e = -1 -> s = 1 \/ s = -1 -> 1 / 10 ^ 12 <= Rabs (conic_a c k u) ->
  conic_root c k (vadd o (vscale m u)) (vscale e u) s = omap (fun t => e * (t - m)) (conic_root c k o u (e * s)).
Proof.
  intros c k o u s m e E S A. assert (Q := square_one e E).
  assert (Ea : conic_a c k (vscale e u) = conic_a c k u).
  { unfold conic_a. cbn. transitivity (e * e * (c * (vx u * vx u + vy u * vy u + (1 + k) * (vz u * vz u)))); [ring|rewrite Q; ring]. }
  assert (Eb : conic_b c k (vadd o (vscale m u)) (vscale e u) = e * (conic_b c k o u + 2 * m * conic_a c k u)) by (unfold conic_b, conic_a; cbn; ring).
  assert (Ec : conic_cc c k (vadd o (vscale m u)) = conic_cc c k o + m * conic_b c k o u + m * m * conic_a c k u) by (unfold conic_cc, conic_b, conic_a; cbn; ring).
  assert (Ed : conic_disc c k (vadd o (vscale m u)) (vscale e u) = conic_disc c k o u).
  { unfold conic_disc. rewrite Ea, Eb, Ec.
    transitivity (e * e * ((conic_b c k o u + 2 * m * conic_a c k u) * (conic_b c k o u + 2 * m * conic_a c k u))
      - 4 * conic_a c k u * (conic_cc c k o + m * conic_b c k o u + m * m * conic_a c k u)); [ring|]. rewrite Q. ring. }
  assert (Eg : conic_degenerate c k (vscale e u) = false /\ conic_degenerate c k u = false).
  { unfold conic_degenerate. rewrite Ea. destruct (Rlt_dec _ _); [lra|auto]. }
  assert (Za : 2 * conic_a c k u <> 0).
  { intros Z. assert (conic_a c k u = 0) by lra. rewrite H, Rabs_R0 in A. assert (0 < 1 / 10 ^ 12) by (apply Rdiv_lt_0_compat; [lra|apply pow_lt; lra]). lra. }
  unfold conic_root. rewrite Ea, Eb, Ed. destruct Eg as [-> ->].
  destruct (Rle_dec 0 (conic_disc c k o u)) as [P|P]; [|reflexivity]. cbn [obind]. rewrite !odiv_nz by exact Za. cbn [obind].
  set (t := (- conic_b c k o u + e * s * sqrt (conic_disc c k o u)) / (2 * conic_a c k u)).
  assert (Et : (- (e * (conic_b c k o u + 2 * m * conic_a c k u)) + s * sqrt (conic_disc c k o u)) / (2 * conic_a c k u) = e * (t - m)).
  { unfold t. transitivity ((- (e * (conic_b c k o u + 2 * m * conic_a c k u)) + e * e * (s * sqrt (conic_disc c k o u))) / (2 * conic_a c k u)); [rewrite Q; field; lra|field; lra]. }
  rewrite Et, (ray_moved o u m e t _ E eq_refl). destruct (Rle_dec _ _); reflexivity.
Qed.

Lemma conic_determined : forall r k o u m e, e = 1 \/ e = -1 -> 1 / 10 ^ 12 <= Rabs (conic_a (1 / r) k u) ->
  conic_root (1 / r) k o u (-1) = None \/ conic_root (1 / r) k o u 1 = None ->
  conic_intercept r k (vadd o (vscale m u)) (vscale e u) = conic_intercept r k o u.
Proof.
  intros r k o u m e E A N. unfold conic_intercept. destruct (Req_dec r 0) as [Z|Z]; [rewrite Z, odiv_0; reflexivity|].
  rewrite odiv_nz by exact Z. cbn [obind]. set (c := 1 / r) in *. unfold conic_t.
  rewrite !(conic_root_moved c k o u _ m e) by (auto; lra).
  assert (R : forall t, ray_at (vadd o (vscale m u)) (vscale e u) (e * (t - m)) = ray_at o u t) by (intros t; apply ray_moved; [exact E|reflexivity]).
  destruct E as [->| ->].
  - replace (1 * -1) with (-1) by ring. replace (1 * 1) with 1 by ring.
    destruct (conic_root c k o u (-1)) as [a|], (conic_root c k o u 1) as [b|]; cbn [omap obind]; try rewrite R; try reflexivity.
    destruct N; discriminate.
  - replace (-1 * -1) with 1 by ring. replace (-1 * 1) with (-1) by ring.
    destruct (conic_root c k o u (-1)) as [a|], (conic_root c k o u 1) as [b|]; cbn [omap obind]; try rewrite R; try reflexivity.
    destruct N; discriminate.
Qed.

Lemma class_determined : forall solver c m ap t o u, (forall t', t = Some t' -> is_rigid t') -> is_unit u ->
  let s := mkSurface (make_sag solver c None) m ap None t in
  line_regular c (local_point s o) (local_vector s u) -> determined s o u.
Proof.
  intros solver c m ap t o u T U s L k e E.
  assert (Us : is_unit (local_vector s u)).
  { apply local_vector_unit; [|exact U]. unfold rigid_surface, s. cbn. destruct t as [t|]; [|exact I]. apply (T t eq_refl). }
  set (o' := local_point s o) in *. set (u' := local_vector s u) in *. unfold s. cbn [sf_sag].
  destruct c as [|r|r k'|f|r|r rr]; cbn [line_regular] in L; unfold make_sag, sag_intercept_t; cbn [sag_intercept class_intercept].
  - apply flat_determined; exact E.
  - apply sphere_determined; assumption.
  - apply conic_determined; tauto.
  - apply parabola_determined; assumption.
  - apply cylinder_determined; assumption.
  - destruct L.
Qed.

(** A point of a spherical mirror, seen from the side of the centre of curvature, is struck by
    every line through it that does not leave the ball there downwards. *)
Lemma sphere_struck : forall r q u, is_unit u -> vx q * vx q + vy q * vy q + (vz q - r) * (vz q - r) = r * r ->
  r * vz u * (vx u * vx q + vy u * vy q + vz u * (vz q - r)) < 0 ->
  sphere_intercept r q u = Some q.
Proof.
  intros r q u U O N. rewrite sphere_intercept_eq. unfold sph_rad. rewrite O. fold (sph_up r q u) in N.
  set (a := sph_up r q u) in *. replace (a * a - (r * r - r * r)) with (a * a) by ring.
  unfold osqrt. destruct (Rle_dec 0 (a * a)) as [P|P]; [|nra]. cbn [obind]. f_equal.
  fold (Rsqr a). rewrite sqrt_Rsqr_abs.
  assert (X : - a - rsign (r * vz u) * Rabs a = 0).
  { destruct (Rlt_dec 0 (r * vz u)) as [B|B].
    - rewrite (rsign_pos _ B), Rabs_left by nra. ring.
    - assert (r * vz u < 0).
      { destruct (Rtotal_order (r * vz u) 0) as [Q|[Q|Q]]; [exact Q|rewrite Q in N; lra|contradiction]. }
      rewrite (rsign_neg _ H), Rabs_right by nra. ring. }
  rewrite X. apply vec_eq; cbn; ring.
Qed.
