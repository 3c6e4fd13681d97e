(** C06-C09: intercepts. *)
From Coq Require Import Reals Lra Psatz.
From Coquelicot Require Import Coquelicot.
From Verif Require Import Vec VecLemmas Num NumLemmas RayModel SnellProofs SagModel SagSpec SagNormalProofs.
Open Scope R_scope.

Ltac nz := repeat match goal with |- _ * _ <> 0 => apply Rmult_integral_contrapositive_currified end;
  try assumption; try lra.
Ltac vcb := cbn [vx vy vz vadd vscale vsub ray_at] in *.

(** * Every intercept is on the line *)
Lemma class_on_line solver s o u q : class_intercept solver s o u = Some q -> on_line o u q.
Proof.
  unfold on_line. destruct s; cbn [class_intercept].
  - unfold flat_intercept. destruct (odiv _ _) as [d|]; cbn [obind]; intro E; inversion E; eauto.
  - unfold sphere_intercept. destruct (osqrt _) as [d|]; cbn [obind]; intro E; inversion E; eauto.
  - unfold conic_intercept. destruct (odiv _ _) as [d|]; cbn [obind]; [|discriminate].
    destruct (conic_t _ _ _ _); cbn [obind]; intro E; inversion E. unfold ray_at; eauto.
  - unfold parabola_intercept. match goal with |- obind ?x _ = _ -> _ => destruct x end;
      cbn [obind]; intro E; inversion E; eauto.
  - unfold cylinder_intercept. match goal with |- obind ?x _ = _ -> _ => destruct x end;
      cbn [obind]; intro E; inversion E; eauto.
  - destruct (solver o u); cbn [omap]; intro E; inversion E. unfold ray_at; eauto.
Qed.

(** * Conic *)
Definition quad (c k : R) (q : vec3) : R :=
  c * (vx q * vx q + vy q * vy q + (1 + k) * (vz q * vz q)) - 2 * vz q.

Lemma quad_line c k o u t : quad c k (ray_at o u t)
  = conic_a c k u * t * t + conic_b c k o u * t + conic_cc c k o.
Proof. unfold quad, conic_a, conic_b, conic_cc; destruct o, u; vcb; ring. Qed.

Lemma quad_on r k q : r <> 0 -> (quad (1 / r) k q = 0 <-> on_quadric (ConicSag r k) q).
Proof.
  intros Hr. unfold quad, on_quadric. split; intros H.
  - apply Rmult_eq_reg_l with (1 / r); [|apply Rgt_not_eq_inv || idtac].
    + replace (1 / r * (2 * r * vz q)) with (2 * vz q) by (field; auto). lra.
    + unfold Rdiv; rewrite Rmult_1_l; apply Rinv_neq_0_compat; auto.
  - rewrite H. field; auto.
Qed.

(** The vertex sheet. *)
Lemma sheet_graph r k q : r <> 0 ->
  (on_graph (conic_z r k) q <->
   quad (1 / r) k q = 0 /\ 0 <= vz q * (1 / r * (vx q * vx q + vy q * vy q) - vz q)).
Proof.
  intros Hr. destruct q as [x y z]. unfold on_graph, quad, conic_z. vcb.
  rewrite odiv_nz by auto. cbn [obind]. set (c := 1 / r). set (s := x * x + y * y).
  split.
  - destruct (osqrt _) as [g|] eqn:Eg; cbn [obind]; [|discriminate].
    apply osqrt_some in Eg as (Hnn & _ & Hg & Hgg).
    rewrite odiv_nz by lra. intros E; inversion E as [Ez]. rewrite Ez.
    assert (E1 : c * s = z * (1 + g)) by (rewrite <- Ez; field; lra).
    assert (E2 : (1 + k) * c * z = 1 - g).
    { assert ((1 + k) * c * (c * s) = (1 - g) * (1 + g)) by nra.
      rewrite E1 in H. apply Rmult_eq_reg_r with (1 + g); lra. }
    split.
    + replace (c * (s + (1 + k) * (z * z)) - 2 * z) with (c * s + ((1 + k) * c * z) * z - 2 * z) by ring.
      rewrite E1, E2. ring.
    + rewrite E1. replace (z * (z * (1 + g) - z)) with (g * (z * z)) by ring. apply Rmult_le_pos; auto. nra.
  - intros [Hq Hs].
    assert (E1 : c * s = 2 * z - (1 + k) * c * z * z) by lra.
    set (g := 1 - (1 + k) * c * z).
    assert (Hg : 0 <= g).
    { rewrite E1 in Hs. replace (z * (2 * z - (1 + k) * c * z * z - z)) with (z * z * g) in Hs by (unfold g; ring).
      destruct (Req_dec z 0) as [->|Hz]; [unfold g; lra|].
      assert (Hz2 := sq_pos z Hz). apply Rmult_le_reg_l with (z * z); auto. lra. }
    assert (E2 : 1 - (1 + k) * (c * c) * s = g * g).
    { replace ((1 + k) * (c * c) * s) with ((1 + k) * c * (c * s)) by ring. rewrite E1. unfold g; ring. }
    rewrite E2, osqrt_sq by auto. cbn [obind]. rewrite odiv_nz by lra. f_equal.
    apply Rmult_eq_reg_r with (1 + g); [|lra]. unfold Rdiv. rewrite Rmult_assoc, Rinv_l, Rmult_1_r by lra.
    rewrite E1. unfold g; ring.
Qed.

Lemma root_some c k o u sg t : conic_root c k o u sg = Some t ->
  0 <= conic_disc c k o u /\
  (if conic_degenerate c k u then odiv (- conic_cc c k o) (conic_b c k o u)
   else odiv (- conic_b c k o u + sg * sqrt (conic_disc c k o u)) (2 * conic_a c k u)) = Some t /\
  0 <= vz (ray_at o u t) * (c * (vx (ray_at o u t) * vx (ray_at o u t) + vy (ray_at o u t) * vy (ray_at o u t))
                            - vz (ray_at o u t)).
Proof.
  unfold conic_root. destruct (Rle_dec 0 (conic_disc c k o u)) as [Hd|]; cbn [obind]; [|discriminate].
  match goal with |- obind ?x _ = _ -> _ => destruct x as [t'|] end; cbn [obind]; [|discriminate].
  match goal with |- (if ?x then _ else _) = _ -> _ => destruct x end; [|discriminate].
  intro E; inversion E; subst t'. auto.
Qed.

Lemma root_intro c k o u sg t :
  0 <= conic_disc c k o u ->
  (if conic_degenerate c k u then odiv (- conic_cc c k o) (conic_b c k o u)
   else odiv (- conic_b c k o u + sg * sqrt (conic_disc c k o u)) (2 * conic_a c k u)) = Some t ->
  0 <= vz (ray_at o u t) * (c * (vx (ray_at o u t) * vx (ray_at o u t) + vy (ray_at o u t) * vy (ray_at o u t))
                            - vz (ray_at o u t)) ->
  conic_root c k o u sg = Some t.
Proof.
  intros Hd E Hs. unfold conic_root. destruct (Rle_dec 0 (conic_disc c k o u)); [cbn [obind]|lra].
  rewrite E. cbn [obind]. match goal with |- (if ?x then _ else _) = _ => destruct x end; auto; lra.
Qed.

Definition good (c k : R) (o u : vec3) (t : R) : Prop :=
  quad c k (ray_at o u t) = 0 /\
  0 <= vz (ray_at o u t) * (c * (vx (ray_at o u t) * vx (ray_at o u t) + vy (ray_at o u t) * vy (ray_at o u t))
                            - vz (ray_at o u t)).

Lemma degenerate_true c k u : Rabs (conic_a c k u) < 1 / 10 ^ 12 -> conic_degenerate c k u = true.
Proof. intros; unfold conic_degenerate; destruct (Rlt_dec _ _); auto; lra. Qed.
Lemma degenerate_false c k u : 1 / 10 ^ 12 <= Rabs (conic_a c k u) -> conic_degenerate c k u = false.
Proof. intros; unfold conic_degenerate; destruct (Rlt_dec _ _); auto; lra. Qed.

(** A good root is found by one of the two signs, and conversely. *)
Lemma roots_quadratic c k o u : 1 / 10 ^ 12 <= Rabs (conic_a c k u) ->
  forall t, good c k o u t <-> conic_root c k o u (-1) = Some t \/ conic_root c k o u 1 = Some t.
Proof.
  intros Ha t. assert (Ha0 : conic_a c k u <> 0).
  { intros E; rewrite E, Rabs_R0 in Ha. assert (0 < 1 / 10 ^ 12) by (apply Rdiv_lt_0_compat; [lra|apply pow_lt; lra]). lra. }
  assert (Hdeg := degenerate_false _ _ _ Ha).
  set (a := conic_a c k u) in *. set (b := conic_b c k o u). set (cc := conic_cc c k o).
  assert (Hdisc : conic_disc c k o u = b * b - 4 * a * cc) by reflexivity.
  split.
  - intros [Hq Hs]. rewrite quad_line in Hq. fold a b cc in Hq.
    assert (Hd : conic_disc c k o u = (2 * a * t + b) * (2 * a * t + b)).
    { rewrite Hdisc. assert (cc = - (a * t * t + b * t)) by lra. rewrite H. ring. }
    assert (Hd0 : 0 <= conic_disc c k o u) by (rewrite Hd; apply Rle_0_sqr).
    destruct (Rle_dec 0 (2 * a * t + b)) as [H|H].
    + right. apply root_intro; auto. rewrite Hdeg, Hd, sqrt_square by auto.
      fold a b. rewrite odiv_nz by nz. f_equal. field; auto.
    + left. apply root_intro; auto. rewrite Hdeg, Hd.
      replace ((2 * a * t + b) * (2 * a * t + b)) with ((- (2 * a * t + b)) * (- (2 * a * t + b))) by ring.
      rewrite sqrt_square by lra. fold a b. rewrite odiv_nz by nz. f_equal. field; auto.
  - intros H.
    assert (exists sg, sg * sg = 1 /\ conic_root c k o u sg = Some t) as (sg & Hsg & E).
    { destruct H as [H|H]; [exists (-1)|exists 1]; split; auto; ring. }
    apply root_some in E as (Hd & E & Hs). split; auto.
    rewrite Hdeg in E. apply odiv_some in E as (_ & _ & E).
    rewrite quad_line. fold a b cc; fold a b in E.
    assert (Hss := sqrt_def _ Hd). set (w := sqrt _) in *.
    apply Rmult_eq_reg_l with (4 * a); [|nz].
    replace (4 * a * (a * t * t + b * t + cc))
      with ((t * (2 * a) + b) * (t * (2 * a) + b) - (b * b - 4 * a * cc)) by ring.
    rewrite E, <- Hdisc, <- Hss. replace (- b + sg * w + b) with (sg * w) by ring.
    replace (sg * w * (sg * w)) with (sg * sg * (w * w)) by ring. rewrite Hsg. ring.
Qed.

Lemma no_line c k o u : c <> 0 -> is_unit u -> conic_a c k u = 0 -> conic_b c k o u = 0 ->
  conic_cc c k o <> 0.
Proof.
  intros Hc Hu Ha Hb Hcc. destruct o as [ox oy oz], u as [ux uy uz].
  unfold conic_a, conic_b, conic_cc, is_unit, norm2, dot in *. vcb.
  assert (Hz : uz <> 0).
  { intros ->. apply Rmult_integral in Ha as [|Ha]; [auto|]. nra. }
  (* the point of the line at z = 0 *)
  set (t := - oz / uz). set (x := ox + t * ux). set (y := oy + t * uy).
  assert (Et : t * uz = - oz) by (unfold t; field; auto).
  assert (Hq : c * (x * x + y * y) = 0).
  { assert (c * (x * x + y * y) =
      c * (ox * ox + oy * oy + (1 + k) * (oz * oz)) - 2 * oz
      + (2 * (c * (ox * ux + oy * uy + (1 + k) * oz * uz) - uz)) * t
      + (c * (ux * ux + uy * uy + (1 + k) * (uz * uz))) * (t * t)).
    { unfold x, y.
      assert (oz = - (t * uz)) by lra. rewrite H. ring. }
    rewrite H, Hcc, Hb, Ha. ring. }
  apply Rmult_integral in Hq as [|Hq]; [auto|].
  assert (Hx : x = 0) by nra. assert (Hy : y = 0) by nra.
  assert (Hb' : 2 * (c * (x * ux + y * uy) - uz) =
     2 * (c * (ox * ux + oy * uy + (1 + k) * oz * uz) - uz)
     + 2 * t * (c * (ux * ux + uy * uy + (1 + k) * (uz * uz)))).
  { unfold x, y. assert (oz = - (t * uz)) by lra. rewrite H. ring. }
  rewrite Hb, Ha, Hx, Hy in Hb'. lra.
Qed.

Lemma roots_linear c k o u : c <> 0 -> is_unit u -> conic_a c k u = 0 ->
  forall t, good c k o u t <-> conic_root c k o u (-1) = Some t \/ conic_root c k o u 1 = Some t.
Proof.
  intros Hc Hu Ha t.
  assert (Hdeg : conic_degenerate c k u = true).
  { apply degenerate_true. rewrite Ha, Rabs_R0. apply Rdiv_lt_0_compat; [lra|apply pow_lt; lra]. }
  assert (Hd : 0 <= conic_disc c k o u) by (unfold conic_disc; rewrite Ha; nra).
  split.
  - intros [Hq Hs]. right. apply root_intro; auto. rewrite Hdeg.
    rewrite quad_line, Ha in Hq.
    assert (Hb : conic_b c k o u <> 0).
    { intros Hb. apply (no_line c k o u Hc Hu Ha Hb). rewrite Hb in Hq. lra. }
    rewrite odiv_nz by auto. f_equal. apply Rmult_eq_reg_r with (conic_b c k o u); auto.
    unfold Rdiv. rewrite Rmult_assoc, Rinv_l by auto. lra.
  - intros H. assert (exists sg, conic_root c k o u sg = Some t) as (sg & E) by (destruct H; eauto).
    apply root_some in E as (_ & E & Hs). split; auto. rewrite Hdeg in E.
    apply odiv_some in E as (_ & _ & E). rewrite quad_line, Ha. lra.
Qed.

Lemma conic_t_cases c k o u t : conic_t c k o u = Some t ->
  (conic_root c k o u (-1) = Some t \/ conic_root c k o u 1 = Some t) /\
  (forall t', conic_root c k o u (-1) = Some t' \/ conic_root c k o u 1 = Some t' -> Rabs t <= Rabs t').
Proof.
  unfold conic_t.
  destruct (conic_root c k o u (-1)) as [ta|], (conic_root c k o u 1) as [tb|].
  - destruct (Rle_dec (Rabs ta) (Rabs tb)); intro E; inversion E; subst; split; auto;
      intros t' [H|H]; inversion H; subst; lra.
  - intro E; inversion E; subst; split; auto. intros t' [H|H]; inversion H; subst; lra.
  - intro E; inversion E; subst; split; auto. intros t' [H|H]; inversion H; subst; lra.
  - discriminate.
Qed.
Lemma conic_t_none c k o u : conic_t c k o u = None ->
  conic_root c k o u (-1) = None /\ conic_root c k o u 1 = None.
Proof.
  unfold conic_t.
  destruct (conic_root c k o u (-1)) as [ta|], (conic_root c k o u 1) as [tb|]; try discriminate; auto.
  destruct (Rle_dec _ _); discriminate.
Qed.

Lemma roots_regular r k o u : regular (ConicSag r k) o u ->
  forall t, good (1 / r) k o u t <->
    conic_root (1 / r) k o u (-1) = Some t \/ conic_root (1 / r) k o u 1 = Some t.
Proof.
  intros (Hr & Hu & [Ha|Ha]).
  - apply roots_linear; auto. unfold Rdiv; rewrite Rmult_1_l; apply Rinv_neq_0_compat; auto.
  - apply roots_quadratic; auto.
Qed.

Lemma good_graph r k o u t : r <> 0 -> (good (1 / r) k o u t <-> on_graph (conic_z r k) (ray_at o u t)).
Proof. intros; unfold good; symmetry; apply sheet_graph; auto. Qed.

Lemma conic_intercept_some r k o u q : conic_intercept r k o u = Some q ->
  r <> 0 /\ exists t, conic_t (1 / r) k o u = Some t /\ q = ray_at o u t.
Proof.
  unfold conic_intercept. destruct (odiv 1 r) as [c|] eqn:E; cbn [obind]; [|discriminate].
  apply odiv_some in E as (Hr & -> & _). destruct (conic_t _ _ _ _) as [t|]; cbn [obind]; intro H; inversion H; eauto.
Qed.

Lemma conic_on_graph r k o u q : regular (ConicSag r k) o u ->
  conic_intercept r k o u = Some q -> on_graph (conic_z r k) q.
Proof.
  intros Hreg H. apply conic_intercept_some in H as (Hr & t & Ht & ->).
  apply good_graph; auto. apply roots_regular; auto. apply conic_t_cases in Ht; tauto.
Qed.

Lemma graph_quadric r k q : r <> 0 -> on_graph (conic_z r k) q -> on_quadric (ConicSag r k) q.
Proof. intros Hr H. apply quad_on; auto. apply sheet_graph in H; tauto. Qed.

Lemma norm2_ray o u t : is_unit u -> norm2 (vsub (ray_at o u t) o) = t * t.
Proof.
  unfold is_unit. intros H. replace (vsub (ray_at o u t) o) with (vscale t u) by (unfold ray_at; vec_ring).
  rewrite norm2_scale, H. ring.
Qed.

Lemma Rabs_sq_le a b : Rabs a <= Rabs b -> a * a <= b * b.
Proof. intros H. apply Rsqr_le_abs_1 in H. exact H. Qed.

Lemma conic_nearest r k o u q q' : regular (ConicSag r k) o u ->
  conic_intercept r k o u = Some q -> on_line o u q' -> on_graph (conic_z r k) q' ->
  norm2 (vsub q o) <= norm2 (vsub q' o).
Proof.
  intros Hreg H [t' Hl] Hg. assert (Hreg' := Hreg). destruct Hreg' as (_ & Hu & _).
  apply conic_intercept_some in H as (Hr & t & Ht & ->).
  apply conic_t_cases in Ht as [_ Hmin]. fold (ray_at o u t') in Hl. subst q'.
  rewrite !norm2_ray by auto. apply Rabs_sq_le. apply Hmin.
  apply roots_regular; auto. apply good_graph; auto.
Qed.

Lemma conic_complete r k o u q' : regular (ConicSag r k) o u ->
  on_line o u q' -> on_graph (conic_z r k) q' -> exists q, conic_intercept r k o u = Some q.
Proof.
  intros Hreg [t' Hl] Hg. assert (Hr := proj1 Hreg).
  fold (ray_at o u t') in Hl. subst q'.
  apply good_graph in Hg; auto. apply roots_regular in Hg; auto.
  unfold conic_intercept. rewrite odiv_nz by auto. cbn [obind].
  destruct (conic_t _ _ _ _) eqn:E; cbn [obind]; eauto.
  apply conic_t_none in E as [E1 E2]. destruct Hg; congruence.
Qed.

Lemma conic_iff r k o u q : regular (ConicSag r k) o u ->
  (forall q', on_line o u q' -> on_graph (conic_z r k) q' -> q' = q) ->
  on_line o u q -> on_graph (conic_z r k) q -> conic_intercept r k o u = Some q.
Proof.
  intros Hreg Huniq Hl Hg. destruct (conic_complete _ _ _ _ _ Hreg Hl Hg) as [q1 H1].
  rewrite H1. f_equal. apply Huniq.
  - apply (class_on_line (fun _ _ => None) (ConicSag r k)); auto.
  - eapply conic_on_graph; eauto.
Qed.

(** * Sphere *)
Lemma sphere_graph r q : r <> 0 ->
  (on_graph (sphere_z r) q <-> on_quadric (SphericalSag r) q /\ r * (vz q - r) <= 0).
Proof.
  intros Hr. unfold on_graph. rewrite sphere_z_conic.
  change (conic_z r 0 (vx q) (vy q) = Some (vz q)) with (on_graph (conic_z r 0) q).
  rewrite (sheet_graph r 0 q Hr). rewrite quad_on by auto. unfold on_quadric.
  destruct q as [x y z]; vcb. set (s := x * x + y * y).
  assert (Hr2 := sq_pos r Hr).
  assert (E0 : s + (1 + 0) * (z * z) = 2 * r * z <-> s + (z - r) * (z - r) = r * r) by (split; intros; lra).
  rewrite E0. split; intros [Hq Hs]; split; auto.
  - assert (Es : s = 2 * r * z - z * z) by lra.
    replace (z * (1 / r * s - z)) with (z * z * (r * (r - z)) * / (r * r)) in Hs
      by (rewrite Es; field; auto).
    destruct (Req_dec z 0) as [->|Hz]; [lra|]. assert (Hz2 := sq_pos z Hz).
    assert (Hi := Rinv_0_lt_compat _ Hr2).
    assert (0 <= z * z * (r * (r - z))).
    { apply Rmult_le_reg_r with (/ (r * r)); auto. lra. }
    assert (0 <= r * (r - z)) by (apply Rmult_le_reg_l with (z * z); lra). lra.
  - assert (Es : s = 2 * r * z - z * z) by lra.
    replace (z * (1 / r * s - z)) with (z * z * (r * (r - z)) * / (r * r))
      by (rewrite Es; field; auto).
    assert (Hi := Rinv_0_lt_compat _ Hr2).
    apply Rmult_le_pos; [|lra]. apply Rmult_le_pos; [nra|lra].
Qed.

(** up and the radicand *)
Definition sph_up (r : R) (o u : vec3) := vx u * vx o + vy u * vy o + vz u * (vz o - r).
Definition sph_rad (r : R) (o u : vec3) :=
  sph_up r o u * sph_up r o u - (vx o * vx o + vy o * vy o + (vz o - r) * (vz o - r) - r * r).

Lemma sphere_line r o u t : is_unit u ->
  (on_quadric (SphericalSag r) (ray_at o u t) <->
   (t + sph_up r o u) * (t + sph_up r o u) = sph_rad r o u).
Proof.
  intros Hu. destruct o as [ox oy oz], u as [ux uy uz].
  unfold sph_rad, sph_up, on_quadric, is_unit, norm2, dot in *. vcb.
  set (up := ux * ox + uy * oy + uz * (oz - r)).
  assert (E : (ox + t * ux) * (ox + t * ux) + (oy + t * uy) * (oy + t * uy)
     + (oz + t * uz - r) * (oz + t * uz - r)
     = t * t * (ux * ux + uy * uy + uz * uz) + 2 * t * up + (ox * ox + oy * oy + (oz - r) * (oz - r)))
    by (unfold up; ring).
  rewrite E, Hu. split; intros; lra.
Qed.

Lemma sphere_intercept_eq r o u : sphere_intercept r o u =
  obind (osqrt (sph_rad r o u))
    (fun s => Some (ray_at o u (- sph_up r o u - rsign (r * vz u) * s))).
Proof. reflexivity. Qed.

Lemma sphere_on_quadric r o u q : regular (SphericalSag r) o u ->
  sphere_intercept r o u = Some q -> on_quadric (SphericalSag r) q.
Proof.
  intros (Hr & Hu & Hz). rewrite sphere_intercept_eq.
  destruct (osqrt _) as [s|] eqn:Es; cbn [obind]; intro E; inversion E; subst.
  apply osqrt_some in Es as (_ & _ & _ & Es). apply sphere_line; auto.
  rewrite <- Es. replace (- sph_up r o u - rsign (r * vz u) * s + sph_up r o u)
    with (- (rsign (r * vz u) * s)) by ring.
  replace (- (rsign (r * vz u) * s) * - (rsign (r * vz u) * s))
    with (rsign (r * vz u) * rsign (r * vz u) * (s * s)) by ring.
  rewrite rsign_sq; [ring|]. apply Rmult_integral_contrapositive; auto.
Qed.

(** The returned intersection is the one with the least r (z - r). *)
Lemma sphere_least r o u q' : regular (SphericalSag r) o u ->
  on_line o u q' -> on_quadric (SphericalSag r) q' ->
  exists q, sphere_intercept r o u = Some q /\ r * (vz q - r) <= r * (vz q' - r).
Proof.
  intros (Hr & Hu & Hz) [t Hl] Hq. fold (ray_at o u t) in Hl. subst q'.
  apply sphere_line in Hq; auto.
  rewrite sphere_intercept_eq.
  assert (Hrad : 0 <= sph_rad r o u) by (rewrite <- Hq; apply Rle_0_sqr).
  rewrite osqrt_nonneg by auto. cbn [obind]. eexists; split; [reflexivity|].
  assert (Hs := sqrt_pos (sph_rad r o u)). assert (Hss := sqrt_def _ Hrad).
  set (s := sqrt _) in *. set (up := sph_up r o u) in *.
  assert (Hrz : r * vz u <> 0) by (apply Rmult_integral_contrapositive; auto).
  unfold ray_at; cbn [vz vadd vscale].
  assert (Ht : Rabs (t + up) <= s).
  { apply Rsqr_incr_0_var; auto. unfold Rsqr. rewrite <- Rabs_mult, Rabs_right by (apply Rle_ge, Rle_0_sqr). lra. }
  assert (Hm : - (r * vz u) * (t + up) <= Rabs (r * vz u) * s).
  { eapply Rle_trans; [apply Rle_abs|]. rewrite Rabs_mult, Rabs_Ropp.
    apply Rmult_le_compat_l; auto. apply Rabs_pos. }
  rewrite <- rsign_abs in Hm. nra.
Qed.

Lemma sphere_hemisphere r o u q' : regular (SphericalSag r) o u ->
  on_line o u q' -> on_graph (sphere_z r) q' ->
  exists q, sphere_intercept r o u = Some q /\ on_line o u q /\ on_graph (sphere_z r) q.
Proof.
  intros Hreg Hl Hg. assert (Hr := proj1 Hreg). apply sphere_graph in Hg as [Hq Hh]; auto.
  destruct (sphere_least r o u q' Hreg Hl Hq) as (q & Hi & Hle).
  exists q. split; auto. split.
  - apply (class_on_line (fun _ _ => None) (SphericalSag r)); auto.
  - apply sphere_graph; auto. split; [|lra]. eapply sphere_on_quadric; eauto.
Qed.

Lemma sphere_unique r o u q : regular (SphericalSag r) o u ->
  on_line o u q -> on_graph (sphere_z r) q ->
  (forall q', on_line o u q' -> on_graph (sphere_z r) q' -> q' = q) ->
  sphere_intercept r o u = Some q.
Proof.
  intros Hreg Hl Hg Huniq. destruct (sphere_hemisphere r o u q Hreg Hl Hg) as (q1 & H1 & H2 & H3).
  rewrite H1. f_equal. auto.
Qed.

(** * Parabola *)
Definition par_a (u : vec3) := vx u * vx u + vy u * vy u.
Definition par_b (f : R) (o u : vec3) := vx o * vx u + vy o * vy u - 2 * f * vz u.
Definition par_c (f : R) (o : vec3) := vx o * vx o + vy o * vy o - 4 * f * vz o.

Lemma parabola_line f o u t :
  (on_quadric (ParabolicSag f) (ray_at o u t) <->
   par_a u * t * t + 2 * par_b f o u * t + par_c f o = 0).
Proof.
  destruct o as [ox oy oz], u as [ux uy uz]. unfold par_a, par_b, par_c, on_quadric. vcb.
  split; intros; lra.
Qed.

Lemma parabola_eq f o u : parabola_intercept f o u =
  obind (if Rlt_dec (1 / 10 ^ 10) (par_a u) then
      obind (osqrt (par_b f o u * par_b f o u - par_a u * par_c f o))
        (fun s => odiv (- par_b f o u - rsign (f * vz u) * s) (par_a u))
    else odiv (par_c f o) (4 * f * vz u)) (fun d => Some (ray_at o u d)).
Proof.
  unfold parabola_intercept, ray_at. cbv zeta. unfold par_a at 1. destruct (Rlt_dec _ _); [|reflexivity].
  match goal with |- obind (obind (osqrt ?x) _) _ = obind (obind (osqrt ?y) _) _ =>
    replace x with y by (unfold par_a, par_b, par_c; ring) end.
  destruct (osqrt _) as [s|]; cbn [obind]; [|reflexivity].
  replace (- vx o * vx u - vy o * vy u + 2 * f * vz u - rsign (f * vz u) * s)
    with (- par_b f o u - rsign (f * vz u) * s) by (unfold par_b; ring).
  reflexivity.
Qed.

Lemma thr10 : 0 < 1 / 10 ^ 10.
Proof. apply Rdiv_lt_0_compat; [lra|apply pow_lt; lra]. Qed.

Lemma parabola_on_quadric f o u q : regular (ParabolicSag f) o u ->
  parabola_intercept f o u = Some q -> on_quadric (ParabolicSag f) q.
Proof.
  intros (Hf & Hz & Hu). rewrite parabola_eq.
  assert (H10 := thr10).
  assert (Hrz : f * vz u <> 0) by (apply Rmult_integral_contrapositive; auto).
  destruct (Rlt_dec _ _) as [Ha|Ha].
  - destruct (osqrt _) as [s|] eqn:Es; cbn [obind]; [|discriminate].
    apply osqrt_some in Es as (_ & _ & _ & Es).
    destruct (odiv _ _) as [d|] eqn:Ed; cbn [obind]; intro E; inversion E; subst.
    apply odiv_some in Ed as (Ha0 & _ & Ed).
    apply parabola_line. set (a := par_a u) in *. set (b := par_b f o u) in *. set (cc := par_c f o) in *.
    apply Rmult_eq_reg_l with a; auto.
    replace (a * (a * d * d + 2 * b * d + cc)) with ((d * a + b) * (d * a + b) - (b * b - a * cc)) by ring.
    rewrite Ed, <- Es. replace (- b - rsign (f * vz u) * s + b) with (- (rsign (f * vz u) * s)) by ring.
    replace (- (rsign (f * vz u) * s) * - (rsign (f * vz u) * s))
      with (rsign (f * vz u) * rsign (f * vz u) * (s * s)) by ring.
    rewrite rsign_sq by auto. ring.
  - destruct Hu as [[Hx Hy]|Hu]; [|unfold par_a in Ha; lra].
    destruct (odiv _ _) as [d|] eqn:Ed; cbn [obind]; intro E; inversion E; subst.
    apply odiv_some in Ed as (_ & _ & Ed).
    apply parabola_line. unfold par_a, par_b, par_c in *. rewrite Hx, Hy. lra.
Qed.

(** Completeness and choice: any intersection makes the result finite, and the
    returned one has the least f z (the one on the side of the vertex). *)
Lemma parabola_least f o u q' : regular (ParabolicSag f) o u ->
  on_line o u q' -> on_quadric (ParabolicSag f) q' ->
  exists q, parabola_intercept f o u = Some q /\ f * vz q <= f * vz q'.
Proof.
  intros (Hf & Hz & Hu) [t Hl] Hq. fold (ray_at o u t) in Hl. subst q'.
  apply parabola_line in Hq. rewrite parabola_eq. assert (H10 := thr10).
  assert (Hrz : f * vz u <> 0) by (apply Rmult_integral_contrapositive; auto).
  destruct (Rlt_dec _ _) as [Ha|Ha].
  - set (a := par_a u) in *. set (b := par_b f o u) in *. set (cc := par_c f o) in *.
    assert (Hrad : (a * t + b) * (a * t + b) = b * b - a * cc).
    { replace (a * cc) with (- (a * (a * t * t + 2 * b * t))).
      - ring.
      - replace (a * t * t + 2 * b * t) with (- cc) by lra. ring. }
    rewrite osqrt_nonneg by (rewrite <- Hrad; apply Rle_0_sqr). cbn [obind].
    rewrite odiv_nz by lra. cbn [obind]. eexists; split; [reflexivity|].
    rewrite <- Hrad. set (w := a * t + b) in *.
    replace (w * w) with (Rsqr w) by reflexivity. rewrite sqrt_Rsqr_abs.
    unfold ray_at; cbn [vz vadd vscale].
    assert (Et : t = (w - b) / a) by (unfold w; field; lra). rewrite Et.
    assert (Hm : - (f * vz u) * w <= Rabs (f * vz u) * Rabs w).
    { eapply Rle_trans; [apply Rle_abs|]. rewrite Rabs_mult, Rabs_Ropp. lra. }
    rewrite <- rsign_abs in Hm.
    assert (Hia : 0 < / a) by (apply Rinv_0_lt_compat; lra).
    assert (f * vz u * (- b - rsign (f * vz u) * Rabs w) * / a <= f * vz u * (w - b) * / a).
    { apply Rmult_le_compat_r; lra. }
    unfold Rdiv. lra.
  - destruct Hu as [[Hx Hy]|Hu]; [|unfold par_a in Ha; lra].
    rewrite odiv_nz.
    + cbn [obind]. eexists; split; [reflexivity|].
      unfold par_a, par_b, par_c in *. rewrite Hx, Hy in Hq.
      unfold ray_at; cbn [vz vadd vscale].
      replace ((vx o * vx o + vy o * vy o - 4 * f * vz o) / (4 * f * vz u)) with t; [lra|].
      apply Rmult_eq_reg_r with (4 * f * vz u); [|nz].
      replace ((vx o * vx o + vy o * vy o - 4 * f * vz o) / (4 * f * vz u) * (4 * f * vz u))
        with (vx o * vx o + vy o * vy o - 4 * f * vz o) by (field; auto). lra.
    + nz.
Qed.

Lemma parabola_graph f q : f <> 0 -> (on_quadric (ParabolicSag f) q <-> on_graph (parabola_z f) q).
Proof.
  intros Hf. unfold parabola_z. rewrite sheet_graph by lra. destruct q as [x y z].
  unfold on_quadric, quad. vcb. set (s := x * x + y * y).
  split.
  - intros H. rewrite H. split; [field; auto|].
    replace (z * (1 / (2 * f) * (4 * f * z) - z)) with (z * z) by (field; auto). nra.
  - intros [H _]. replace (s + (1 + -1) * (z * z)) with s in H by ring.
    assert (E : s = 2 * f * (1 / (2 * f) * s)) by (field; auto). rewrite E. replace (1 / (2 * f) * s) with (2 * z) by lra. ring.
Qed.

(** * Cylinder *)
Definition cyl_b (r : R) (o n : vec3) := vx o * vx n + (vz o - r) * vz n.
Definition cyl_disc (r : R) (o n : vec3) :=
  (vx n * vx n + vz n * vz n) * (r * r)
  - (vx o * vz n - (vz o - r) * vx n) * (vx o * vz n - (vz o - r) * vx n).

Lemma cylinder_eq r o n : cylinder_intercept r o n =
  obind (if Rlt_dec 0 (cyl_disc r o n)
         then odiv (- cyl_b r o n - rsign (r * vz n) * sqrt (cyl_disc r o n)) (vx n * vx n + vz n * vz n)
         else odiv (- vz o) (vz n)) (fun d => Some (ray_at o n d)).
Proof.
  destruct o as [ox oy oz], n as [nx ny nz].
  unfold cylinder_intercept, ray_at, cyl_b. cbv zeta. vcb.
  match goal with |- obind (if Rlt_dec 0 ?x then _ else _) _ = _ =>
    replace x with (cyl_disc r (V3 ox oy oz) (V3 nx ny nz))
      by (unfold cyl_disc, dot, cross; vcb; ring) end.
  destruct (Rlt_dec _ _); [|reflexivity].
  match goal with |- obind (odiv ?x ?y) _ = obind (odiv ?x' ?y') _ =>
    replace x with x' by (unfold dot, cross; vcb; ring);
    replace y with y' by (unfold dot, cross; vcb; ring) end.
  reflexivity.
Qed.

Lemma cylinder_line r o n t :
  (on_quadric (CylindricalSag r) (ray_at o n t) <->
   (vx n * vx n + vz n * vz n) * t * t + 2 * cyl_b r o n * t
    + (vx o * vx o + (vz o - r) * (vz o - r) - r * r) = 0).
Proof.
  destruct o as [ox oy oz], n as [nx ny nz]. unfold cyl_b, on_quadric. vcb. split; intros; lra.
Qed.
Lemma cyl_disc_eq r o n : cyl_disc r o n = cyl_b r o n * cyl_b r o n
  - (vx n * vx n + vz n * vz n) * (vx o * vx o + (vz o - r) * (vz o - r) - r * r).
Proof. unfold cyl_disc, cyl_b; ring. Qed.

Lemma cylinder_on_quadric r o u q : regular (CylindricalSag r) o u ->
  cylinder_intercept r o u = Some q -> on_quadric (CylindricalSag r) q.
Proof.
  intros (Hr & Hz & Hd). rewrite cylinder_eq.
  assert (Hrz : r * vz u <> 0) by (apply Rmult_integral_contrapositive; auto).
  assert (Hd' : 0 < cyl_disc r o u) by (unfold cyl_disc; lra).
  destruct (Rlt_dec _ _); [|lra].
  destruct (odiv _ _) as [d|] eqn:Ed; cbn [obind]; intro E; inversion E; subst.
  apply odiv_some in Ed as (Ha & _ & Ed). apply cylinder_line.
  assert (Hss := sqrt_def _ (Rlt_le _ _ Hd')). set (s := sqrt _) in *.
  rewrite cyl_disc_eq in Hss. set (b := cyl_b r o u) in *.
  set (a := vx u * vx u + vz u * vz u) in *. set (cc := vx o * vx o + _ - _) in *.
  apply Rmult_eq_reg_l with a; auto.
  replace (a * (a * d * d + 2 * b * d + cc)) with ((d * a + b) * (d * a + b) - (b * b - a * cc)) by ring.
  rewrite Ed, <- Hss. replace (- b - rsign (r * vz u) * s + b) with (- (rsign (r * vz u) * s)) by ring.
  replace (- (rsign (r * vz u) * s) * - (rsign (r * vz u) * s))
    with (rsign (r * vz u) * rsign (r * vz u) * (s * s)) by ring.
  rewrite rsign_sq by auto. ring.
Qed.

Lemma flat_on_quadric o u q : flat_intercept o u = Some q -> on_quadric NoSag q.
Proof.
  unfold flat_intercept. destruct (odiv _ _) as [d|] eqn:E; cbn [obind]; intro H; inversion H.
  apply odiv_some in E as (_ & _ & E). simpl. lra.
Qed.

Lemma class_on_quadric solver s o u q : regular s o u ->
  class_intercept solver s o u = Some q -> on_line o u q /\ on_quadric s q.
Proof.
  intros Hr H. split; [eapply class_on_line; eauto|]. destruct s; cbn [class_intercept] in H.
  - eapply flat_on_quadric; eauto.
  - eapply sphere_on_quadric; eauto.
  - apply graph_quadric; [exact (proj1 Hr)|]. eapply conic_on_graph; eauto.
  - eapply parabola_on_quadric; eauto.
  - eapply cylinder_on_quadric; eauto.
  - destruct Hr.
Qed.
