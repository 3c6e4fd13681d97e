(** C05: normals. *)
From Coq Require Import Reals Lra Psatz.
From Coquelicot Require Import Coquelicot.
From Verif Require Import Vec VecLemmas Num NumLemmas RayModel SnellProofs SagModel SagSpec.
Open Scope R_scope.

Lemma sq_pos x : x <> 0 -> 0 < x * x.
Proof. intros; destruct (Rdichotomy _ _ H); nra. Qed.

(** Conic profile as a function of s = x^2 + y^2, with c the curvature and
    q = (1+k) c^2. *)
Definition profile (c q s : R) : R := c * s / (1 + sqrt (1 - q * s)).

Lemma conic_z_profile r k x y : r <> 0 -> 0 <= 1 - (1 + k) * (1 / r * (1 / r)) * (x * x + y * y) ->
  conic_z r k x y = Some (profile (1 / r) ((1 + k) * (1 / r * (1 / r))) (x * x + y * y)).
Proof.
  intros Hr Hs. unfold conic_z. rewrite odiv_nz by auto. cbn [obind].
  rewrite osqrt_nonneg by auto. cbn [obind].
  rewrite odiv_nz. reflexivity.
  assert (H := sqrt_pos (1 - (1 + k) * (1 / r * (1 / r)) * (x * x + y * y))). lra.
Qed.

Lemma locally_pos (f : R -> R) x : continuous f x -> 0 < f x -> locally x (fun t => 0 < f t).
Proof.
  intros Hc Hx. apply Hc. exists (mkposreal _ Hx). intros y Hy.
  unfold ball in Hy; simpl in Hy; unfold AbsRing_ball, abs, minus, plus, opp in Hy; simpl in Hy.
  apply Rabs_lt_between in Hy. lra.
Qed.

Lemma is_derive_eq (f : R -> R) x (d d' : R) : is_derive f x d -> d = d' -> is_derive f x d'.
Proof. intros H <-; exact H. Qed.

Lemma derive_profile c q (s : R -> R) x ds : 0 < 1 - q * s x -> is_derive s x ds ->
  is_derive (fun t => profile c q (s t)) x (c * ds / (2 * sqrt (1 - q * s x))).
Proof.
  intros Hpos Hs. unfold profile.
  assert (Hg := sqrt_lt_R0 _ Hpos). set (g := sqrt (1 - q * s x)) in *.
  assert (Hgg : g * g = 1 - q * s x) by (unfold g; apply sqrt_def; lra).
  assert (D : is_derive (fun w => c * w / (1 + sqrt (1 - q * w))) (s x)
               (c / (2 * g))).
  { auto_derive; replace (1 + - (q * s x)) with (1 - q * s x) by ring; fold g.
    - split; [exact Hpos|]. split; [lra|auto].
    - assert (Hq : q * s x = 1 - g * g) by lra.
      transitivity (c / (1 + g) * (1 + q * s x / (2 * g * (1 + g)))); [field; lra|].
      rewrite Hq. field; lra. }
  eapply is_derive_eq; [apply (is_derive_comp (fun w => c * w / (1 + sqrt (1 - q * w))) s); eauto|].
  unfold scal; simpl; unfold mult; simpl. field. lra.
Qed.

Lemma value_ext (f : R -> option R) (g : R -> R) x d :
  locally x (fun t => f t = Some (g t)) -> is_derive g x d ->
  is_derive (fun t => value (f t)) x d.
Proof.
  intros Hl Hd. apply (is_derive_ext_loc g); auto.
  revert Hl. apply filter_imp. intros t ->. reflexivity.
Qed.
Lemma defined_ext (f : R -> option R) (g : R -> R) x :
  locally x (fun t => f t = Some (g t)) -> locally x (fun t => f t <> None).
Proof. intros H. refine (filter_imp _ _ _ H). intros t ->. discriminate. Qed.

Lemma slopes_intro (f : R -> R -> option R) (g : R -> R -> R) x y zx zy :
  locally x (fun t => f t y = Some (g t y)) -> locally y (fun t => f x t = Some (g x t)) ->
  is_derive (fun t => g t y) x zx -> is_derive (fun t => g x t) y zy ->
  has_slopes f x y zx zy.
Proof.
  intros Hx Hy Dx Dy. unfold has_slopes. split; [|split; [|split]].
  - apply (defined_ext _ _ _ Hx).
  - apply (value_ext _ _ _ _ Hx Dx).
  - apply (defined_ext _ _ _ Hy).
  - apply (value_ext _ _ _ _ Hy Dy).
Qed.

(** A locally positive radicand. *)
Lemma radicand_locally q x y : 0 < 1 - q * (x * x + y * y) ->
  locally x (fun t => 0 < 1 - q * (t * t + y * y)) /\
  locally y (fun t => 0 < 1 - q * (x * x + t * t)).
Proof.
  intros H. split.
  - apply (locally_pos (fun t => 1 - q * (t * t + y * y))); auto.
    apply (ex_derive_continuous (fun t => 1 - q * (t * t + y * y))).
    auto_derive; auto.
  - apply (locally_pos (fun t => 1 - q * (x * x + t * t))); auto.
    apply (ex_derive_continuous (fun t => 1 - q * (x * x + t * t))).
    auto_derive; auto.
Qed.

Lemma conic_interior r k x y : r <> 0 -> (1 + k) * (x * x + y * y) < r * r ->
  0 < 1 - (1 + k) * (1 / r * (1 / r)) * (x * x + y * y).
Proof.
  intros Hr H. assert (Hr2 := sq_pos r Hr).
  apply (Rmult_lt_reg_r (r * r)); auto. rewrite Rmult_0_l.
  replace ((1 - (1 + k) * (1 / r * (1 / r)) * (x * x + y * y)) * (r * r))
    with (r * r - (1 + k) * (x * x + y * y)) by (field; auto). lra.
Qed.

Lemma conic_slopes r k x y : r <> 0 -> (1 + k) * (x * x + y * y) < r * r ->
  let g := sqrt (1 - (1 + k) * (1 / r * (1 / r)) * (x * x + y * y)) in
  has_slopes (conic_z r k) x y (1 / r * x / g) (1 / r * y / g).
Proof.
  intros Hr H g. assert (Hp := conic_interior r k x y Hr H).
  assert (Hg : 0 < g) by (apply sqrt_lt_R0; auto).
  destruct (radicand_locally _ _ _ Hp) as [Lx Ly].
  apply (slopes_intro _ (fun x y => profile (1 / r) ((1 + k) * (1 / r * (1 / r))) (x * x + y * y))).
  - revert Lx; apply filter_imp. intros t Ht. apply conic_z_profile; auto; lra.
  - revert Ly; apply filter_imp. intros t Ht. apply conic_z_profile; auto; lra.
  - eapply is_derive_eq; [apply (derive_profile (1 / r) ((1 + k) * (1 / r * (1 / r))) (fun t => t * t + y * y) x (2 * x)); auto; auto_derive; auto; ring|].
    fold g. field. split; [exact Hr|lra].
  - eapply is_derive_eq; [apply (derive_profile (1 / r) ((1 + k) * (1 / r * (1 / r))) (fun t => x * x + t * t) y (2 * y)); auto; auto_derive; auto; ring|].
    fold g. field. split; [exact Hr|lra].
Qed.

(** Normalising (zx, zy, -1). *)
Lemma normalise_slopes zx zy :
  exists q, odiv 1 (vlen (V3 zx zy (-1))) = Some q /\
    norm2 (vscale q (V3 zx zy (-1))) = 1 /\ vz (vscale q (V3 zx zy (-1))) < 0 /\
    dot (vscale q (V3 zx zy (-1))) (V3 1 0 zx) = 0 /\
    dot (vscale q (V3 zx zy (-1))) (V3 0 1 zy) = 0.
Proof.
  set (L := vlen (V3 zx zy (-1))).
  assert (Hn : norm2 (V3 zx zy (-1)) = zx * zx + zy * zy + 1) by (vec_unfold; ring).
  assert (Hpos : 0 < norm2 (V3 zx zy (-1))) by (rewrite Hn; nra).
  assert (HL : 0 < L) by (apply sqrt_lt_R0; auto).
  assert (HLL : L * L = zx * zx + zy * zy + 1) by (unfold L, vlen; rewrite sqrt_def by lra; auto).
  exists (1 / L). rewrite odiv_nz by lra. split; auto.
  rewrite norm2_scale, Hn, <- HLL. repeat split.
  - field; lra.
  - unfold vscale; simpl. apply Rmult_lt_reg_r with L; auto. field_simplify; lra.
  - unfold dot, vscale; simpl. ring.
  - unfold dot, vscale; simpl. ring.
Qed.

Lemma conic_normal_ok r k p : interior (ConicSag r k) (vx p) (vy p) ->
  exists u, conic_normal r k p = Some u /\ is_graph_normal (conic_z r k) (vx p) (vy p) u.
Proof.
  intros [Hr H]. assert (Hp := conic_interior r k _ _ Hr H).
  assert (Hs := conic_slopes r k _ _ Hr H). cbv zeta in Hs.
  unfold conic_normal. rewrite odiv_nz by auto. cbn [obind].
  rewrite osqrt_nonneg by lra. cbn [obind].
  set (g := sqrt _) in *.
  assert (Hg : 0 < g) by (apply sqrt_lt_R0; auto).
  rewrite !odiv_nz by lra. cbn [obind].
  destruct (normalise_slopes (1 / r * vx p / g) (1 / r * vy p / g)) as (q & Hq & H1 & H2 & H3 & H4).
  rewrite Hq; cbn [obind]. eexists; split; [reflexivity|].
  split; [exact H1|split; [exact H2|]]. eauto.
Qed.

Lemma sphere_z_conic r x y : sphere_z r x y = conic_z r 0 x y.
Proof.
  unfold sphere_z, conic_z. destruct (odiv 1 r) as [c|]; cbn [obind]; auto.
  replace (1 - (1 + 0) * (c * c) * (x * x + y * y)) with (1 - c * c * (x * x + y * y)) by ring.
  reflexivity.
Qed.

Lemma sphere_interior r x y : interior (SphericalSag r) x y -> interior (ConicSag r 0) x y.
Proof. simpl; intros [H1 H2]; split; auto; lra. Qed.

(** In the interior the two normals coincide. *)
Lemma sphere_normal_conic r p : interior (SphericalSag r) (vx p) (vy p) ->
  sphere_normal r p = conic_normal r 0 p.
Proof.
  destruct p as [x y z]. intros H. assert (Hi := sphere_interior _ _ _ H).
  destruct Hi as [Hr Hi]. cbn [vx vy vz] in *.
  assert (Hp := conic_interior r 0 _ _ Hr Hi).
  unfold sphere_normal, conic_normal. cbn [vx vy vz]. rewrite odiv_nz by auto. cbn [obind].
  set (c := 1 / r) in *.
  replace (1 - c * x * (c * x) - c * y * (c * y))
    with (1 - (1 + 0) * (c * c) * (x * x + y * y)) by ring.
  rewrite osqrt_nonneg by lra. cbn [obind].
  set (g := sqrt _) in *.
  assert (Hg : 0 < g) by (apply sqrt_lt_R0; auto).
  assert (Hgg : g * g = 1 - (1 + 0) * (c * c) * (x * x + y * y))
    by (apply sqrt_def; lra).
  rewrite !odiv_nz by lra. cbn [obind].
  assert (HL : vlen (V3 (c * x / g) (c * y / g) (-1)) = 1 / g).
  { unfold vlen. replace (norm2 (V3 (c * x / g) (c * y / g) (-1))) with ((1 / g) * (1 / g)).
    - apply sqrt_square. apply Rlt_le, Rdiv_lt_0_compat; lra.
    - vec_unfold.
      assert (E1 : 1 = g * g + c * x * (c * x) + c * y * (c * y)) by lra.
      transitivity ((g * g + c * x * (c * x) + c * y * (c * y)) / (g * g)).
      + rewrite <- E1. field; lra.
      + field; lra. }
  rewrite HL. rewrite odiv_nz by (apply Rgt_not_eq, Rdiv_lt_0_compat; lra). cbn [obind].
  f_equal. apply vec_eq; vec_unfold; field; lra.
Qed.

Lemma graph_normal_ext (f g : R -> R -> option R) x y u :
  (forall x y, f x y = g x y) -> is_graph_normal g x y u -> is_graph_normal f x y u.
Proof.
  intros E (H1 & H2 & zx & zy & Hs & H3 & H4). split; [auto|split; [auto|]].
  exists zx, zy. split; auto. destruct Hs as (A & B & C & D). split; [|split; [|split]].
  - revert A; apply filter_imp; intros; rewrite E; auto.
  - revert B; apply is_derive_ext; intros; rewrite E; auto.
  - revert C; apply filter_imp; intros; rewrite E; auto.
  - revert D; apply is_derive_ext; intros; rewrite E; auto.
Qed.

Lemma sphere_normal_ok r p : interior (SphericalSag r) (vx p) (vy p) ->
  exists u, sphere_normal r p = Some u /\ is_graph_normal (sphere_z r) (vx p) (vy p) u.
Proof.
  intros H. rewrite sphere_normal_conic by auto.
  destruct (conic_normal_ok r 0 p (sphere_interior _ _ _ H)) as (u & Hu & Hn).
  exists u; split; auto. revert Hn; apply graph_normal_ext. intros; apply sphere_z_conic.
Qed.

Lemma parabola_interior f x y : f <> 0 -> interior (ConicSag (2 * f) (-1)) x y.
Proof.
  simpl; intros; split; [lra|]. assert (H2 := sq_pos f H).
  replace ((1 + -1) * (x * x + y * y)) with 0 by ring. lra.
Qed.

Lemma parabola_normal_conic f p : f <> 0 -> parabola_normal f p = conic_normal (2 * f) (-1) p.
Proof.
  destruct p as [x y z]. intros Hf. unfold parabola_normal, conic_normal. cbn [vx vy vz].
  assert (Hf2 : 2 * f <> 0) by lra.
  assert (Hsq : osqrt (1 - (1 + -1) * (1 / (2 * f) * (1 / (2 * f))) * (x * x + y * y)) = Some 1).
  { replace (1 - (1 + -1) * (1 / (2 * f) * (1 / (2 * f))) * (x * x + y * y))
      with (1 * 1) by ring. apply osqrt_sq; lra. }
  rewrite (odiv_nz x (2 * f)), (odiv_nz y (2 * f)), (odiv_nz 1 (2 * f)) by auto. cbn [obind].
  rewrite Hsq. cbn [obind]. rewrite (odiv_nz (1 / (2 * f) * x) 1) by lra. cbn [obind].
  rewrite (odiv_nz (1 / (2 * f) * y) 1) by lra. cbn [obind].
  set (a := x / (2 * f)). set (b := y / (2 * f)).
  assert (Hpos : 0 < a * a + b * b + 1) by nra.
  assert (Hs := sqrt_lt_R0 _ Hpos).
  assert (HL : vlen (V3 (1 / (2 * f) * x / 1) (1 / (2 * f) * y / 1) (-1))
               = sqrt (a * a + b * b + 1)).
  { unfold vlen. f_equal. vec_unfold. unfold a, b. field; auto. }
  rewrite HL. rewrite (odiv_nz 1 (sqrt _)) by lra. cbn [obind].
  f_equal. clearbody a b. set (w := sqrt _) in *. clearbody w.
  assert (Hw : w <> 0) by lra. apply vec_eq; cbn [vx vy vz vscale]; field; repeat split; assumption.
Qed.

Lemma parabola_normal_ok f p : f <> 0 ->
  exists u, parabola_normal f p = Some u /\ is_graph_normal (parabola_z f) (vx p) (vy p) u.
Proof.
  intros Hf. rewrite parabola_normal_conic by auto.
  apply conic_normal_ok. apply parabola_interior; auto.
Qed.

Lemma flat_normal_ok p : is_graph_normal flat_z (vx p) (vy p) (V3 0 0 (-1)).
Proof.
  split; [vec_unfold; ring|]. split; [simpl; lra|].
  exists 0, 0. split; [|split; vec_unfold; ring].
  apply (slopes_intro _ (fun _ _ => 0)); try (apply filter_forall; reflexivity);
    auto_derive; auto.
Qed.

(** Cylinder: the profile in one variable. *)
Lemma cylinder_interior r x : r <> 0 -> x * x < r * r -> 0 < 1 - 1 / r * (1 / r) * (x * x).
Proof.
  intros Hr H. assert (Hr2 := sq_pos r Hr).
  apply (Rmult_lt_reg_r (r * r)); auto. rewrite Rmult_0_l.
  replace ((1 - 1 / r * (1 / r) * (x * x)) * (r * r)) with (r * r - x * x) by (field; auto). lra.
Qed.

Lemma cylinder_z_profile r x y : r <> 0 -> 0 <= 1 - 1 / r * (1 / r) * (x * x) ->
  cylinder_z r x y = Some (profile (1 / r) (1 / r * (1 / r)) (x * x)).
Proof.
  intros Hr Hs. unfold cylinder_z. rewrite odiv_nz by auto. cbn [obind].
  rewrite osqrt_nonneg by auto. cbn [obind]. rewrite odiv_nz. reflexivity.
  assert (H := sqrt_pos (1 - 1 / r * (1 / r) * (x * x))). lra.
Qed.

Lemma cyl_locally q x : 0 < 1 - q * (x * x) -> locally x (fun t => 0 < 1 - q * (t * t)).
Proof.
  intros H. apply (locally_pos (fun t => 1 - q * (t * t))); auto.
  apply (ex_derive_continuous (fun t => 1 - q * (t * t))). auto_derive; auto.
Qed.

Lemma cylinder_normal_ok r p : interior (CylindricalSag r) (vx p) (vy p) ->
  exists u, cylinder_normal r p = Some u /\ is_graph_normal (cylinder_z r) (vx p) (vy p) u.
Proof.
  destruct p as [x y z]. intros [Hr H]. cbn [vx vy vz] in *. assert (Hp := cylinder_interior r _ Hr H).
  unfold cylinder_normal. cbn [vx vy vz]. rewrite odiv_nz by auto. cbn [obind].
  replace (1 - x / r * (x / r)) with (1 - 1 / r * (1 / r) * (x * x)) by (field; auto).
  rewrite osqrt_nonneg by lra. cbn [obind]. eexists; split; [reflexivity|].
  set (g := sqrt _) in *.
  assert (Hg : 0 < g) by (apply sqrt_lt_R0; auto).
  assert (Hgg : g * g = 1 - 1 / r * (1 / r) * (x * x)) by (apply sqrt_def; lra).
  split; [|split; [simpl; lra|]].
  - vec_unfold. replace (- g * - g) with (g * g) by ring. rewrite Hgg. field; auto.
  - exists (1 / r * x / g), 0. split; [|assert (Hg0 : g <> 0) by lra; clearbody g; split; cbv [dot vx vy vz]; field; auto].
    apply (slopes_intro _ (fun x y => profile (1 / r) (1 / r * (1 / r)) (x * x))).
    + generalize (cyl_locally _ _ Hp); apply filter_imp. intros t Ht.
      apply cylinder_z_profile; auto; lra.
    + apply filter_forall; intros; apply cylinder_z_profile; auto; lra.
    + eapply is_derive_eq; [apply (derive_profile (1 / r) (1 / r * (1 / r)) (fun t => t * t) (x) (2 * x)); auto; auto_derive; auto; ring|].
      fold g. field; (split; [exact Hr|lra]).
    + auto_derive; auto.
Qed.

(** Toroid. *)
Lemma derive_rsub (f : R -> R) x d K : is_derive f x d -> is_derive (fun t => K - f t) x (- d).
Proof.
  intros H. eapply is_derive_eq.
  - apply (is_derive_minus (fun _ => K) f x zero d); [apply is_derive_const|exact H].
  - unfold minus, plus, opp, zero; simpl. ring.
Qed.
Lemma derive_sq_sub (f : R -> R) x d K : is_derive f x d ->
  is_derive (fun t => f t * f t - K) x (2 * f x * d).
Proof.
  intros H. assert (H2 : is_derive (fun t => f t * f t) x (d * f x + f x * d)).
  { apply (is_derive_mult f f x d d H H). intros; apply Rmult_comm. }
  eapply is_derive_eq.
  - apply (is_derive_minus (fun t => f t * f t) (fun _ => K) x _ zero H2). apply is_derive_const.
  - unfold minus, plus, opp, zero; simpl. ring.
Qed.

Lemma sqrt_scaled r y : r <> 0 -> y * y < r * r ->
  sqrt (1 - 1 / r * (1 / r) * (y * y)) = rsign r / r * sqrt (r * r - y * y).
Proof.
  intros Hr H. assert (Hr2 := sq_pos r Hr).
  assert (Hpos : 0 <= rsign r / r).
  { unfold rsign. destruct (Rlt_dec 0 r).
    - apply Rlt_le, Rdiv_lt_0_compat; lra.
    - destruct (Rlt_dec r 0); [|lra].
      replace (-1 / r) with (1 / (- r)) by (field; auto).
      apply Rlt_le, Rdiv_lt_0_compat; lra. }
  rewrite <- (sqrt_square (rsign r / r)) by auto.
  rewrite <- sqrt_mult by nra. f_equal.
  assert (E := rsign_sq r Hr).
  replace (rsign r / r * (rsign r / r)) with (rsign r * rsign r * (1 / r * (1 / r))) by (field; auto).
  rewrite E. field; auto.
Qed.

Lemma arc_profile r y : r <> 0 -> y * y < r * r ->
  profile (1 / r) (1 / r * (1 / r)) (y * y) = arc r y.
Proof.
  intros Hr H. unfold profile, arc. assert (Hp := cylinder_interior r y Hr H).
  assert (Hg : 0 < sqrt (1 - 1 / r * (1 / r) * (y * y))) by (apply sqrt_lt_R0; auto).
  assert (Hgg : sqrt (1 - 1 / r * (1 / r) * (y * y)) * sqrt (1 - 1 / r * (1 / r) * (y * y))
                = 1 - 1 / r * (1 / r) * (y * y)) by (apply sqrt_def; lra).
  assert (E := sqrt_scaled r y Hr H). assert (Es := rsign_sq r Hr).
  set (g := sqrt (1 - 1 / r * (1 / r) * (y * y))) in *.
  set (w := sqrt (r * r - y * y)) in *.
  assert (Ew : rsign r * w = r * g).
  { rewrite E. field_simplify; auto. }
  rewrite Ew.
  assert (Ey : y * y = (1 - g * g) * (r * r)).
  { rewrite Hgg. field; auto. }
  rewrite Ey. field. split; auto; lra.
Qed.

Lemma torus_z_some r R' x y : r <> 0 -> y * y < r * r ->
  x * x < (R' - arc r y) * (R' - arc r y) ->
  torus_z r R' x y = Some (R' - sqrt ((R' - profile (1 / r) (1 / r * (1 / r)) (y * y))
      * (R' - profile (1 / r) (1 / r * (1 / r)) (y * y)) - x * x)).
Proof.
  intros Hr Hy Hx. assert (Hp := cylinder_interior r y Hr Hy).
  unfold torus_z. rewrite odiv_nz by auto. cbn [obind].
  rewrite osqrt_nonneg by lra. cbn [obind].
  assert (Hg := sqrt_pos (1 - 1 / r * (1 / r) * (y * y))).
  rewrite odiv_nz by lra. cbn [obind].
  fold (profile (1 / r) (1 / r * (1 / r)) (y * y)).
  rewrite arc_profile by auto.
  rewrite osqrt_nonneg by lra. reflexivity.
Qed.

Lemma torus_normal_ok r R' p : interior (ToroidalSag r R') (vx p) (vy p) ->
  exists u, torus_normal r R' p = Some u /\ is_graph_normal (torus_z r R') (vx p) (vy p) u.
Proof.
  intros (Hr & Hy & Hx). destruct p as [x y z]; cbn [vx vy] in *.
  assert (Hp := cylinder_interior r y Hr Hy).
  set (c := 1 / r) in *. set (q := c * c) in *.
  set (zy := profile c q (y * y)).
  assert (Ezy : zy = arc r y) by (apply arc_profile; auto).
  set (F := (R' - zy) * (R' - zy) - x * x).
  assert (HF : 0 < F) by (unfold F; rewrite Ezy; lra).
  assert (Hg : 0 < sqrt (1 - q * (y * y))) by (apply sqrt_lt_R0; auto).
  assert (Hf : 0 < sqrt F) by (apply sqrt_lt_R0; auto).
  unfold torus_normal. cbn [vx vy]. rewrite odiv_nz by auto. cbn [obind].
  fold c q. rewrite osqrt_nonneg by lra. cbn [obind].
  rewrite odiv_nz by lra. cbn [obind]. fold (profile c q (y * y)). fold zy.
  fold F. rewrite osqrt_nonneg by lra. cbn [obind].
  rewrite !odiv_nz by lra. cbn [obind]. rewrite !odiv_nz by lra. cbn [obind].
  set (g := sqrt (1 - q * (y * y))) in *. set (f := sqrt F) in *.
  destruct (normalise_slopes (x / f) ((R' - zy) * (c * y / g) / f)) as (k & Hk & H1 & H2 & H3 & H4).
  rewrite Hk; cbn [obind]. eexists; split; [reflexivity|].
  split; [exact H1|split; [exact H2|]]. eexists; eexists; split; [|split; eauto].
  (* slopes *)
  assert (Dzy : is_derive (fun t => profile c q (t * t)) y (c * y / g)).
  { eapply is_derive_eq; [apply (derive_profile c q (fun t => t * t) y (2 * y)); auto; auto_derive; auto; ring|].
    fold g. field; lra. }
  apply (slopes_intro _ (fun x y => R' - sqrt ((R' - profile c q (y * y))
            * (R' - profile c q (y * y)) - x * x))).
  - assert (L : locally x (fun t => 0 < (R' - zy) * (R' - zy) - t * t)).
    { apply (locally_pos (fun t => (R' - zy) * (R' - zy) - t * t)); auto.
      apply (ex_derive_continuous (fun t => (R' - zy) * (R' - zy) - t * t)). auto_derive; auto. }
    revert L; apply filter_imp. intros t Ht. unfold q, c. apply torus_z_some; auto.
    rewrite Ezy in Ht; lra.
  - assert (L1 : locally y (fun t => 0 < 1 - q * (t * t))) by (apply cyl_locally; auto).
    assert (L2 : locally y (fun t => 0 < (R' - profile c q (t * t)) * (R' - profile c q (t * t)) - x * x)).
    { apply (locally_pos (fun t => (R' - profile c q (t * t)) * (R' - profile c q (t * t)) - x * x)); auto.
      apply (ex_derive_continuous
        (fun t => (R' - profile c q (t * t)) * (R' - profile c q (t * t)) - x * x)).
      eexists. apply (derive_sq_sub (fun t => R' - profile c q (t * t))).
      apply derive_rsub. exact Dzy. }
    generalize (filter_and _ _ L1 L2); apply filter_imp. intros t [Ht1 Ht2].
    assert (Hyt : t * t < r * r).
    { unfold q, c in Ht1. assert (Hr2 := sq_pos r Hr).
      apply Rmult_lt_compat_r with (r := r * r) in Ht1; auto.
      replace ((1 - 1 / r * (1 / r) * (t * t)) * (r * r)) with (r * r - t * t) in Ht1 by (field; auto).
      lra. }
    unfold q, c. apply torus_z_some; auto.
    unfold q, c in Ht2. rewrite arc_profile in Ht2 by auto. lra.
  - fold zy. auto_derive.
    + unfold F in HF. lra.
    + replace ((R' - zy) * (R' - zy) + - (x * x)) with F by (unfold F; ring). fold f. field. lra.
  - assert (D2 := derive_sq_sub _ _ _ (x * x) (derive_rsub _ _ _ R' Dzy)). cbv beta in D2. fold zy in D2.
    assert (D3 : is_derive sqrt F (/ (2 * f))) by (auto_derive; [exact HF|unfold f; ring]).
    eapply is_derive_eq.
    + apply derive_rsub.
      apply (is_derive_comp sqrt (fun t => (R' - profile c q (t * t)) * (R' - profile c q (t * t)) - x * x)).
      * fold zy. fold F. exact D3.
      * exact D2.
    + unfold scal, mult; simpl; unfold mult; simpl. field. split; lra.
Qed.

Lemma class_normal_ok s p : interior s (vx p) (vy p) ->
  exists u, class_normal s p = Some u /\ is_graph_normal (class_z s) (vx p) (vy p) u.
Proof.
  destruct s; intros H.
  - exists (V3 0 0 (-1)); split; auto. apply flat_normal_ok.
  - apply sphere_normal_ok; auto.
  - apply conic_normal_ok; auto.
  - apply parabola_normal_ok; auto.
  - apply cylinder_normal_ok; auto.
  - apply torus_normal_ok; auto.
Qed.
