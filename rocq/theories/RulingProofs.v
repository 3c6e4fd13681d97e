(** Grating equation, holographic rulings, spacings. *)
From Coq Require Import Reals Lra Psatz List Bool ZArith Lia.
From Verif Require Import Vec VecLemmas Num NumLemmas RayModel SurfaceModel SnellModel SnellSpec SnellProofs
  MaterialModel RulingModel RulingSpec.
Import ListNotations.
Open Scope R_scope.

Ltac tv := unfold tangential; cbv [vadd vsub vopp vscale dot cross norm2 vzero vx vy vz].

Lemma normalized_some v u : normalized v = Some u -> is_unit u /\ exists k, 0 < k /\ u = vscale k v /\ v = vscale (vlen v) u.
Proof.
  unfold normalized, obind. destruct (odiv 1 (vlen v)) as [q|] eqn:E; [|discriminate].
  intro H. injection H as <-. apply odiv_some in E. destruct E as (Hn & Hq & _).
  assert (Hl : 0 <= vlen v) by apply sqrt_pos.
  assert (Hs : vlen v * vlen v = norm2 v) by (apply sqrt_sqrt; unfold norm2, dot; nra).
  assert (Hq1 : q * vlen v = 1) by (rewrite Hq; field; auto).
  split; [|exists q; split; [|split]]; auto.
  - unfold is_unit. replace (norm2 (vscale q v)) with (q * q * norm2 v) by (tv; ring).
    rewrite <- Hs. replace (q * q * (vlen v * vlen v)) with ((q * vlen v) * (q * vlen v)) by ring. rewrite Hq1. ring.
  - rewrite Hq. unfold Rdiv. rewrite Rmult_1_l. apply Rinv_0_lt_compat. lra.
  - destruct v as [a b c]. apply vec_eq; cbn; rewrite <- Rmult_assoc, (Rmult_comm (vlen _) q), Hq1; ring.
Qed.
Lemma normalized_nz v : vlen v <> 0 -> normalized v = Some (vscale (1 / vlen v) v).
Proof. intros H. unfold normalized. rewrite odiv_nz by auto. reflexivity. Qed.

Lemma tangential_add u a b : tangential u (vadd a b) = vadd (tangential u a) (tangential u b).
Proof. destruct u, a, b. apply vec_eq; tv; ring. Qed.
Lemma tangential_scale u k a : tangential u (vscale k a) = vscale k (tangential u a).
Proof. destruct u, a. apply vec_eq; tv; ring. Qed.

(** ** The grating equation *)
Lemma grating_equation w a n1 n2 u m d g mirror e b : 0 < n1 -> 0 < n2 -> is_unit u -> d <> 0 ->
  incident_effective w a n1 u m d g = Some e -> snells_law e n1 n2 mirror u = Some b ->
  vscale n2 (tangential u b) =
  vadd (vscale n1 (tangential u a)) (vscale (rsign (dot a u) * m * w / d) (tangential u g)).
Proof.
  intros H1 H2 Hu Hd He Hb. unfold incident_effective, obind in He.
  rewrite odiv_nz in He by (apply Rmult_integral_contrapositive; split; lra). injection He as <-.
  destruct (snells_law_full _ _ _ _ _ _ H1 H2 Hu Hb) as [E _]. rewrite E.
  rewrite tangential_add, tangential_scale.
  set (ta := tangential u a). set (tg := tangential u g). clearbody ta tg.
  destruct ta, tg. apply vec_eq; cbn; field; lra.
Qed.

Lemma order_zero g r normal x u kappa d : rul_order g = 0 -> r_position r = Some x ->
  normal = Some u -> rul_spacing g x u = Some kappa -> vlen kappa <> 0 -> r_index r <> 0 ->
  r_direction r = Some d -> rulings_effective g r normal = r.
Proof.
  intros Hm Hp -> Hk Hl Hn Hd. unfold rulings_effective. rewrite Hp, Hd. cbn [obind]. rewrite Hk. cbn [obind].
  rewrite odiv_nz by auto. cbn [obind]. unfold incident_effective. rewrite odiv_nz by (apply Rmult_integral_contrapositive; auto).
  cbn [obind]. rewrite Hm. destruct r as [w p dd i at_ ix uv]. cbn in *. subst. unfold set_direction; cbn. do 2 f_equal.
  destruct d, kappa. apply vec_eq; tv; ring.
Qed.

(** Flipping the normal is flipping the order. *)
Lemma effective_flip w a n u m d g : dot a u <> 0 ->
  incident_effective w a n (vopp u) m d g = incident_effective w a n u (- m) d g.
Proof.
  intros H. unfold incident_effective. replace (dot a (vopp u)) with (- dot a u) by (tv; ring).
  replace (rsign (- dot a u)) with (- rsign (dot a u)).
  - destruct (odiv 1 (n * d)); cbn; auto. do 2 f_equal. f_equal. ring.
  - destruct (Rtotal_order (dot a u) 0) as [E|[E|E]]; [|lra|].
    + rewrite (rsign_neg (dot a u)), rsign_pos by lra. ring.
    + rewrite (rsign_pos (dot a u)), rsign_neg by lra. ring.
Qed.
Lemma grating_flip w a n1 n2 u m d g mirror e b : 0 < n1 -> 0 < n2 -> is_unit u -> d <> 0 -> dot a u <> 0 ->
  dot g u = 0 ->
  incident_effective w a n1 (vopp u) m d g = Some e -> snells_law e n1 n2 mirror (vopp u) = Some b ->
  exists e', incident_effective w a n1 u (- m) d g = Some e' /\ snells_law e' n1 n2 mirror u = Some b.
Proof.
  intros H1 H2 Hu Hd Ha Hg He Hb. rewrite effective_flip in He by auto. exists e. split; auto.
  assert (Hde : dot e u = dot a u).
  { unfold incident_effective in He. rewrite odiv_nz in He by (apply Rmult_integral_contrapositive; split; lra).
    cbn [obind] in He. injection He as <-. set (k := rsign _ * _ * _ * _). clearbody k.
    replace (dot (vadd a (vscale k g)) u) with (dot a u + k * dot g u) by (tv; ring).
    rewrite Hg. ring. }
  rewrite snells_law_flip_normal in Hb by lra. exact Hb.
Qed.

(** ** Holographic rulings *)
Lemma cross_cross n dr : is_unit n -> cross (cross n dr) n = tangential n dr.
Proof.
  intros Hn. unfold is_unit, norm2, dot in Hn. destruct n as [a b c], dr as [x y z]. cbn [vx vy vz] in Hn.
  apply vec_eq; unfold cross, tangential, vsub, vscale, dot; cbn [vx vy vz].
  - transitivity (x * (a * a + b * b + c * c) - (x * a + y * b + z * c) * a); [ring|rewrite Hn; ring].
  - transitivity (y * (a * a + b * b + c * c) - (x * a + y * b + z * c) * b); [ring|rewrite Hn; ring].
  - transitivity (z * (a * a + b * b + c * c) - (x * a + y * b + z * c) * c); [ring|rewrite Hn; ring].
Qed.
Lemma cross_norm n dr : is_unit n -> norm2 (cross n dr) = norm2 (tangential n dr).
Proof.
  intros Hn. unfold is_unit, norm2, dot in Hn. destruct n as [a b c], dr as [x y z]. cbn [vx vy vz] in Hn.
  unfold tangential, cross, vsub, vscale, norm2, dot; cbn [vx vy vz].
  transitivity ((x * x + y * y + z * z) * (a * a + b * b + c * c) - (x * a + y * b + z * c) * (x * a + y * b + z * c)); [ring|].
  transitivity ((x * x + y * y + z * z) + (x * a + y * b + z * c) * (x * a + y * b + z * c) * ((a * a + b * b + c * c) - 2)); [rewrite Hn; ring|ring].
Qed.
Lemma vlen_scale k v : 0 <= k -> vlen (vscale k v) = k * vlen v.
Proof.
  intros Hk. unfold vlen. replace (norm2 (vscale k v)) with (k * k * norm2 v) by (tv; ring).
  rewrite sqrt_mult; [|nra|unfold norm2, dot; nra]. rewrite sqrt_square; auto.
Qed.

Lemma beam_normalized dv source p e : beam dv source p e ->
  exists r, normalized (vsub p source) = Some r /\ e = vscale (2 * (if dv then 1 else 0) - 1) r.
Proof.
  intros (Hu & k & Hk & E).
  assert (S : vsub p source = vscale k (if dv then e else vopp e)).
  { destruct dv; auto. destruct p, source, e. injection E as E1 E2 E3. apply vec_eq; cbn in *; lra. }
  assert (Un : is_unit (if dv then e else vopp e)).
  { destruct dv; auto. unfold is_unit in *. rewrite <- Hu. tv; ring. }
  set (f := if dv then e else vopp e) in *.
  exists f. split.
  - rewrite S. assert (L : vlen (vscale k f) = k).
    { rewrite vlen_scale by lra. unfold vlen. rewrite Un, sqrt_1. ring. }
    rewrite normalized_nz by lra. rewrite L. f_equal. destruct f; apply vec_eq; cbn; field; lra.
  - unfold f. destruct dv, e; apply vec_eq; cbn; ring.
Qed.

Lemma holographic_kappa x1 x2 w d1 d2 t p u e1 e2 : 0 < w -> is_unit u ->
  beam d1 x1 p e1 -> beam d2 x2 p e2 -> tangential u e1 <> tangential u e2 ->
  exists kappa, holographic_spacing x1 x2 w d1 d2 t p u = Some kappa /\
    let dr := tangential u (vsub e1 e2) in
    vlen dr <> 0 /\ 0 < vlen dr /\ kappa = vscale (w / norm2 dr) dr /\ vlen kappa = w / vlen dr.
Proof.
  intros Hw Hu B1 B2 Hne. destruct (beam_normalized _ _ _ _ B1) as (r1 & E1 & ->).
  destruct (beam_normalized _ _ _ _ B2) as (r2 & E2 & ->).
  set (s1 := 2 * (if d1 then 1 else 0) - 1) in *. set (s2 := 2 * (if d2 then 1 else 0) - 1) in *.
  unfold holographic_spacing. rewrite E1, E2. cbn [obind]. fold s1 s2.
  set (D := vsub (vscale s1 r1) (vscale s2 r2)). set (dr := tangential u D).
  assert (Hdr : 0 < norm2 dr).
  { assert (H0 : 0 <= norm2 dr) by (unfold norm2, dot; nra).
    destruct H0 as [H0|H0]; auto. exfalso. apply Hne.
    assert (Z : dr = vzero).
    { destruct dr as [a b c]. unfold norm2, dot in H0; cbn [vx vy vz] in H0.
      assert (a = 0) by nra. assert (b = 0) by nra. assert (c = 0) by nra. subst. reflexivity. }
    unfold dr, D in Z. set (v := vscale s1 r1) in *. set (v' := vscale s2 r2) in *. clearbody v v'.
    replace (vsub v v') with (vadd v (vscale (-1) v')) in Z by (destruct v, v'; apply vec_eq; cbn; ring).
    rewrite tangential_add, tangential_scale in Z. set (a := tangential u v) in *. set (b := tangential u v') in *. clearbody a b.
    destruct a, b. unfold vzero in Z. injection Z as Z1 Z2 Z3. apply vec_eq; cbn in *; lra. }
  assert (L : vlen (cross u D) = vlen dr) by (unfold vlen; rewrite cross_norm by auto; reflexivity).
  assert (Ls : vlen dr * vlen dr = norm2 dr) by (apply sqrt_sqrt; lra).
  assert (Lp : 0 < vlen dr) by (apply sqrt_lt_R0; auto).
  rewrite L, odiv_nz by lra. cbn [obind].
  replace (cross (vscale (1 / vlen dr) (cross u D)) u) with (vscale (1 / vlen dr) (cross (cross u D) u)).
  2: { set (X := cross u D). clearbody X. clear. apply vec_eq; tv; ring. }
  rewrite cross_cross by auto. fold dr.
  assert (K : vscale (w * (1 / vlen dr)) (vscale (1 / vlen dr) dr) = vscale (w / norm2 dr) dr).
  { rewrite <- Ls. clearbody dr. destruct dr; apply vec_eq; cbn; field; lra. }
  exists (vscale (w / norm2 dr) dr). rewrite K. split; auto. cbv zeta. fold D dr. split; [lra|split; [auto|split; auto]].
  rewrite vlen_scale.
  - rewrite <- Ls. field. lra.
  - apply Rlt_le, Rdiv_lt_0_compat; auto.
Qed.

Lemma holographic_image x1 x2 w d1 d2 t p u e1 e2 n : 0 < w -> 0 < n -> is_unit u ->
  beam d1 x1 p e1 -> beam d2 x2 p e2 -> tangential u e1 <> tangential u e2 ->
  dot e1 u < 0 -> 0 < dot e2 u ->
  exists kappa e, holographic_spacing x1 x2 w d1 d2 t p u = Some kappa /\
    (exists q, odiv 1 (vlen kappa) = Some q /\
      incident_effective w e1 1 u 1 (vlen kappa) (vscale q kappa) = Some e) /\
    snells_law e n n true u = Some e2.
Proof.
  intros Hw Hn Hu B1 B2 Hne S1 S2.
  destruct (holographic_kappa x1 x2 w d1 d2 t p u e1 e2 Hw Hu B1 B2 Hne) as (kappa & Ek & Hl0 & Hl & K & Lk).
  set (dr := tangential u (vsub e1 e2)) in *.
  assert (Ls : vlen dr * vlen dr = norm2 dr) by (apply sqrt_sqrt; unfold norm2, dot; nra).
  assert (Lkp : 0 < vlen kappa) by (rewrite Lk; apply Rdiv_lt_0_compat; auto).
  exists kappa, (vsub e1 dr). split; [auto|]. split.
  - exists (1 / vlen kappa). split; [apply odiv_nz; lra|]. unfold incident_effective.
    rewrite odiv_nz by lra. cbn [obind]. f_equal. rewrite rsign_neg by auto. rewrite Lk, K, <- Ls.
    clearbody dr. destruct e1, dr. apply vec_eq; cbn; field; lra.
  - assert (Hd : dot (vsub e1 dr) u = dot e1 u).
    { unfold dr, is_unit, norm2 in *. set (D := vsub e1 e2). clearbody D.
      replace (dot (vsub e1 (tangential u D)) u) with (dot e1 u - dot D u * (1 - dot u u)) by (tv; ring).
      rewrite Hu. ring. }
    apply snells_law_complete; auto; try lra.
    + apply B2.
    + f_equal. unfold dr. unfold is_unit, norm2 in Hu.
      replace (vsub e1 (tangential u (vsub e1 e2))) with (vadd e1 (vscale (-1) (tangential u (vsub e1 e2)))) by (destruct e1; apply vec_eq; tv; ring).
      rewrite tangential_add, tangential_scale.
      assert (I : forall v, tangential u (tangential u v) = tangential u v).
      { intro v. unfold tangential at 1. replace (dot (tangential u v) u) with (dot v u * (1 - dot u u)) by (tv; ring).
        rewrite Hu. destruct (tangential u v); apply vec_eq; tv; ring. }
      rewrite I. replace (vsub e1 e2) with (vadd e1 (vscale (-1) e2)) by (destruct e1, e2; apply vec_eq; tv; ring).
      rewrite tangential_add, tangential_scale. destruct (tangential u e1), (tangential u e2). apply vec_eq; cbn; ring.
    + rewrite Hd. nra.
Qed.

(** A ray travelling along the normal is lost. *)
Lemma unit_345 a b c : a * a + b * b + c * c = 1 -> is_unit (V3 a b c).
Proof. auto. Qed.
Lemma holographic_back : exists x1 x2 w p u e1 e2, 0 < w /\ is_unit u /\
  beam true x1 p e1 /\ beam false x2 p e2 /\ tangential u e1 <> tangential u e2 /\
  0 < dot e1 u /\ dot e2 u < 0 /\
  forall kappa q e, holographic_spacing x1 x2 w true false None p u = Some kappa ->
    odiv 1 (vlen kappa) = Some q ->
    incident_effective w e1 1 u 1 (vlen kappa) (vscale q kappa) = Some e ->
    snells_law e 1 1 true u = None.
Proof.
  set (e1 := V3 (-3/5) 0 (-4/5)). set (e2 := V3 0 0 1). set (u := V3 0 0 (-1)).
  exists (V3 3 0 4), (V3 0 0 5), 1, vzero, u, e1, e2.
  assert (Hu : is_unit u) by (unfold is_unit, norm2, dot, u; cbn; ring).
  assert (B1 : beam true (V3 3 0 4) vzero e1).
  { split; [unfold is_unit, norm2, dot, e1; cbn; lra|]. exists 5. split; [lra|]. apply vec_eq; cbn; lra. }
  assert (B2 : beam false (V3 0 0 5) vzero e2).
  { split; [unfold is_unit, norm2, dot, e2; cbn; lra|]. exists 5. split; [lra|]. apply vec_eq; cbn; lra. }
  assert (T : tangential u e1 <> tangential u e2).
  { unfold tangential, u, e1, e2; cbn. intro H. injection H as H. lra. }
  split; [lra|]. split; [auto|]. split; [auto|]. split; [auto|]. split; [auto|].
  split; [unfold dot; cbn; lra|]. split; [unfold dot; cbn; lra|].
  intros kappa q e Hk Hq He.
  destruct (holographic_kappa _ _ 1 _ _ None vzero u e1 e2 ltac:(lra) Hu B1 B2 T) as (kappa' & Ek & Hl0 & Hl & K & Lk).
  rewrite Ek in Hk. injection Hk as ->.
  set (dr := tangential u (vsub e1 e2)) in *.
  assert (Ls : vlen dr * vlen dr = norm2 dr) by (apply sqrt_sqrt; unfold norm2, dot; nra).
  assert (Lkp : 0 < vlen kappa) by (rewrite Lk; apply Rdiv_lt_0_compat; lra).
  apply odiv_some in Hq. destruct Hq as (_ & -> & _).
  unfold incident_effective in He. rewrite odiv_nz in He by lra. cbn [obind] in He. injection He as <-.
  rewrite rsign_pos by (unfold dot, e1, u; cbn; lra).
  replace (vadd e1 (vscale (1 * 1 * 1 * (1 / (1 * vlen kappa))) (vscale (1 / vlen kappa) kappa))) with (vadd e1 dr).
  2: { rewrite Lk, K, <- Ls. clearbody dr. destruct e1, dr. apply vec_eq; cbn; field; lra. }
  unfold dr. apply (proj2 (snells_law_unit_iff _ 1 1 true u ltac:(lra) ltac:(lra) Hu)).
  unfold tangential, norm2, dot, vadd, vsub, vscale, u, e1, e2; cbn [vx vy vz]. lra.
Qed.
(** At a point of specular reflection between the sources the spacing is infinite. *)
Lemma holographic_specular : exists x1 x2 w p u e1 e2, 0 < w /\ is_unit u /\
  beam true x1 p e1 /\ beam false x2 p e2 /\ dot e1 u < 0 /\ 0 < dot e2 u /\
  e2 = mirror_image u e1 /\ holographic_spacing x1 x2 w true false None p u = None.
Proof.
  set (e1 := V3 (3/5) 0 (4/5)). set (e2 := V3 (3/5) 0 (-4/5)). set (u := V3 0 0 (-1)).
  exists (V3 (-3) 0 (-4)), (V3 3 0 (-4)), 1, vzero, u, e1, e2.
  assert (Hu : is_unit u) by (unfold is_unit, norm2, dot, u; cbn; ring).
  assert (B1 : beam true (V3 (-3) 0 (-4)) vzero e1).
  { split; [unfold is_unit, norm2, dot, e1; cbn; lra|]. exists 5. split; [lra|]. apply vec_eq; cbn; lra. }
  assert (B2 : beam false (V3 3 0 (-4)) vzero e2).
  { split; [unfold is_unit, norm2, dot, e2; cbn; lra|]. exists 5. split; [lra|]. apply vec_eq; cbn; lra. }
  split; [lra|]. split; [auto|]. split; [auto|]. split; [auto|].
  split; [unfold dot; cbn; lra|]. split; [unfold dot; cbn; lra|].
  split; [apply vec_eq; unfold mirror_image, vsub, vscale, dot, e1, e2, u; cbn; lra|].
  destruct (beam_normalized _ _ _ _ B1) as (r1 & E1 & F1). destruct (beam_normalized _ _ _ _ B2) as (r2 & E2 & F2).
  unfold holographic_spacing. rewrite E1, E2. cbn [obind]. rewrite <- F1, <- F2.
  replace (vlen (cross u (vsub e1 e2))) with 0; [rewrite odiv_0; reflexivity|].
  unfold vlen. replace (norm2 (cross u (vsub e1 e2))) with 0; [symmetry; apply sqrt_0|].
  unfold norm2, dot, cross, vsub, u, e1, e2; cbn [vx vy vz]. ring.
Qed.

(** ** Spacings *)
Lemma polynomial_degree_0 c g t p n : polynomial_spacing [(0%nat, c)] g t p n = constant_spacing c g p n.
Proof. unfold polynomial_spacing, polynomial, constant_spacing. cbn [fold_left fst snd pow]. do 2 f_equal. ring. Qed.
Lemma fold_poly l x a : fold_left (fun r (it : nat * R) => r + snd it * x ^ fst it) l a =
  a + rsum (map (fun it => snd it * x ^ fst it) l).
Proof.
  revert a. induction l as [|it l IH]; intros a; unfold rsum; cbn [fold_left map fold_right]; [ring|].
  rewrite IH. unfold rsum. ring.
Qed.
Lemma polynomial_sum l x : polynomial l x = rsum (map (fun it => snd it * x ^ fst it) l).
Proof. unfold polynomial. rewrite fold_poly. ring. Qed.

(** The holographic transformation is ignored. *)
Lemma holographic_ignores x1 x2 w d1 d2 t p n :
  holographic_spacing x1 x2 w d1 d2 t p n = holographic_spacing x1 x2 w d1 d2 None p n.
Proof. reflexivity. Qed.

(** ** The grating equation at a surface *)
Lemma surface_grating s g r x a u kappa b :
  sf_rulings s = Some g ->
  let r1 := sag_propagate (sf_sag s) r in
  r_position r1 = Some x -> r_direction r1 = Some a -> sag_normal (sf_sag s) x = Some u ->
  rul_spacing g x u = Some kappa -> kappa <> vzero -> is_unit u ->
  0 < r_index r -> 0 < mat_index (sf_material s) (surface_incident s r) ->
  r_direction (surface_local s r) = Some b ->
  vscale (mat_index (sf_material s) (surface_incident s r)) (tangential u b) =
  vadd (vscale (r_index r) (tangential u a))
       (vscale (rsign (dot a u) * rul_order g * r_wavelength r / norm2 kappa) (tangential u kappa)).
Proof.
  intros Hg r1 Hx Ha Hu Hk Hk0 Uu Hn1 Hn2 Hb.
  assert (Hl : 0 < norm2 kappa).
  { assert (N := norm2_nonneg kappa). destruct N as [N|N]; auto. exfalso. apply Hk0, norm2_zero. auto. }
  assert (Ls : vlen kappa * vlen kappa = norm2 kappa) by (apply sqrt_sqrt; lra).
  assert (Lp : 0 < vlen kappa) by (apply sqrt_lt_R0; auto).
  assert (E : exists b' : vec3, snells_law
     (vadd a (vscale (rsign (dot a u) * rul_order g * r_wavelength r * (1 / (r_index r * vlen kappa))) (vscale (1 / vlen kappa) kappa)))
     (r_index r) (mat_index (sf_material s) (surface_incident s r)) (mat_is_mirror (sf_material s)) u = Some b' /\ b' = b).
  { revert Hb. unfold surface_local. set (ri := surface_incident s r).
    assert (Ei : r_direction ri = Some (vadd a (vscale (rsign (dot a u) * rul_order g * r_wavelength r * (1 / (r_index r * vlen kappa))) (vscale (1 / vlen kappa) kappa)))
      /\ r_position ri = Some x /\ r_index ri = r_index r).
    { unfold ri, surface_incident. rewrite Hg. fold r1. unfold rulings_effective. rewrite Hx, Ha. cbn [obind].
      unfold surface_normal. rewrite Hx. cbn [obind]. rewrite Hu. cbn [obind]. rewrite Hk. cbn [obind].
      rewrite odiv_nz by lra. cbn [obind]. unfold incident_effective.
      rewrite odiv_nz by (apply Rmult_integral_contrapositive; split; [unfold r1; cbn; lra|lra]). cbn [obind].
      split; [reflexivity|]. split; [exact Hx|reflexivity]. }
    destruct Ei as (Ei & Ep & En). rewrite Ei, Ep, En. unfold surface_normal. rewrite Ep. cbn [obind]. rewrite Hu. cbn [obind].
    destruct (sf_aperture s) as [ap|]; cbn [r_direction clip_rays set_unvignetted]; intros Hb; exists b; auto. }
  destruct E as (b' & E & ->).
  destruct (snells_law_full _ _ _ _ _ _ Hn1 Hn2 Uu E) as [F _]. rewrite F.
  rewrite tangential_add, !tangential_scale. set (ta := tangential u a). set (tk := tangential u kappa). clearbody ta tk.
  rewrite <- Ls. apply vec_eq; cbn; field; lra.
Qed.
(** Rulings given by a number: the grooves follow one another along x. *)
Lemma surface_number s g r x a u d b :
  sf_rulings s = Some g -> rul_spacing g = default_spacing d -> d <> 0 ->
  let r1 := sag_propagate (sf_sag s) r in
  r_position r1 = Some x -> r_direction r1 = Some a -> sag_normal (sf_sag s) x = Some u -> is_unit u ->
  0 < r_index r -> 0 < mat_index (sf_material s) (surface_incident s r) ->
  r_direction (surface_local s r) = Some b ->
  vscale (mat_index (sf_material s) (surface_incident s r)) (tangential u b) =
  vadd (vscale (r_index r) (tangential u a))
       (vscale (rsign (dot a u) * rul_order g * r_wavelength r / d) (tangential u (V3 1 0 0))).
Proof.
  intros Hg Hs Hd r1 Hx Ha Hu Uu Hn1 Hn2 Hb.
  assert (K : rul_spacing g x u = Some (vscale d (V3 1 0 0))) by (rewrite Hs; reflexivity).
  rewrite (surface_grating s g r x a u (vscale d (V3 1 0 0)) b Hg Hx Ha Hu K); try assumption.
  - f_equal. rewrite tangential_scale. set (t := tangential u (V3 1 0 0)). clearbody t.
    replace (norm2 (vscale d (V3 1 0 0))) with (d * d) by (unfold norm2, dot; cbn; ring).
    apply vec_eq; cbn; field; exact Hd.
  - intros E. apply (f_equal vx) in E. cbn in E. lra.
Qed.
Lemma order_zero_normal w a n1 n2 u d g mirror : n1 <> 0 -> d <> 0 -> dot a u <> 0 ->
  obind (incident_effective w a n1 u 0 d g) (fun e => snells_law e n1 n2 mirror u) =
  obind (incident_effective w a n1 (vopp u) 0 d g) (fun e => snells_law e n1 n2 mirror (vopp u)).
Proof.
  intros Hn Hd Ha. assert (E : forall v, incident_effective w a n1 v 0 d g = Some a).
  { intro v. unfold incident_effective. rewrite odiv_nz by (apply Rmult_integral_contrapositive; auto). cbn [obind].
    f_equal. apply vec_eq; tv; ring. }
  rewrite !E. cbn [obind]. symmetry. apply snells_law_flip_normal. auto.
Qed.

(** ** The holographic transformation *)
Definition shift_y : rigid := mkRigid mid (V3 0 (-12) 0).
Lemma holographic_frame : exists x1 x2 w t p u, 0 < w /\ is_unit u /\ is_rigid t /\
  holographic_spacing x1 x2 w true false (Some t) p u <>
  in_ruling_frame t (holographic_spacing x1 x2 w true false None) p u.
Proof.
  set (e1 := V3 (3/13) (12/13) (4/13)). set (e2 := V3 (3/13) (-12/13) (-4/13)). set (u := V3 0 0 (-1)).
  set (p := V3 0 12 0).
  exists (V3 (-3) 0 (-4)), (V3 3 0 (-4)), 1, shift_y, p, u.
  assert (Hu : is_unit u) by (unfold is_unit, norm2, dot, u; cbn; ring).
  assert (B1 : beam true (V3 (-3) 0 (-4)) p e1).
  { split; [unfold is_unit, norm2, dot, e1; cbn; lra|]. exists 13. split; [lra|]. apply vec_eq; cbn; lra. }
  assert (B2 : beam false (V3 3 0 (-4)) p e2).
  { split; [unfold is_unit, norm2, dot, e2; cbn; lra|]. exists 13. split; [lra|]. apply vec_eq; cbn; lra. }
  assert (T : tangential u e1 <> tangential u e2).
  { unfold tangential, u, e1, e2; cbn. intro H. injection H as H. lra. }
  split; [lra|]. split; [auto|]. split; [apply orthogonal_mid|].
  destruct (holographic_kappa _ _ 1 _ _ (Some shift_y) p u e1 e2 ltac:(lra) Hu B1 B2 T) as (kappa & Ek & _).
  rewrite Ek. unfold in_ruling_frame.
  replace (rigid_point shift_y p) with vzero by (apply vec_eq; cbv [shift_y rigid_point rg_mat rg_shift mapply mid mr1 mr2 mr3 dot vadd vx vy vz p vzero]; ring).
  replace (rigid_vector shift_y u) with u by (apply vec_eq; cbv [shift_y rigid_vector rg_mat rg_shift mapply mid mr1 mr2 mr3 dot vadd vx vy vz u vzero]; ring).
  clear. set (e1 := V3 (3/5) 0 (4/5)). set (e2 := V3 (3/5) 0 (-4/5)).
  assert (B1 : beam true (V3 (-3) 0 (-4)) vzero e1).
  { split; [unfold is_unit, norm2, dot, e1; cbn; lra|]. exists 5. split; [lra|]. apply vec_eq; cbn; lra. }
  assert (B2 : beam false (V3 3 0 (-4)) vzero e2).
  { split; [unfold is_unit, norm2, dot, e2; cbn; lra|]. exists 5. split; [lra|]. apply vec_eq; cbn; lra. }
  destruct (beam_normalized _ _ _ _ B1) as (r1 & E1 & F1). destruct (beam_normalized _ _ _ _ B2) as (r2 & E2 & F2).
  unfold holographic_spacing. rewrite E1, E2. cbn [obind]. rewrite <- F1, <- F2.
  replace (vlen (cross u (vsub e1 e2))) with 0; [rewrite odiv_0; cbn; discriminate|].
  unfold vlen. replace (norm2 (cross u (vsub e1 e2))) with 0; [symmetry; apply sqrt_0|].
  unfold norm2, dot, cross, vsub, u, e1, e2; cbn [vx vy vz]. ring.
Qed.
