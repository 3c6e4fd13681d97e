(** Sharp images of conic mirrors and lenses. *)
From Coq Require Import Reals Lra Psatz List.
From Coquelicot Require Import Coquelicot.
From Verif Require Import Vec VecLemmas Num NumLemmas RayModel SnellModel SnellSpec SnellProofs SurfaceModel
  SagModel SagSpec SagNormalProofs SagInterceptProofs SequenceSpec SequenceProofs FocusSpec.
Import ListNotations.
Open Scope R_scope.

(** ** Geometry of the quadric *)
Definition gradient (r k : R) (q : vec3) : vec3 := V3 (vx q) (vy q) ((1 + k) * vz q - r).

Lemma conic_normal_gradient r k q : interior (ConicSag r k) (vx q) (vy q) -> on_graph (conic_z r k) q ->
  exists n l, conic_normal r k q = Some n /\ is_unit n /\ l <> 0 /\ n = vscale l (gradient r k q) /\
    r * vz (gradient r k q) < 0.
Proof.
  intros [Hr Hi] Hg. destruct q as [x y z]. cbn [vx vy vz] in *.
  assert (Hp := conic_interior r k _ _ Hr Hi).
  unfold on_graph, conic_z in Hg. cbn [vx vy vz] in Hg. rewrite odiv_nz in Hg by auto. cbn [obind] in Hg.
  rewrite osqrt_nonneg in Hg by lra. cbn [obind] in Hg.
  unfold conic_normal. cbn [vx vy vz]. rewrite odiv_nz by auto. cbn [obind].
  rewrite osqrt_nonneg by lra. cbn [obind].
  set (g := sqrt _) in *.
  assert (Hg0 : 0 < g) by (apply sqrt_lt_R0; auto).
  assert (Hgg : g * g = 1 - (1 + k) * (1 / r * (1 / r)) * (x * x + y * y)) by (apply sqrt_def; lra).
  rewrite odiv_nz in Hg by lra. injection Hg as Hz.
  rewrite !odiv_nz by lra. cbn [obind].
  destruct (normalise_slopes (1 / r * x / g) (1 / r * y / g)) as (c & Hc & H1 & H2 & _).
  rewrite Hc; cbn [obind].
  assert (Hrg : (1 + k) * z - r = - (r * g)).
  { set (c1 := 1 / r) in *. assert (Hc1 : c1 * r = 1) by (unfold c1; field; auto).
    assert (E1 : c1 * (x * x + y * y) = z * (1 + g)) by (rewrite <- Hz; field; lra).
    assert (E2 : (1 + k) * c1 * z = 1 - g).
    { assert ((1 + k) * c1 * (c1 * (x * x + y * y)) = (1 - g) * (1 + g)) by nra.
      rewrite E1 in H. apply Rmult_eq_reg_r with (1 + g); lra. }
    replace ((1 + k) * z) with ((1 + k) * c1 * z * r) by (transitivity ((1 + k) * z * (c1 * r)); [ring|rewrite Hc1; ring]).
    rewrite E2. ring. }
  eexists _, (c / (r * g)). split; [reflexivity|]. split; [exact H1|].
  assert (Hrg0 : r * g <> 0) by (apply Rmult_integral_contrapositive; lra).
  split; [|split].
  - intro E. assert (c = 0). { replace c with (c / (r * g) * (r * g)) by (field; lra). rewrite E; ring. }
    subst c. unfold vscale in H2; cbn [vx vy vz] in H2. lra.
  - unfold gradient; cbn [vx vy vz]. rewrite Hrg. apply vec_eq; unfold vscale; cbn [vx vy vz]; field; lra.
  - unfold gradient; cbn [vx vy vz]. rewrite Hrg. assert (0 < r * r) by nra. nra.
Qed.

(** All conic classes are one. *)
Lemma conic_class_graph c r k q : conic_class c r k -> interior c (vx q) (vy q) -> on_graph (class_z c) q ->
  interior (ConicSag r k) (vx q) (vy q) /\ on_graph (conic_z r k) q /\ class_normal c q = conic_normal r k q.
Proof.
  intros [->|[[-> ->]|[-> ->]]] Hi Hg.
  - auto.
  - split; [apply sphere_interior; auto|]. split.
    + unfold on_graph in *. rewrite <- sphere_z_conic. exact Hg.
    + apply sphere_normal_conic; auto.
  - cbn [interior] in Hi. assert (E : 2 * (r / 2) = r) by field.
    split; [rewrite <- E; apply parabola_interior; auto|]. split.
    + cbn [class_z] in Hg. unfold parabola_z in Hg. rewrite E in Hg. exact Hg.
    + cbn [class_normal]. rewrite parabola_normal_conic by auto. rewrite E; reflexivity.
Qed.

(** ** The ray behind the surface *)
Lemma hits_local solver c s r n2 : shaped solver c s -> hits c s r ->
  n2 = r_index (surface_propagate s r) ->
  exists o u q, r_position (apply_inverse (sf_transformation s) r) = Some o /\
    r_direction (apply_inverse (sf_transformation s) r) = Some u /\ is_unit u /\ on_line o u q /\
    on_graph (class_z c) q /\ interior c (vx q) (vy q) /\
    forall n b, class_normal c q = Some n ->
      snells_law u (r_index r) n2 (mat_is_mirror (sf_material s)) n = Some b ->
      r_position (surface_local s (apply_inverse (sf_transformation s) r)) = Some q /\
      r_direction (surface_local s (apply_inverse (sf_transformation s) r)) = Some b.
Proof.
  intros (Hs & Hr & Ht) (o & u & q & Ho & Hu & Huu & Hq & Hg & Hi) Hn.
  exists o, u, q. split; [auto|]. split; [auto|]. split; [auto|].
  assert (Hl : on_line o u q).
  { rewrite Hs in Hq. cbn in Hq. apply (class_on_line solver c). destruct c; exact Hq. }
  split; [auto|]. split; [auto|]. split; [auto|]. intros n b Hnn Hb.
  assert (Hix : r_index (apply_inverse (sf_transformation s) r) = r_index r)
    by (destruct (sf_transformation s); reflexivity).
  unfold surface_propagate in Hn. set (r' := apply_inverse _ r) in *.
  assert (E1 : surface_incident s r' = sag_propagate (sf_sag s) r') by (unfold surface_incident; rewrite Hr; reflexivity).
  assert (Epos : r_position (sag_propagate (sf_sag s) r') = Some q).
  { unfold sag_propagate. cbn. rewrite Ho, Hu. cbn [obind]. exact Hq. }
  assert (Edir : r_direction (sag_propagate (sf_sag s) r') = Some u) by (cbn; exact Hu).
  assert (Eidx : r_index (sag_propagate (sf_sag s) r') = r_index r) by (cbn; exact Hix).
  assert (Enor : surface_normal s (sag_propagate (sf_sag s) r') = Some n).
  { unfold surface_normal. rewrite Epos. cbn [obind]. rewrite Hs. cbn. exact Hnn. }
  assert (Hn2 : n2 = mat_index (sf_material s) (sag_propagate (sf_sag s) r')).
  { rewrite Hn. unfold surface_local. rewrite E1.
    destruct (sf_transformation s); destruct (sf_aperture s); reflexivity. }
  unfold surface_local. rewrite E1, Epos, Edir, Eidx, Enor, <- Hn2. cbn [obind]. rewrite Hb.
  destruct (sf_aperture s); cbn; auto.
Qed.

(** ** Moving between the frames *)
Lemma on_line_rigid t o u p : on_line o u p -> on_line (rigid_point t o) (rigid_vector t u) (rigid_point t p).
Proof.
  intros [k ->]. exists k. unfold rigid_point, rigid_vector.
  rewrite mapply_add, mapply_scale. vec_ring.
Qed.
Lemma aimed_in s r p : rigid_surface s -> aimed r (place s p) -> forall o u,
  r_position (apply_inverse (sf_transformation s) r) = Some o ->
  r_direction (apply_inverse (sf_transformation s) r) = Some u -> on_line o u p.
Proof.
  unfold rigid_surface, place. intros Ht (x & d & Hx & Hd & _ & Hl) o u.
  destruct (sf_transformation s) as [t|]; cbn [apply_inverse].
  - unfold ray_transform; cbn [r_position r_direction]. rewrite Hx, Hd. cbn. intros E1 E2.
    injection E1 as <-. injection E2 as <-.
    rewrite <- (rigid_inv_point t p Ht). apply on_line_rigid; exact Hl.
  - rewrite Hx, Hd. intros E1 E2. injection E1 as <-. injection E2 as <-. exact Hl.
Qed.
Lemma aimed_out s r p : rigid_surface s -> forall q b,
  r_position (surface_local s (apply_inverse (sf_transformation s) r)) = Some q ->
  r_direction (surface_local s (apply_inverse (sf_transformation s) r)) = Some b ->
  is_unit b -> on_line q b p -> aimed (surface_propagate s r) (place s p).
Proof.
  unfold rigid_surface, place, surface_propagate, aimed. intros Ht q b Hq Hb Hu Hl.
  set (r' := surface_local s _) in *. clearbody r'.
  destruct (sf_transformation s) as [t|]; cbn [apply_transformation].
  - unfold ray_transform; cbn [r_position r_direction]. rewrite Hq, Hb. cbn.
    eexists _, _. split; [reflexivity|]. split; [reflexivity|]. split.
    + unfold rigid_vector. apply mapply_unit; auto.
    + apply on_line_rigid; exact Hl.
  - exists q, b. auto.
Qed.
Lemma parallel_in s r : rigid_surface s -> parallel r (axis s) -> forall u,
  r_direction (apply_inverse (sf_transformation s) r) = Some u -> u = V3 0 0 1 \/ u = V3 0 0 (-1).
Proof.
  unfold rigid_surface, axis. intros Ht (d & Hd & Hp) u.
  assert (Eo : vopp (V3 0 0 1) = V3 0 0 (-1)) by vec_ring.
  destruct (sf_transformation s) as [t|]; cbn [apply_inverse].
  - unfold ray_transform; cbn [r_direction]. rewrite Hd. cbn. intros E. injection E as <-.
    destruct Hp as [-> | ->].
    + left. apply rigid_inv_vector; auto.
    + right. rewrite <- Eo. unfold rigid_vector. rewrite mapply_opp. f_equal. apply (rigid_inv_vector t _ Ht).
  - rewrite Hd. intros E. injection E as <-. rewrite <- Eo. exact Hp.
Qed.
Lemma parallel_out s r b : rigid_surface s ->
  r_direction (surface_local s (apply_inverse (sf_transformation s) r)) = Some b ->
  b = V3 0 0 1 \/ b = V3 0 0 (-1) -> parallel (surface_propagate s r) (axis s).
Proof.
  unfold rigid_surface, axis, surface_propagate, parallel. intros Ht Hb Hp.
  assert (Eo : vopp (V3 0 0 1) = V3 0 0 (-1)) by vec_ring.
  set (r' := surface_local s _) in *. clearbody r'.
  destruct (sf_transformation s) as [t|]; cbn [apply_transformation].
  - unfold ray_transform; cbn [r_direction]. rewrite Hb. cbn. eexists; split; [reflexivity|].
    destruct Hp as [-> | ->]; [auto|right]. rewrite <- Eo. unfold rigid_vector. rewrite mapply_opp. reflexivity.
  - exists b. split; [exact Hb|]. rewrite Eo. exact Hp.
Qed.

Lemma reflects_index s r : reflects s -> r_index (surface_propagate s r) = r_index r.
Proof.
  intros [_ H]. unfold surface_propagate.
  assert (Hix : r_index (apply_inverse (sf_transformation s) r) = r_index r)
    by (destruct (sf_transformation s); reflexivity).
  assert (E : r_index (surface_local s (apply_inverse (sf_transformation s) r)) = r_index r).
  { rewrite <- Hix. unfold surface_local.
    destruct (sf_aperture s); cbn [r_index clip_rays set_unvignetted]; rewrite H;
      unfold surface_incident; destruct (sf_rulings s); reflexivity. }
  destruct (sf_transformation s); exact E.
Qed.

(** ** Directions along a line *)
Lemma along_line o u q p : is_unit u -> on_line o u q -> on_line o u p -> q <> p ->
  exists t, t <> 0 /\ u = vscale t (vsub q p).
Proof.
  intros Hu [a ->] [b ->] Hne. assert (Hab : a <> b) by (intros ->; auto).
  exists (/ (a - b)). split; [apply Rinv_neq_0_compat; lra|].
  apply vec_eq; vec_unfold; field; lra.
Qed.

Lemma quadric_of_graph r k q : r <> 0 -> on_graph (conic_z r k) q ->
  vx q * vx q + vy q * vy q + (1 + k) * (vz q * vz q) = 2 * r * vz q.
Proof. intros Hr H. apply graph_quadric in H; auto. Qed.

(** Distances from the foci. *)
Lemma focus_distance r e q : e <> -1 -> vx q * vx q + vy q * vy q + (1 + - (e * e)) * (vz q * vz q) = 2 * r * vz q ->
  norm2 (vsub q (focus r e)) = (r / (1 + e) + e * vz q) * (r / (1 + e) + e * vz q).
Proof.
  intros He Hq. destruct q as [x y z]. unfold focus. vec_unfold.
  assert (E : x * x + y * y = 2 * r * z - (1 + - (e * e)) * (z * z)) by (vec_unfold; lra).
  transitivity ((x * x + y * y) + (z - r / (1 + e)) * (z - r / (1 + e))); [ring|]. rewrite E. field. lra.
Qed.
Lemma focus_off r e q : r <> 0 -> e <> 1 -> e <> -1 ->
  vx q * vx q + vy q * vy q + (1 + - (e * e)) * (vz q * vz q) = 2 * r * vz q ->
  r / (1 + e) + e * vz q <> 0.
Proof.
  intros Hr He He' Hq H0. assert (Hd := focus_distance r e q He' Hq). rewrite H0, Rmult_0_l in Hd.
  destruct q as [x y z]. unfold focus in Hd. vec_unfold.
  set (z1 := r / (1 + e)) in *. assert (E1 : z1 * (1 + e) = r) by (unfold z1; field; lra). clearbody z1.
  assert (z = z1) by nra. subst z. assert ((1 + e) * z1 = 0) by lra. lra.
Qed.

(** ** Mirrors *)
Lemma mirror_foci r e q n l t : r <> 0 -> e <> 1 -> e <> -1 ->
  vx q * vx q + vy q * vy q + (1 + - (e * e)) * (vz q * vz q) = 2 * r * vz q ->
  is_unit n -> n = vscale l (gradient r (- (e * e)) q) -> t <> 0 ->
  let u := vscale t (vsub q (focus r e)) in
  on_line q (vsub u (vscale (2 * dot u n) n)) (focus r (- e)).
Proof.
  intros Hr He He' Hq Hn En Ht u.
  assert (H1 := focus_off r e q Hr He He' Hq).
  assert (Hq' : vx q * vx q + vy q * vy q + (1 + - (- e * - e)) * (vz q * vz q) = 2 * r * vz q)
    by (replace (- e * - e) with (e * e) by ring; exact Hq).
  assert (H2 := focus_off r (- e) q Hr ltac:(lra) ltac:(lra) Hq').
  set (z1 := r / (1 + e)) in *. set (z2 := r / (1 + - e)) in *.
  assert (E1 : z1 * (1 + e) = r) by (unfold z1; field; lra).
  assert (E2 : z2 * (1 - e) = r) by (unfold z2; field; lra).
  assert (Hee : 1 - e * e <> 0).
  { intro. assert ((1 - e) * (1 + e) = 0) by lra. apply Rmult_integral in H0. lra. }
  destruct q as [x y z]. unfold gradient in *. cbn [vx vy vz] in *.
  set (L1 := z1 + e * z) in *. set (L2 := z2 + - e * z) in *.
  assert (Exy : x * x + y * y = 2 * r * z - (1 - e * e) * (z * z)) by lra.
  set (m := V3 x y ((1 + - (e * e)) * z - r)) in *.
  assert (Emm : dot m m = (1 - e * e) * (L1 * L2)).
  { unfold m, dot, L1, L2; cbn [vx vy vz].
    transitivity ((x * x + y * y) + ((1 - e * e) * z - r) * ((1 - e * e) * z - r)); [ring|]. rewrite Exy.
    transitivity (r * r + 2 * r * (e * e) * z - e * e * (1 - e * e) * (z * z)); [ring|].
    transitivity ((z1 * (1 + e)) * (z2 * (1 - e)) + e * z * ((z2 * (1 - e)) * (1 + e) - (z1 * (1 + e)) * (1 - e))
                  - e * e * (1 - e * e) * (z * z)); [rewrite E1, E2; ring | ring]. }
  assert (Ewm : dot (vsub (V3 x y z) (focus r e)) m = r * L1).
  { unfold m, dot, L1, focus, vsub; cbn [vx vy vz]. fold z1.
    transitivity ((x * x + y * y) + (z - z1) * ((1 - e * e) * z - r)); [ring|]. rewrite Exy.
    transitivity (2 * r * z - r * z - (z1 * (1 + e)) * (1 - e) * z + z1 * r); [ring|]. rewrite E1. ring. }
  assert (Ell : l * l * ((1 - e * e) * (L1 * L2)) = 1).
  { rewrite <- Emm. unfold is_unit, norm2 in Hn. rewrite En, dot_scale_l, dot_scale_r in Hn. lra. }
  exists (L2 / (t * L1)).
  assert (Eb : vsub u (vscale (2 * dot u n) n)
             = vscale t (vsub (vsub (V3 x y z) (focus r e)) (vscale (2 * r / ((1 - e * e) * L2)) m))).
  { rewrite En. unfold u. rewrite dot_scale_l, dot_scale_r, Ewm.
    assert (El : l * l = 1 / ((1 - e * e) * (L1 * L2))).
    { apply (Rmult_eq_reg_r ((1 - e * e) * (L1 * L2))).
      - rewrite Ell. field. auto.
      - repeat apply Rmult_integral_contrapositive_currified; auto. }
    transitivity (vscale t (vsub (vsub (V3 x y z) (focus r e)) (vscale (2 * (l * l) * (r * L1)) m))); [vec_ring|].
    rewrite El. f_equal. f_equal. f_equal. field. auto. }
  rewrite Eb. unfold focus. fold z1 z2.
  assert (E3 : 2 * r / (1 - e * e) = z1 + z2) by (unfold z1, z2; field; lra).
  assert (E4 : 2 * r / ((1 - e * e) * L2) = (z1 + z2) / L2) by (rewrite <- E3; field; auto).
  rewrite E4. unfold m. apply vec_eq; unfold vadd, vscale, vsub; cbn [vx vy vz].
  - apply (Rmult_eq_reg_r L1); auto. transitivity (x * L1 + L2 * x - (z1 + z2) * x); [|field; auto]. unfold L1, L2. ring.
  - apply (Rmult_eq_reg_r L1); auto. transitivity (y * L1 + L2 * y - (z1 + z2) * y); [|field; auto]. unfold L1, L2. ring.
  - apply (Rmult_eq_reg_r L1); auto.
    transitivity (z * L1 + L2 * (z - z1) - (z1 + z2) * ((1 + - (e * e)) * z - r)); [|field; auto]. unfold L1, L2.
    replace ((z1 + z2) * ((1 + - (e * e)) * z - r)) with ((z1 + z2) * ((1 - e * e) * z) - (z1 + z2) * r) by ring.
    replace ((z1 + z2) * ((1 - e * e) * z)) with (2 * r * z) by (rewrite <- E3; field; auto).
    replace (2 * r * z) with (z1 * (1 + e) * z + z2 * (1 - e) * z) by (rewrite E1, E2; ring).
    replace ((z1 + z2) * r) with (z1 * (z2 * (1 - e)) + z2 * (z1 * (1 + e))) by (rewrite E1, E2; ring). ring.
Qed.

Lemma reflected_unit u n : is_unit u -> is_unit n -> is_unit (vsub u (vscale (2 * dot u n) n)).
Proof. intros; apply mirror_image_unit; auto. Qed.

Lemma conic_focus solver c r e s ray : e <> 1 -> e <> -1 -> conic_class c r (- (e * e)) ->
  shaped solver c s -> reflects s -> 0 < r_index ray -> hits c s ray ->
  aimed ray (place s (focus r e)) -> aimed (surface_propagate s ray) (place s (focus r (- e))).
Proof.
  intros He He' Hc Hs Hm Hn Hh Ha. assert (Hrig := proj2 (proj2 Hs)).
  destruct (hits_local solver c s ray _ Hs Hh eq_refl) as (o & u & q & Ho & Hu & Huu & Hl & Hg & Hi & Hout).
  destruct (conic_class_graph c r _ q Hc Hi Hg) as (Hi' & Hg' & En).
  destruct (conic_normal_gradient _ _ _ Hi' Hg') as (n & l & Hnn & Hnu & Hl0 & Enl & _).
  assert (Hr : r <> 0) by (destruct Hi'; auto).
  assert (Hq := quadric_of_graph _ _ _ Hr Hg').
  rewrite (reflects_index s ray Hm) in Hout. rewrite (proj1 Hm) in Hout.
  destruct (Hout n _ ltac:(rewrite En; exact Hnn) (snells_law_reflect_pos u _ n Hn Hnu Huu)) as [Hpos Hdir].
  assert (HF := aimed_in s ray _ Hrig Ha o u Ho Hu).
  assert (Hne : q <> focus r e).
  { intros E. apply (focus_off r e q Hr He He' Hq). assert (Hd := focus_distance r e q He' Hq).
    rewrite E in Hd at 1. replace (norm2 (vsub (focus r e) (focus r e))) with 0 in Hd by (vec_unfold; ring). nra. }
  destruct (along_line _ _ _ _ Huu Hl HF Hne) as (t & Ht & Eu).
  apply (aimed_out s ray _ Hrig q _ Hpos Hdir).
  - apply reflected_unit; auto.
  - rewrite Eu. apply (mirror_foci r e q n l t); auto.
Qed.

Lemma conic_relay solver : forall l p ray p', 0 < r_index ray -> aimed ray p -> relayed solver p l ray p' ->
  aimed (propagate_rays surface_propagate (Sequence (map cm_surface l)) ray) p'.
Proof.
  unfold propagate_rays; cbn [as_list].
  induction l as [|m l IH]; intros p ray p' Hn Ha H; cbn [relayed map propagate_list] in *.
  - subst; auto.
  - destruct H as (He & He' & Hc & Hs & Hm & Hh & -> & H).
    eapply IH; [|eapply conic_focus; eauto|exact H]. rewrite reflects_index; auto.
Qed.

(** Distances along the two legs. *)
Lemma conic_path r e q : r <> 0 -> -1 < e < 1 -> on_graph (conic_z r (- (e * e))) q ->
  vlen (vsub q (focus r e)) + vlen (vsub (focus r (- e)) q) = 2 * Rabs r / (1 - e * e).
Proof.
  intros Hr He Hg. assert (Hq := quadric_of_graph _ _ _ Hr Hg).
  assert (Hq' : vx q * vx q + vy q * vy q + (1 + - (- e * - e)) * (vz q * vz q) = 2 * r * vz q)
    by (replace (- e * - e) with (e * e) by ring; exact Hq).
  assert (D1 := focus_distance r e q ltac:(lra) Hq). assert (D2 := focus_distance r (- e) q ltac:(lra) Hq').
  assert (E : norm2 (vsub (focus r (- e)) q) = norm2 (vsub q (focus r (- e)))) by (vec_unfold; ring).
  unfold vlen. rewrite E, D1, D2.
  change (sqrt (Rsqr (r / (1 + e) + e * vz q)) + sqrt (Rsqr (r / (1 + - e) + - e * vz q)) = 2 * Rabs r / (1 - e * e)).
  rewrite !sqrt_Rsqr_abs. clear E D1 D2 Hq'.
  destruct q as [x y z]. cbn [vx vy vz] in *. clear Hg.
  (* both distances have the sign of r *)
  set (a := r / (1 + e)). set (b := r / (1 + - e)).
  assert (Ea : a * (1 + e) = r) by (unfold a; field; lra).
  assert (Eb : b * (1 - e) = r) by (unfold b; field; lra).
  assert (Eab : 2 * r / (1 - e * e) = a + b) by (unfold a, b; field; split; nra).
  assert (Hz : (1 - e * e) * (z * z) <= 2 * r * z) by nra.
  assert (Hee : 0 < 1 - e * e) by nra.
  destruct (Rdichotomy _ _ Hr) as [Hneg|Hpos].
  - assert (Hz0 : a + b <= z <= 0).
    { assert (z <= 0) by nra. split; auto. rewrite <- Eab.
      destruct (Req_dec z 0) as [->|Hz0]. { apply Rmult_le_reg_r with (1 - e * e); auto. field_simplify; nra. }
      assert ((1 - e * e) * z >= 2 * r) by nra. apply Rmult_le_reg_r with (1 - e * e); auto.
      replace (2 * r / (1 - e * e) * (1 - e * e)) with (2 * r) by (field; lra). lra. }
    assert (a < 0) by nra. assert (b < 0) by nra.
    assert (a + e * z <= 0) by nra. assert (b + - e * z <= 0) by nra.
    rewrite (Rabs_left r), (Rabs_left1 (a + e * z)), (Rabs_left1 (b + - e * z)) by auto.
    replace (2 * - r / (1 - e * e)) with (- (2 * r / (1 - e * e))) by (field; lra). rewrite Eab. ring.
  - assert (Hz0 : 0 <= z <= a + b).
    { assert (0 <= z) by nra. split; auto. rewrite <- Eab.
      destruct (Req_dec z 0) as [->|Hz0]. { apply Rmult_le_reg_r with (1 - e * e); auto. field_simplify; nra. }
      assert ((1 - e * e) * z <= 2 * r) by nra. apply Rmult_le_reg_r with (1 - e * e); auto.
      replace (2 * r / (1 - e * e) * (1 - e * e)) with (2 * r) by (field; lra). lra. }
    assert (0 < a) by nra. assert (0 < b) by nra.
    assert (0 <= a + e * z) by nra. assert (0 <= b + - e * z) by nra.
    rewrite (Rabs_right r), (Rabs_right (a + e * z)), (Rabs_right (b + - e * z)) by lra.
    rewrite Eab. ring.
Qed.

(** ** The paraboloid *)
Lemma parabola_focus solver c r s ray : conic_class c r (-1) ->
  shaped solver c s -> reflects s -> 0 < r_index ray -> hits c s ray ->
  parallel ray (axis s) -> aimed (surface_propagate s ray) (place s (V3 0 0 (r / 2))).
Proof.
  intros Hc Hs Hm Hn Hh Ha. assert (Hrig := proj2 (proj2 Hs)).
  destruct (hits_local solver c s ray _ Hs Hh eq_refl) as (o & u & q & Ho & Hu & Huu & Hl & Hg & Hi & Hout).
  destruct (conic_class_graph c r _ q Hc Hi Hg) as (Hi' & Hg' & En).
  destruct (conic_normal_gradient _ _ _ Hi' Hg') as (n & l & Hnn & Hnu & Hl0 & Enl & _).
  assert (Hr : r <> 0) by (destruct Hi'; auto).
  assert (Hq := quadric_of_graph _ _ _ Hr Hg').
  rewrite (reflects_index s ray Hm) in Hout. rewrite (proj1 Hm) in Hout.
  destruct (Hout n _ ltac:(rewrite En; exact Hnn) (snells_law_reflect_pos u _ n Hn Hnu Huu)) as [Hpos Hdir].
  apply (aimed_out s ray _ Hrig q _ Hpos Hdir); [apply reflected_unit; auto|].
  assert (Hsig : exists g, g * g = 1 /\ u = V3 0 0 g).
  { destruct (parallel_in s ray Hrig Ha u Hu) as [-> | ->]; [exists 1|exists (-1)]; split; auto; lra. }
  destruct Hsig as (g & Hg1 & ->). clear Hdir Hout Hpos Hi' Hg' Hi Hg.
  destruct q as [x y z]. unfold gradient in Enl. cbn [vx vy vz] in *.
  replace ((1 + -1) * z - r) with (- r) in Enl by ring.
  assert (Exy : x * x + y * y = 2 * r * z) by lra.
  assert (Ell : l * l * (r * (2 * z + r)) = 1).
  { unfold is_unit, norm2 in Hnu. rewrite Enl, dot_scale_l, dot_scale_r in Hnu. unfold dot in Hnu; cbn [vx vy vz] in Hnu.
    replace (x * x + y * y + - r * - r) with (r * (2 * z + r)) in Hnu by lra. lra. }
  assert (Hzr : 2 * z + r <> 0) by (intro E; rewrite E in Ell; lra).
  assert (El : l * l = 1 / (r * (2 * z + r))).
  { apply (Rmult_eq_reg_r (r * (2 * z + r))); [rewrite Ell; field; auto|].
    apply Rmult_integral_contrapositive_currified; auto. }
  exists (- g * (2 * z + r) / 2). rewrite Enl.
  assert (E : vscale (2 * dot (V3 0 0 g) (vscale l (V3 x y (- r)))) (vscale l (V3 x y (- r)))
            = vscale (- (2 * g * r) * (l * l)) (V3 x y (- r))) by vec_ring.
  rewrite E, El. apply vec_eq; vec_unfold.
  - transitivity (x - g * g * x); [rewrite Hg1; ring|field; auto].
  - transitivity (y - g * g * y); [rewrite Hg1; ring|field; auto].
  - transitivity (z - g * g * (z - r / 2)); [rewrite Hg1; field|field; auto].
Qed.

Lemma unit_axis k : is_unit (V3 0 0 k) -> V3 0 0 k = V3 0 0 1 \/ V3 0 0 k = V3 0 0 (-1).
Proof.
  unfold is_unit. vec_unfold. intros H. assert (k * k = 1) by lra.
  assert ((k - 1) * (k + 1) = 0) by lra. apply Rmult_integral in H1 as [E|E].
  - left. f_equal. lra.
  - right. f_equal. lra.
Qed.

Lemma parabola_collimates solver c r s ray : conic_class c r (-1) ->
  shaped solver c s -> reflects s -> 0 < r_index ray -> hits c s ray ->
  aimed ray (place s (V3 0 0 (r / 2))) -> parallel (surface_propagate s ray) (axis s).
Proof.
  intros Hc Hs Hm Hn Hh Ha. assert (Hrig := proj2 (proj2 Hs)).
  destruct (hits_local solver c s ray _ Hs Hh eq_refl) as (o & u & q & Ho & Hu & Huu & Hl & Hg & Hi & Hout).
  destruct (conic_class_graph c r _ q Hc Hi Hg) as (Hi' & Hg' & En).
  destruct (conic_normal_gradient _ _ _ Hi' Hg') as (n & l & Hnn & Hnu & Hl0 & Enl & _).
  assert (Hr : r <> 0) by (destruct Hi'; auto).
  assert (Hq := quadric_of_graph _ _ _ Hr Hg').
  rewrite (reflects_index s ray Hm) in Hout. rewrite (proj1 Hm) in Hout.
  destruct (Hout n _ ltac:(rewrite En; exact Hnn) (snells_law_reflect_pos u _ n Hn Hnu Huu)) as [Hpos Hdir].
  apply (parallel_out s ray _ Hrig Hdir). assert (Hb := reflected_unit u n Huu Hnu).
  assert (HF := aimed_in s ray _ Hrig Ha o u Ho Hu). assert (Hr2 := sq_pos r Hr).
  assert (Hne : q <> V3 0 0 (r / 2)).
  { intros E. rewrite E in Hq. cbn [vx vy vz] in Hq. nra. }
  destruct (along_line _ _ _ _ Huu Hl HF Hne) as (t & Ht & Eu).
  assert (E : exists k, vsub u (vscale (2 * dot u n) n) = V3 0 0 k).
  { clear Hdir Hout Hpos Hi' Hg' Hi Hg Hb. destruct q as [x y z]. unfold gradient in Enl. cbn [vx vy vz] in *.
    replace ((1 + -1) * z - r) with (- r) in Enl by ring.
    assert (Exy : x * x + y * y = 2 * r * z) by lra.
    assert (Ell : l * l * (r * (2 * z + r)) = 1).
    { unfold is_unit, norm2 in Hnu. rewrite Enl, dot_scale_l, dot_scale_r in Hnu. unfold dot in Hnu; cbn [vx vy vz] in Hnu.
      replace (x * x + y * y + - r * - r) with (r * (2 * z + r)) in Hnu by lra. lra. }
    exists (t * (z + r / 2)). rewrite Eu, Enl.
    assert (Ed : dot (vsub (V3 x y z) (V3 0 0 (r / 2))) (V3 x y (- r)) = r * (2 * z + r) / 2).
    { unfold dot, vsub; cbn [vx vy vz]. transitivity ((x * x + y * y) - r * z + r * r / 2); [field|rewrite Exy; field]. }
    rewrite dot_scale_l, dot_scale_r, Ed.
    transitivity (vsub (vscale t (vsub (V3 x y z) (V3 0 0 (r / 2)))) (vscale (t * (l * l * (r * (2 * z + r)))) (V3 x y (- r)))).
    - apply vec_eq; vec_unfold; field.
    - rewrite Ell. apply vec_eq; vec_unfold; field. }
  destruct E as [k E]. rewrite E in *. apply unit_axis; auto.
Qed.

(** ** Refraction *)
Lemma tangential_kills n a b k : is_unit n -> vsub b a = vscale k n -> tangential n b = tangential n a.
Proof.
  intros Hn H. assert (E : b = vadd a (vscale k n)) by (rewrite <- H; vec_ring).
  unfold tangential. rewrite E, dot_add_l, dot_scale_l. unfold is_unit, norm2 in Hn. rewrite Hn. vec_ring.
Qed.
Lemma tangential_scale k n a : tangential n (vscale k a) = vscale k (tangential n a).
Proof. unfold tangential. rewrite dot_scale_l. vec_ring. Qed.

(** The law of refraction with the normal along [m]. *)
Lemma refracts_along u b n m l n1 n2 k : 0 < n1 -> 0 < n2 -> is_unit b -> is_unit n -> n = vscale l m -> l <> 0 ->
  vsub (vscale n2 b) (vscale n1 u) = vscale k m -> 0 < dot u m * dot b m ->
  snells_law u n1 n2 false n = Some b.
Proof.
  intros H1 H2 Hb Hn En Hl Hk Hs.
  assert (Hll := sq_pos l Hl).
  apply snells_law_complete; auto.
  - rewrite En, dot_scale_r. intro E. apply Rmult_integral in E as [E|E]; [auto|]. rewrite E in Hs. lra.
  - rewrite <- !tangential_scale. apply (tangential_kills n _ _ (k / l)); auto. rewrite Hk, En.
    apply vec_eq; vec_unfold; field; auto.
  - rewrite En, !dot_scale_r. assert (0 < l * l * (dot u m * dot b m)) by (apply Rmult_lt_0_compat; auto). lra.
Qed.

(** Geometry of the focus and the axis of a conic. *)
Lemma lens_geometry r e q : r <> 0 -> 0 < e -> e <> 1 ->
  vx q * vx q + vy q * vy q + (1 + - (e * e)) * (vz q * vz q) = 2 * r * vz q ->
  exists L, L <> 0 /\ is_unit (vscale (1 / L) (vsub (focus r (- e)) q)) /\
    vsub (vscale (1 / L) (vsub (focus r (- e)) q)) (vscale e (V3 0 0 1))
    = vscale (- 1 / L) (gradient r (- (e * e)) q) /\
    dot (vscale (1 / L) (vsub (focus r (- e)) q)) (gradient r (- (e * e)) q) = - r.
Proof.
  intros Hr He He' Hq.
  assert (Hq' : vx q * vx q + vy q * vy q + (1 + - (- e * - e)) * (vz q * vz q) = 2 * r * vz q)
    by (replace (- e * - e) with (e * e) by ring; exact Hq).
  assert (HL := focus_off r (- e) q Hr ltac:(lra) ltac:(lra) Hq').
  assert (HD := focus_distance r (- e) q ltac:(lra) Hq').
  set (z2 := r / (1 + - e)) in *.
  assert (E2 : z2 * (1 - e) = r) by (unfold z2; field; lra).
  exists (z2 + - e * vz q). set (L := z2 + - e * vz q) in *. split; [auto|].
  destruct q as [x y z]. unfold gradient, focus in *. fold z2. fold z2 in HD. cbn [vx vy vz] in *.
  split; [|split].
  - unfold is_unit. rewrite norm2_scale.
    replace (norm2 (vsub (V3 0 0 z2) (V3 x y z))) with (norm2 (vsub (V3 x y z) (V3 0 0 z2))) by (vec_unfold; ring).
    rewrite HD. field. auto.
  - apply vec_eq; unfold vsub, vscale; cbn [vx vy vz]; apply (Rmult_eq_reg_r L); auto.
    + field; auto.
    + field; auto.
    + transitivity ((z2 - z) - e * L); [field; auto|]. transitivity (- ((1 + - (e * e)) * z - r)); [|field; auto].
      unfold L. rewrite <- E2. ring.
  - rewrite dot_scale_l. apply (Rmult_eq_reg_r L); auto. unfold dot, vsub; cbn [vx vy vz].
    transitivity (- (x * x + y * y) + (z2 - z) * ((1 + - (e * e)) * z - r)); [field; auto|].
    replace (x * x + y * y) with (2 * r * z - (1 - e * e) * (z * z)) by lra. unfold L. rewrite <- E2. ring.
Qed.

Lemma lens_focus solver c r s ray n2 : conic_class c r (- (r_index ray / n2 * (r_index ray / n2))) ->
  shaped solver c s -> mat_is_mirror (sf_material s) = false ->
  0 < r_index ray -> 0 < n2 -> r_index ray <> n2 -> n2 = r_index (surface_propagate s ray) -> hits c s ray ->
  parallel ray (axis s) -> aimed (surface_propagate s ray) (place s (V3 0 0 (r * n2 / (n2 - r_index ray)))).
Proof.
  intros Hc Hs Hm Hn Hn2 Hnn' E2 Hh Ha. assert (Hrig := proj2 (proj2 Hs)).
  destruct (hits_local solver c s ray _ Hs Hh E2) as (o & u & q & Ho & Hu & Huu & Hl & Hg & Hi & Hout).
  set (n1 := r_index ray) in *. set (e := n1 / n2) in *.
  assert (He : 0 < e) by (apply Rdiv_lt_0_compat; auto).
  assert (En1 : n1 = e * n2) by (unfold e; field; lra).
  assert (He' : e <> 1) by (intro E; rewrite E in En1; lra).
  assert (EF : V3 0 0 (r * n2 / (n2 - n1)) = focus r (- e)) by (unfold focus; f_equal; rewrite En1; field; split; [lra|]; intro; apply He'; apply (Rmult_eq_reg_r n2); lra).
  rewrite EF. clear EF.
  destruct (conic_class_graph c r _ q Hc Hi Hg) as (Hi' & Hg' & En).
  destruct (conic_normal_gradient _ _ _ Hi' Hg') as (n & l & Hnn & Hnu & Hl0 & Enl & Hsg).
  assert (Hr : r <> 0) by (destruct Hi'; auto).
  assert (Hq := quadric_of_graph _ _ _ Hr Hg').
  destruct (lens_geometry r e q Hr He He' Hq) as (L & HL & Hbu & Hbe & Hbm).
  set (b0 := vscale (1 / L) (vsub (focus r (- e)) q)) in *. set (m := gradient r (- (e * e)) q) in *.
  assert (Hsig : exists g, g * g = 1 /\ u = vscale g (V3 0 0 1)).
  { destruct (parallel_in s ray Hrig Ha u Hu) as [-> | ->]; [exists 1|exists (-1)]; split; try lra; vec_ring. }
  destruct Hsig as (g & Hg1 & Eu).
  assert (Hb : snells_law u n1 n2 false n = Some (vscale g b0)).
  { apply (refracts_along u (vscale g b0) n m l n1 n2 (g * n2 * (- 1 / L))); auto.
    - unfold is_unit. rewrite norm2_scale. unfold is_unit in Hbu. rewrite Hbu, Hg1. ring.
    - rewrite Eu, En1. transitivity (vscale (g * n2) (vsub b0 (vscale e (V3 0 0 1)))); [vec_ring|]. rewrite Hbe. vec_ring.
    - rewrite Eu, !dot_scale_l, Hbm. unfold dot; cbn [vx vy vz].
      replace (g * (0 * vx m + 0 * vy m + 1 * vz m) * (g * - r)) with (- (g * g * (r * vz m))) by ring. rewrite Hg1. lra. }
  rewrite Hm in Hout. destruct (Hout n _ ltac:(rewrite En; exact Hnn) Hb) as [Hpos Hdir].
  apply (aimed_out s ray _ Hrig q _ Hpos Hdir).
  - unfold is_unit. rewrite norm2_scale. unfold is_unit in Hbu. rewrite Hbu, Hg1. ring.
  - exists (g * L). unfold b0. transitivity (vadd q (vscale (g * g) (vsub (focus r (- e)) q))).
    + rewrite Hg1. vec_ring.
    + apply vec_eq; vec_unfold; field; auto.
Qed.

Lemma sq_one_of_unit t a : is_unit a -> is_unit (vscale t a) -> t * t = 1.
Proof. unfold is_unit. rewrite norm2_scale. intros H; rewrite H. lra. Qed.

Lemma lens_collimates solver c r s ray n2 : conic_class c r (- (n2 / r_index ray * (n2 / r_index ray))) ->
  shaped solver c s -> mat_is_mirror (sf_material s) = false ->
  0 < r_index ray -> 0 < n2 -> r_index ray <> n2 -> n2 = r_index (surface_propagate s ray) -> hits c s ray ->
  aimed ray (place s (V3 0 0 (r * r_index ray / (r_index ray - n2)))) -> parallel (surface_propagate s ray) (axis s).
Proof.
  intros Hc Hs Hm Hn Hn2 Hnn' E2 Hh Ha. assert (Hrig := proj2 (proj2 Hs)).
  destruct (hits_local solver c s ray _ Hs Hh E2) as (o & u & q & Ho & Hu & Huu & Hl & Hg & Hi & Hout).
  set (n1 := r_index ray) in *. set (e := n2 / n1) in *.
  assert (He : 0 < e) by (apply Rdiv_lt_0_compat; auto).
  assert (En1 : n2 = e * n1) by (unfold e; field; lra).
  assert (He' : e <> 1) by (intro E; rewrite E in En1; lra).
  assert (EF : V3 0 0 (r * n1 / (n1 - n2)) = focus r (- e)) by (unfold focus; f_equal; rewrite En1; field; split; [lra|]; intro; apply He'; apply (Rmult_eq_reg_r n1); lra).
  rewrite EF in Ha. clear EF.
  destruct (conic_class_graph c r _ q Hc Hi Hg) as (Hi' & Hg' & En).
  destruct (conic_normal_gradient _ _ _ Hi' Hg') as (n & l & Hnn & Hnu & Hl0 & Enl & Hsg).
  assert (Hr : r <> 0) by (destruct Hi'; auto).
  assert (Hq := quadric_of_graph _ _ _ Hr Hg').
  destruct (lens_geometry r e q Hr He He' Hq) as (L & HL & Hbu & Hbe & Hbm).
  assert (HF := aimed_in s ray _ Hrig Ha o u Ho Hu).
  assert (Hne : q <> focus r (- e)).
  { intros E. rewrite <- E in Hbu. unfold is_unit in Hbu. rewrite norm2_scale in Hbu.
    replace (norm2 (vsub q q)) with 0 in Hbu by (vec_unfold; ring). lra. }
  destruct (along_line _ _ _ _ Huu Hl HF Hne) as (t & Ht & Eu).
  set (b0 := vscale (1 / L) (vsub (focus r (- e)) q)) in *. set (m := gradient r (- (e * e)) q) in *.
  assert (Eu' : u = vscale (- t * L) b0) by (rewrite Eu; unfold b0; apply vec_eq; vec_unfold; field; auto).
  set (g := - t * L) in *. clearbody g b0.
  assert (Hg1 : g * g = 1) by (apply (sq_one_of_unit g b0); auto; rewrite <- Eu'; auto).
  assert (Hb : snells_law u n1 n2 false n = Some (vscale g (V3 0 0 1))).
  { apply (refracts_along u (vscale g (V3 0 0 1)) n m l n1 n2 (- g * n1 * (- 1 / L))); auto.
    - unfold is_unit. rewrite norm2_scale, Hg1. vec_unfold. ring.
    - rewrite Eu', En1. transitivity (vscale (- g * n1) (vsub b0 (vscale e (V3 0 0 1)))); [vec_ring|]. rewrite Hbe. vec_ring.
    - rewrite Eu', !dot_scale_l, Hbm. unfold dot; cbn [vx vy vz].
      replace (g * - r * (g * (0 * vx m + 0 * vy m + 1 * vz m))) with (- (g * g * (r * vz m))) by ring. rewrite Hg1. lra. }
  rewrite Hm in Hout. destruct (Hout n _ ltac:(rewrite En; exact Hnn) Hb) as [Hpos Hdir].
  apply (parallel_out s ray _ Hrig Hdir).
  replace (vscale g (V3 0 0 1)) with (V3 0 0 g) by vec_ring. apply unit_axis.
  unfold is_unit. vec_unfold. lra.
Qed.

(** ** The aplanatic points of a sphere *)
Lemma sphere_aplanatic solver c r s ray n2 : conic_class c r 0 ->
  shaped solver c s -> mat_is_mirror (sf_material s) = false ->
  0 < r_index ray -> 0 < n2 -> n2 = r_index (surface_propagate s ray) -> hits c s ray ->
  aimed ray (place s (V3 0 0 (r + r * (n2 / r_index ray)))) ->
  aimed (surface_propagate s ray) (place s (V3 0 0 (r + r * (r_index ray / n2)))).
Proof.
  intros Hc Hs Hm Hn Hn2 E2 Hh Ha. assert (Hrig := proj2 (proj2 Hs)).
  destruct (hits_local solver c s ray _ Hs Hh E2) as (o & u & q & Ho & Hu & Huu & Hl & Hg & Hi & Hout).
  set (n1 := r_index ray) in *. set (a := n2 / n1) in *.
  assert (Hap : 0 < a) by (apply Rdiv_lt_0_compat; auto).
  assert (En1 : n2 = a * n1) by (unfold a; field; lra).
  assert (Ea : n1 / n2 = 1 / a) by (rewrite En1; field; lra). rewrite Ea. clear Ea.
  destruct (conic_class_graph c r _ q Hc Hi Hg) as (Hi' & Hg' & En).
  destruct (conic_normal_gradient _ _ _ Hi' Hg') as (n & l & Hnn & Hnu & Hl0 & Enl & Hsg).
  assert (Hr : r <> 0) by (destruct Hi'; auto).
  assert (Hq := quadric_of_graph _ _ _ Hr Hg'). assert (Hr2 := sq_pos r Hr).
  assert (HF := aimed_in s ray _ Hrig Ha o u Ho Hu).
  clear Hi' Hg' Hi Hg Hh. destruct q as [x y z]. unfold gradient in *. cbn [vx vy vz] in *.
  set (w := (1 + 0) * z - r) in *. assert (Ez : z = w + r) by (unfold w; ring). clearbody w. subst z.
  assert (Exy : x * x + y * y = r * r - w * w) by lra.
  assert (Hne : V3 x y (w + r) <> V3 0 0 (r + r * a)).
  { intros E. injection E as -> -> E. assert (w = r * a) by lra. subst w.
    assert (0 < r * r * a) by (apply Rmult_lt_0_compat; auto). lra. }
  destruct (along_line _ _ _ _ Huu Hl HF Hne) as (t & Ht & Eu).
  assert (Eu' : u = vscale t (V3 x y (w - r * a))) by (rewrite Eu; vec_ring). clear Eu.
  set (b := vscale (a * t) (V3 x y (w - r * (1 / a)))).
  set (m := V3 x y w) in *.
  assert (Hua : t * t * (r * r + r * r * (a * a) - 2 * (r * w) * a) = 1).
  { unfold is_unit in Huu. rewrite Eu', norm2_scale in Huu. unfold norm2, dot in Huu; cbn [vx vy vz] in Huu.
    rewrite <- Huu. replace (x * x + y * y + (w - r * a) * (w - r * a))
      with ((x * x + y * y) + (w - r * a) * (w - r * a)) by ring. rewrite Exy. ring. }
  assert (Hbu : is_unit b).
  { unfold is_unit, b. rewrite norm2_scale. unfold norm2, dot; cbn [vx vy vz].
    replace (x * x + y * y) with (r * r - w * w) by lra.
    etransitivity; [|exact Hua]. field. lra. }
  assert (D1 : dot u m = t * (r * r - a * (r * w))).
  { rewrite Eu', dot_scale_l. unfold m, dot; cbn [vx vy vz]. rewrite Exy. ring. }
  assert (D2 : dot b m = t * (a * (r * r) - r * w)).
  { unfold b. rewrite dot_scale_l. unfold m, dot; cbn [vx vy vz]. rewrite Exy. field. lra. }
  assert (Htt := sq_pos t Ht).
  assert (Hb : snells_law u n1 n2 false n = Some b).
  { apply (refracts_along u b n m l n1 n2 (t * n1 * (a * a - 1))); auto.
    - rewrite Eu', En1. unfold b, m. apply vec_eq; vec_unfold; field; lra.
    - rewrite D1, D2.
      replace (t * (r * r - a * (r * w)) * (t * (a * (r * r) - r * w)))
        with (t * t * ((r * r - a * (r * w)) * (a * (r * r) - r * w))) by ring.
      assert (0 < a * (r * r)) by (apply Rmult_lt_0_compat; auto).
      assert (0 < a * - (r * w)) by (apply Rmult_lt_0_compat; lra).
      apply Rmult_lt_0_compat; [auto|]. apply Rmult_lt_0_compat; lra. }
  rewrite Hm in Hout. destruct (Hout n _ ltac:(rewrite En; exact Hnn) Hb) as [Hpos Hdir].
  apply (aimed_out s ray _ Hrig _ _ Hpos Hdir Hbu).
  exists (- 1 / (a * t)). unfold b. clearbody a. clear - Hap Ht.
  apply vec_eq; unfold vadd, vscale; cbn [vx vy vz]; field; split; auto; lra.
Qed.
