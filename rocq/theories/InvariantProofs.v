(** Invariants of rays in symmetric systems. *)
From Coq Require Import Reals Lra Psatz List Bool.
From Verif Require Import Vec VecLemmas Num NumLemmas RayModel SnellModel SnellSpec SnellProofs SurfaceModel
  SagModel SagSpec SagNormalProofs SagInterceptProofs CurvedSagProofs SequenceSpec SequenceProofs FocusSpec FocusProofs
  InvariantSpec.
Import ListNotations.
Open Scope R_scope.

(** ** One surface *)
Lemma local_step s r b : sf_rulings s = None -> r_direction (surface_local s r) = Some b ->
  exists o u q n, r_position r = Some o /\ r_direction r = Some u /\ sag_intercept (sf_sag s) o u = Some q /\
    sag_normal (sf_sag s) q = Some n /\ r_position (surface_local s r) = Some q /\
    snells_law u (r_index r) (r_index (surface_local s r)) (mat_is_mirror (sf_material s)) n = Some b.
Proof.
  intros Hr. unfold surface_local, surface_incident. rewrite Hr.
  assert (E : forall x, r_direction (match sf_aperture s with None => x | Some ap => clip_rays ap x end) = r_direction x)
    by (intros; destruct (sf_aperture s); reflexivity).
  assert (E' : forall x, r_position (match sf_aperture s with None => x | Some ap => clip_rays ap x end) = r_position x)
    by (intros; destruct (sf_aperture s); reflexivity).
  assert (E2 : forall x, r_index (match sf_aperture s with None => x | Some ap => clip_rays ap x end) = r_index x)
    by (intros; destruct (sf_aperture s); reflexivity).
  cbv zeta. rewrite E, E', E2. cbn [r_direction r_position r_index].
  set (r1 := sag_propagate (sf_sag s) r). intros H.
  destruct (r_direction r1) as [u|] eqn:Eu; [cbn [obind] in H|discriminate].
  unfold surface_normal in H. destruct (r_position r1) as [q|] eqn:Eq; [cbn [obind] in H|discriminate].
  destruct (sag_normal (sf_sag s) q) as [n|] eqn:En; [cbn [obind] in H|discriminate].
  assert (Eu' : r_direction r = Some u) by exact Eu.
  change (r_position r1) with (obind (r_position r) (fun x => obind (r_direction r) (fun d => sag_intercept (sf_sag s) x d))) in Eq.
  destruct (r_position r) as [o|]; [|discriminate]. rewrite Eu' in Eq. cbn [obind] in Eq.
  exists o, u, q, n. repeat split; auto.
Qed.

(** The change of n d is along the normal. *)
Lemma snell_kick u n1 n2 m n b : is_unit n -> snells_law u n1 n2 m n = Some b ->
  exists k, vscale n2 b = vadd (vscale n1 u) (vscale k n).
Proof.
  intros Hn H. assert (Hp := snells_law_phase _ _ _ _ _ _ Hn H). unfold phase_matched in Hp.
  exists (n2 * dot b n - n1 * dot u n).
  transitivity (vadd (vscale n2 (tangential n b)) (vscale (n2 * dot b n) n)); [unfold tangential; vec_ring|].
  rewrite Hp. unfold tangential. vec_ring.
Qed.

Lemma dot_kick a n1 n2 k u b n : vscale n2 b = vadd (vscale n1 u) (vscale k n) -> dot n a = 0 ->
  n2 * dot b a = n1 * dot u a.
Proof.
  intros H Hn. rewrite <- (dot_scale_l n2), H, dot_add_l, !dot_scale_l, Hn. ring.
Qed.

Lemma moment_kick c a q n1 n2 k u b n : vscale n2 b = vadd (vscale n1 u) (vscale k n) -> moment c a q n = 0 ->
  n2 * moment c a q b = n1 * moment c a q u.
Proof.
  intros H Hn. transitivity (moment c a q (vscale n2 b)); [unfold moment; vec_unfold; ring|]. rewrite H.
  transitivity (n1 * moment c a q u + k * moment c a q n); [unfold moment; vec_unfold; ring|]. rewrite Hn. ring.
Qed.

Lemma moment_line c a o u q : on_line o u q -> moment c a q u = moment c a o u.
Proof. intros [t ->]. unfold moment. vec_unfold. ring. Qed.

(** The normals of symmetric surfaces. *)
Lemma cylinder_graph_z r x y z : cylinder_z r x y = Some z ->
  exists s, osqrt (1 - x / r * (x / r)) = Some s /\ z = r - r * s.
Proof.
  unfold cylinder_z. destruct (odiv 1 r) as [c|] eqn:Ec; cbn [obind]; [|discriminate].
  apply odiv_some in Ec as (Hr & -> & _).
  destruct (osqrt _) as [s|] eqn:Es; cbn [obind]; [|discriminate].
  assert (Es' := Es). apply osqrt_some in Es' as (Hnn & _ & Hs & Hss).
  rewrite odiv_nz by lra. intros E; injection E as <-. exists s. split.
  - rewrite <- Es. f_equal. field. auto.
  - assert (E : x * x = r * r * (1 - s * s)) by (rewrite Hss; field; auto).
    rewrite E. field. split; lra.
Qed.

Lemma turn_normal k c a q n : turns k c a -> class_normal k q = Some n ->
  match k with NoSag | ConicSag _ _ | ParabolicSag _ => True | _ => on_graph (class_z k) q /\ interior k (vx q) (vy q) end ->
  moment c a q n = 0.
Proof.
  intros Ht Hn Hg. destruct c as [cx cy cz], a as [ax ay az], q as [x y z].
  destruct k as [|r|r kk|f|r|r r']; cbn [turns class_normal vx vy vz] in *.
  - injection Hn as <-. destruct Ht as [-> ->]. unfold moment. vec_unfold. ring.
  - destruct Hg as [Hg Hi].
    assert (Hc : conic_class (SphericalSag r) r 0) by (right; left; auto).
    destruct (conic_class_graph _ _ _ (V3 x y z) Hc Hi Hg) as (Hi' & Hg' & En).
    destruct (conic_normal_gradient _ _ _ Hi' Hg') as (n' & l & Hnn & _ & _ & Enl & _).
    change (sphere_normal r (V3 x y z) = conic_normal r 0 (V3 x y z)) in En.
    rewrite Hn, Hnn in En. injection En as ->. rewrite Enl.
    destruct Ht as [t Ht]. unfold vadd, vscale in Ht; cbn [vx vy vz] in Ht. injection Ht as E1 E2 E3.
    unfold gradient, moment. vec_unfold.
    replace cx with (- (t * ax)) by lra. replace cy with (- (t * ay)) by lra. replace cz with (r - t * az) by lra. ring.
  - destruct Ht as (-> & -> & -> & ->). unfold conic_normal in Hn. cbn [vx vy vz] in Hn.
    destruct (odiv 1 r) as [c'|]; cbn [obind] in Hn; [|discriminate].
    destruct (osqrt _) as [g|]; cbn [obind] in Hn; [|discriminate].
    destruct (odiv (c' * x) g) as [d1|] eqn:E1; cbn [obind] in Hn; [|discriminate].
    destruct (odiv (c' * y) g) as [d2|] eqn:E2; cbn [obind] in Hn; [|discriminate].
    apply odiv_some in E1 as (Hg0 & -> & _). apply odiv_some in E2 as (_ & -> & _).
    destruct (odiv 1 (vlen _)) as [w|]; cbn [obind] in Hn; [|discriminate]. injection Hn as <-.
    unfold moment. vec_unfold. unfold Rdiv. ring.
  - destruct Ht as (-> & -> & -> & ->). unfold parabola_normal in Hn. cbn [vx vy vz] in Hn.
    destruct (odiv x _) as [d1|]; cbn [obind] in Hn; [|discriminate].
    destruct (odiv y _) as [d2|]; cbn [obind] in Hn; [|discriminate].
    destruct (odiv 1 (sqrt _)) as [w|]; cbn [obind] in Hn; [|discriminate].
    destruct (odiv 1 (2 * f)) as [w'|]; cbn [obind] in Hn; [|discriminate]. injection Hn as <-.
    unfold moment. vec_unfold. ring.
  - destruct Ht as (-> & -> & -> & ->). destruct Hg as [Hg Hi]. destruct Hi as [Hr _].
    unfold on_graph in Hg; cbn [class_z vx vy vz] in Hg. apply cylinder_graph_z in Hg as (s & Es & Ez).
    unfold cylinder_normal in Hn. cbn [vx vy vz] in Hn. rewrite odiv_nz in Hn by auto. cbn [obind] in Hn.
    rewrite Es in Hn. cbn [obind] in Hn. injection Hn as <-. subst z. unfold moment. vec_unfold. field. auto.
  - destruct Ht as (-> & -> & -> & ->). destruct Hg as [Hg _].
    unfold on_graph in Hg; cbn [class_z vx vy vz] in Hg. unfold torus_z in Hg. unfold torus_normal in Hn. cbn [vx vy vz] in Hn.
    destruct (odiv 1 r) as [c'|]; cbn [obind] in Hg, Hn; [|discriminate].
    destruct (osqrt _) as [g|]; cbn [obind] in Hg, Hn; [|discriminate].
    destruct (odiv _ (1 + g)) as [zy|]; cbn [obind] in Hg, Hn; [|discriminate].
    destruct (osqrt _) as [w|]; cbn [obind] in Hg, Hn; [|discriminate]. injection Hg as Ez.
    destruct (odiv x w) as [d1|] eqn:E1; cbn [obind] in Hn; [|discriminate].
    destruct (odiv _ g) as [d2|]; cbn [obind] in Hn; [|discriminate].
    destruct (odiv ((r' - zy) * d2) w) as [d3|]; cbn [obind] in Hn; [|discriminate].
    destruct (odiv 1 (vlen _)) as [l|]; cbn [obind] in Hn; [|discriminate]. injection Hn as <-.
    apply odiv_some in E1 as (Hw & -> & _). subst z. unfold moment. vec_unfold. field. auto.
Qed.

(** ** Frames *)
Lemma triple_det m a b c : dot (mapply m a) (cross (mapply m b) (mapply m c)) = det3 m * dot a (cross b c).
Proof. destruct m as [[] [] []], a, b, c. unfold det3. vec_unfold. ring. Qed.

Definition frame (s : surface) : R := match sf_transformation s with None => 1 | Some t => det3 (mtrans (rg_mat t)) end.
Lemma frame_sq s : rigid_surface s -> frame s <> 0.
Proof.
  unfold rigid_surface, frame. destruct (sf_transformation s) as [t|]; [|intros; lra].
  intros H E. assert (D := orthogonal_det _ (orthogonal_trans _ H)). rewrite E in D. lra.
Qed.
Lemma local_moment s c a p d : rigid_surface s ->
  moment (local_point s c) (local_vector s a) (local_point s p) (local_vector s d) = frame s * moment c a p d.
Proof.
  unfold rigid_surface, frame, local_point, local_vector, moment. destruct (sf_transformation s) as [t|]; intros H; [|ring].
  rewrite <- mapply_sub, triple_det. f_equal. f_equal. f_equal. vec_ring.
Qed.
Lemma local_dot s a b : rigid_surface s -> dot (local_vector s a) (local_vector s b) = dot a b.
Proof.
  unfold rigid_surface, local_vector. destruct (sf_transformation s) as [t|]; intros H; [|reflexivity].
  apply orthogonal_dot, orthogonal_trans; auto.
Qed.

Lemma surface_frames s r x d : rigid_surface s ->
  r_position (surface_propagate s r) = Some x -> r_direction (surface_propagate s r) = Some d ->
  r_position (surface_local s (apply_inverse (sf_transformation s) r)) = Some (local_point s x) /\
  r_direction (surface_local s (apply_inverse (sf_transformation s) r)) = Some (local_vector s d).
Proof.
  unfold rigid_surface, surface_propagate, local_point, local_vector. intros Hs.
  set (r' := surface_local s _). clearbody r'. destruct (sf_transformation s) as [t|]; cbn [apply_transformation]; [|auto].
  unfold ray_transform; cbn [r_position r_direction].
  destruct (r_position r') as [p|]; [|discriminate]. destruct (r_direction r') as [b|]; [|discriminate]. cbn [omap].
  intros E1 E2. injection E1 as <-. injection E2 as <-. split; f_equal.
  - unfold rigid_point. replace (vsub (vadd (mapply (rg_mat t) p) (rg_shift t)) (rg_shift t)) with (mapply (rg_mat t) p) by vec_ring.
    symmetry. apply orthogonal_inv_l; auto.
  - symmetry. apply orthogonal_inv_l; auto.
Qed.
Lemma surface_frame_dir s r d : rigid_surface s -> r_direction (surface_propagate s r) = Some d ->
  r_direction (surface_local s (apply_inverse (sf_transformation s) r)) = Some (local_vector s d).
Proof.
  unfold rigid_surface, surface_propagate, local_vector. intros Hs.
  set (r' := surface_local s _). clearbody r'. destruct (sf_transformation s) as [t|]; cbn [apply_transformation]; [|auto].
  unfold ray_transform; cbn [r_direction]. destruct (r_direction r') as [b|]; [|discriminate]. cbn [omap].
  intros E2. injection E2 as <-. f_equal. symmetry. apply orthogonal_inv_l; auto.
Qed.
Lemma inverse_frames s r o u : r_position (apply_inverse (sf_transformation s) r) = Some o ->
  r_direction (apply_inverse (sf_transformation s) r) = Some u ->
  exists x d, r_position r = Some x /\ r_direction r = Some d /\ o = local_point s x /\ u = local_vector s d.
Proof.
  unfold local_point, local_vector. destruct (sf_transformation s) as [t|]; cbn [apply_inverse].
  - unfold ray_transform; cbn [r_position r_direction].
    destruct (r_position r) as [x|]; [|discriminate]. destruct (r_direction r) as [d|]; [|discriminate].
    cbn. intros E1 E2. injection E1 as <-. injection E2 as <-. exists x, d. split; [auto|]. split; [auto|]. split; [|reflexivity].
    unfold rigid_point, rigid_inv; cbn [rg_mat rg_shift]. rewrite mapply_sub. vec_ring.
  - intros E1 E2. exists o, u. auto.
Qed.
Lemma surface_index s r :
  r_index (surface_local s (apply_inverse (sf_transformation s) r)) = r_index (surface_propagate s r) /\
  r_index (apply_inverse (sf_transformation s) r) = r_index r.
Proof. unfold surface_propagate. destruct (sf_transformation s); split; reflexivity. Qed.

(** What happens at one surface. *)
Lemma global_step solver k s r b : shaped solver k s -> r_direction (surface_propagate s r) = Some b ->
  exists x d x' n j, r_position r = Some x /\ r_direction r = Some d /\ r_position (surface_propagate s r) = Some x' /\
    class_intercept solver k (local_point s x) (local_vector s d) = Some (local_point s x') /\
    class_normal k (local_point s x') = Some n /\ is_unit n /\
    snells_law (local_vector s d) (r_index r) (r_index (surface_propagate s r)) (mat_is_mirror (sf_material s)) n
      = Some (local_vector s b) /\
    vscale (r_index (surface_propagate s r)) (local_vector s b)
    = vadd (vscale (r_index r) (local_vector s d)) (vscale j n).
Proof.
  intros (Hs & Hr & Hrig) Hb. destruct (surface_index s r) as [I1 I2].
  assert (Hl := surface_frame_dir s r b Hrig Hb).
  destruct (local_step s _ _ Hr Hl) as (o & u & q & n & Ho & Hu & Hq & Hn & Hp & Hsn).
  destruct (inverse_frames s r o u Ho Hu) as (x & d & Hx & Hd & -> & ->).
  assert (exists x', r_position (surface_propagate s r) = Some x').
  { unfold surface_propagate. destruct (sf_transformation s); cbn [apply_transformation ray_transform r_position]; rewrite Hp; cbn; eauto. }
  destruct H as [x' Hx']. destruct (surface_frames s r x' b Hrig Hx' Hb) as [Hp' _]. rewrite Hp in Hp'. injection Hp' as ->.
  rewrite Hs in Hn, Hq. cbn in Hn, Hq.
  assert (Hun := class_unit _ _ _ Hn). rewrite I1, I2 in Hsn.
  destruct (snell_kick _ _ _ _ _ _ Hun Hsn) as [j Hj].
  exists x, d, x', n, j. repeat split; auto. destruct k; exact Hq.
Qed.

(** ** Rotations *)
Lemma turn_step solver c a k s r b : shaped solver k s -> turns k (local_point s c) (local_vector s a) -> met k s r ->
  r_direction (surface_propagate s r) = Some b ->
  exists x d x', r_position r = Some x /\ r_direction r = Some d /\ r_position (surface_propagate s r) = Some x' /\
    r_index (surface_propagate s r) * moment c a x' b = r_index r * moment c a x d.
Proof.
  intros Hs Ht Hm Hb. assert (Hrig := proj2 (proj2 Hs)).
  destruct (global_step solver k s r b Hs Hb) as (x & d & x' & n & j & Hx & Hd & Hx' & Hi & Hn & _ & _ & Hj).
  exists x, d, x'. split; [auto|]. split; [auto|]. split; [auto|].
  assert (Hg : match k with NoSag | ConicSag _ _ | ParabolicSag _ => True
               | _ => on_graph (class_z k) (local_point s x') /\ interior k (vx (local_point s x')) (vy (local_point s x')) end).
  { assert (Hh : hits k s r -> on_graph (class_z k) (local_point s x') /\ interior k (vx (local_point s x')) (vy (local_point s x'))).
    { intros (o & u & q & Ho & Hu & _ & Hq & Hg & Hint).
      destruct (inverse_frames s r o u Ho Hu) as (x0 & d0 & E1 & E2 & -> & ->).
      rewrite Hx in E1; injection E1 as <-. rewrite Hd in E2; injection E2 as <-.
      rewrite (proj1 Hs) in Hq. cbn in Hq.
      assert (Hq' : class_intercept solver k (local_point s x) (local_vector s d) = Some q) by (destruct k; exact Hq).
      rewrite Hi in Hq'. injection Hq' as <-. auto. }
    destruct k; auto. }
  assert (Hm0 := turn_normal k _ _ _ n Ht Hn Hg).
  assert (E := moment_kick _ _ _ _ _ _ _ _ _ Hj Hm0).
  rewrite (moment_line _ _ _ _ _ (class_on_line _ _ _ _ _ Hi)) in E.
  rewrite !local_moment in E by auto. assert (F := frame_sq s Hrig).
  apply (Rmult_eq_reg_l (frame s)); auto. lra.
Qed.

Lemma turn_chain solver c a : forall l r b, turning solver c a l r ->
  r_direction (propagate_rays surface_propagate (Sequence (map snd l)) r) = Some b -> l <> [] ->
  exists x d x', r_position r = Some x /\ r_direction r = Some d /\
    r_position (propagate_rays surface_propagate (Sequence (map snd l)) r) = Some x' /\
    r_index (propagate_rays surface_propagate (Sequence (map snd l)) r) * moment c a x' b = r_index r * moment c a x d.
Proof.
  unfold propagate_rays; cbn [as_list].
  induction l as [|[k s] l IH]; intros r b Ht Hb Hl; [congruence|].
  cbn [turning map propagate_list snd] in *. destruct Ht as (Hs & Htu & Hm & Hrest).
  destruct l as [|ks l].
  - cbn [map propagate_list] in *. exact (turn_step solver c a k s r b Hs Htu Hm Hb).
  - destruct (IH (surface_propagate s r) b Hrest Hb ltac:(discriminate)) as (x & d & x' & Hx & Hd & Hx' & E).
    destruct (turn_step solver c a k s r d Hs Htu Hm Hd) as (x0 & d0 & x0' & Hx0 & Hd0 & Hx0' & E0).
    rewrite Hx in Hx0'. injection Hx0' as <-. exists x0, d0, x'. repeat split; auto. lra.
Qed.

(** ** Shifts *)
Lemma slide_step solver a k s r b : shaped solver k s -> slides k (local_vector s a) ->
  r_direction (surface_propagate s r) = Some b ->
  exists d, r_direction r = Some d /\ r_index (surface_propagate s r) * dot b a = r_index r * dot d a.
Proof.
  intros Hs Ht Hb. assert (Hrig := proj2 (proj2 Hs)).
  destruct (global_step solver k s r b Hs Hb) as (x & d & x' & n & j & Hx & Hd & Hx' & Hi & Hn & _ & _ & Hj).
  exists d. split; [auto|]. rewrite <- (local_dot s b a Hrig), <- (local_dot s d a Hrig).
  apply (dot_kick _ _ _ j _ _ n Hj). set (a' := local_vector s a) in *. clearbody a'.
  destruct k; cbn [slides class_normal] in *; try contradiction.
  - injection Hn as <-. unfold dot; cbn [vx vy vz]. rewrite Ht. ring.
  - unfold cylinder_normal in Hn. destruct (odiv _ _) as [w|]; cbn [obind] in Hn; [|discriminate].
    destruct (osqrt _) as [g|]; cbn [obind] in Hn; [|discriminate]. injection Hn as <-.
    unfold dot; cbn [vx vy vz]. destruct Ht as [-> ->]. ring.
Qed.
Lemma slide_chain solver a : forall l r b, sliding solver a l ->
  r_direction (propagate_rays surface_propagate (Sequence (map snd l)) r) = Some b ->
  exists d, r_direction r = Some d /\
    r_index (propagate_rays surface_propagate (Sequence (map snd l)) r) * dot b a = r_index r * dot d a.
Proof.
  unfold propagate_rays; cbn [as_list].
  induction l as [|[k s] l IH]; intros r b Ht Hb; cbn [map propagate_list snd] in *; [eauto|].
  inversion Ht as [|ks l' [Hs Hsl] Hrest]; subst. cbn [fst snd] in *.
  destruct (IH (surface_propagate s r) b Hrest Hb) as (d & Hd & E).
  destruct (slide_step solver a k s r d Hs Hsl Hd) as (d0 & Hd0 & E0).
  exists d0. split; auto. lra.
Qed.

(** ** Planes *)
Lemma axis_unit s : rigid_surface s -> is_unit (axis s).
Proof.
  unfold rigid_surface, axis, is_unit. destruct (sf_transformation s) as [t|]; intros H; [|vec_unfold; ring].
  unfold rigid_vector. rewrite orthogonal_norm2 by auto. vec_unfold; ring.
Qed.
Lemma local_axis s : rigid_surface s -> local_vector s (axis s) = V3 0 0 1.
Proof.
  unfold rigid_surface, axis, local_vector. destruct (sf_transformation s) as [t|]; intros H; [|reflexivity].
  unfold rigid_vector. apply orthogonal_inv_l; auto.
Qed.
Lemma local_vector_inj s a b : rigid_surface s -> local_vector s a = local_vector s b -> a = b.
Proof.
  unfold rigid_surface, local_vector. destruct (sf_transformation s) as [t|]; intros H E; [|auto].
  rewrite <- (orthogonal_inv_r _ a H), E. apply orthogonal_inv_r; auto.
Qed.
Lemma local_vector_lin s k a b : local_vector s (vsub a (vscale k b)) = vsub (local_vector s a) (vscale k (local_vector s b)).
Proof. unfold local_vector. destruct (sf_transformation s) as [t|]; [|reflexivity]. rewrite mapply_sub, mapply_scale. reflexivity. Qed.
Lemma local_vector_scale s k b : local_vector s (vscale k b) = vscale k (local_vector s b).
Proof. unfold local_vector. destruct (sf_transformation s) as [t|]; [|reflexivity]. apply mapply_scale. Qed.
Lemma local_tangential s a b : rigid_surface s ->
  local_vector s (tangential a b) = tangential (local_vector s a) (local_vector s b).
Proof. intros H. unfold tangential. rewrite local_vector_lin, local_dot; auto. Qed.
Lemma tangential_opp a b : tangential (vopp a) b = tangential a b.
Proof. unfold tangential. vec_ring. Qed.

Lemma plane_index solver a s r : plane solver a s -> 0 < r_index r -> 0 < r_index (surface_propagate s r).
Proof.
  intros (_ & _ & H) Hr.
  assert (X : r_index (surface_propagate s r) = mat_index (sf_material s) (surface_incident s (apply_inverse (sf_transformation s) r))).
  { unfold surface_propagate, surface_local. destruct (sf_transformation s); cbn [apply_transformation ray_transform r_index];
      destruct (sf_aperture s); reflexivity. }
  rewrite X. apply H. unfold surface_incident. destruct (sf_transformation s), (sf_rulings s); exact Hr.
Qed.

Lemma axis_step solver s r b : shaped solver NoSag s -> 0 < r_index r -> 0 < r_index (surface_propagate s r) ->
  r_direction (surface_propagate s r) = Some b ->
  exists d, r_direction r = Some d /\ dot d (axis s) <> 0 /\ is_unit b /\
    vscale (r_index (surface_propagate s r)) (tangential (axis s) b) = vscale (r_index r) (tangential (axis s) d) /\
    if is_mirror s then dot d (axis s) * dot b (axis s) <= 0 else 0 <= dot d (axis s) * dot b (axis s).
Proof.
  intros Hs H1 H2 Hb. assert (Hrig := proj2 (proj2 Hs)).
  destruct (global_step solver NoSag s r b Hs Hb) as (x & d & x' & n & j & Hx & Hd & Hx' & Hi & Hn & Hun & Hsn & _).
  exists d. split; [auto|]. cbn in Hn. injection Hn as <-.
  assert (A : V3 0 0 (-1) = vopp (local_vector s (axis s))) by (rewrite local_axis by auto; apply vec_eq; vec_unfold; ring).
  rewrite A in Hsn, Hun.
  split.
  { rewrite <- (local_dot s d (axis s) Hrig), local_axis by auto. cbn in Hi. unfold flat_intercept in Hi.
    destruct (odiv _ _) eqn:E in Hi; [|discriminate]. apply odiv_some in E as (E & _). vec_unfold. lra. }
  split.
  { assert (U := snells_law_unit _ _ _ _ _ _ Hun Hsn). unfold is_unit, norm2 in *. rewrite local_dot in U; auto. }
  split.
  { assert (P := snells_law_phase _ _ _ _ _ _ Hun Hsn). unfold phase_matched in P. rewrite !tangential_opp in P.
    rewrite <- !local_tangential, <- !local_vector_scale in P by auto. apply local_vector_inj in P; auto. }
  assert (S := snells_law_side _ _ _ _ _ _ H1 H2 Hun Hsn). unfold is_mirror. unfold opposite_side, same_side in S.
  assert (D : forall v, dot (local_vector s v) (vopp (local_vector s (axis s))) = - dot v (axis s)).
  { intros v. rewrite <- (local_dot s v (axis s) Hrig). vec_unfold. ring. }
  rewrite !D in S. destruct (mat_is_mirror (sf_material s)); lra.
Qed.
Lemma plane_step solver a s r b : plane solver a s -> 0 < r_index r -> r_direction (surface_propagate s r) = Some b ->
  exists d, r_direction r = Some d /\ dot d a <> 0 /\ is_unit b /\
    vscale (r_index (surface_propagate s r)) (tangential a b) = vscale (r_index r) (tangential a d) /\
    if is_mirror s then dot d a * dot b a <= 0 else 0 <= dot d a * dot b a.
Proof.
  intros Hp Hr Hb. assert (H2 := plane_index _ _ _ _ Hp Hr). destruct Hp as (Hs & Ha & _).
  destruct (axis_step solver s r b Hs Hr H2 Hb) as (d & Hd & Hn & Hu & Ht & Hside).
  exists d. split; [auto|]. destruct Ha as [-> | ->]; [auto|].
  rewrite !tangential_opp.
  assert (D : forall v, dot v (vopp (axis s)) = - dot v (axis s)) by (intros; vec_unfold; ring).
  rewrite !D. repeat split; auto; [lra|]. destruct (is_mirror s); lra.
Qed.
Lemma plane_chain solver a : forall ss r b, List.Forall (plane solver a) ss -> ss <> [] -> 0 < r_index r ->
  r_direction (propagate_rays surface_propagate (Sequence ss) r) = Some b ->
  exists d, r_direction r = Some d /\ dot d a <> 0 /\ is_unit b /\
    vscale (r_index (propagate_rays surface_propagate (Sequence ss) r)) (tangential a b) = vscale (r_index r) (tangential a d) /\
    0 <= (-1) ^ mirrors ss * (dot d a * dot b a).
Proof.
  unfold propagate_rays; cbn [as_list].
  induction ss as [|s ss IH]; intros r b Hp Hne Hr Hb; [congruence|]. inversion Hp as [|s' ss' Hs Hss]; subst.
  cbn [propagate_list] in *.
  assert (M : mirrors (s :: ss) = ((if is_mirror s then 1 else 0) + mirrors ss)%nat)
    by (unfold mirrors; cbn [filter]; destruct (is_mirror s); reflexivity).
  destruct ss as [|s2 ss].
  - cbn [propagate_list] in *. destruct (plane_step solver a s r b Hs Hr Hb) as (d & Hd & Hn & Hu & Ht & Hside).
    exists d. repeat split; auto. unfold mirrors; cbn [filter]. destruct (is_mirror s); cbn [length pow]; lra.
  - destruct (IH (surface_propagate s r) b Hss ltac:(discriminate) (plane_index _ _ _ _ Hs Hr) Hb) as (d1 & Hd1 & Hn1 & Hu & Ht & Hside).
    destruct (plane_step solver a s r d1 Hs Hr Hd1) as (d & Hd & Hn & _ & Ht' & Hside').
    exists d. split; [auto|]. split; [auto|]. split; [auto|]. split; [congruence|].
    rewrite M, pow_add. set (e := (-1) ^ mirrors (s2 :: ss)) in *. clearbody e.
    assert (Q : 0 < dot d1 a * dot d1 a) by (apply sq_pos; auto).
    apply (Rmult_le_reg_l (dot d1 a * dot d1 a)); auto. rewrite Rmult_0_r.
    destruct (is_mirror s); cbn [pow].
    + assert (0 <= (- (dot d a * dot d1 a)) * (e * (dot d1 a * dot b a))) by (apply Rmult_le_pos; lra). lra.
    + assert (0 <= (dot d a * dot d1 a) * (e * (dot d1 a * dot b a))) by (apply Rmult_le_pos; lra). lra.
Qed.

(** Plane parallel plates. *)
Lemma plate solver a ss r b : List.Forall (plane solver a) ss -> ss <> [] -> 0 < r_index r ->
  (forall d, r_direction r = Some d -> is_unit d) ->
  r_index (propagate_rays surface_propagate (Sequence ss) r) = r_index r ->
  r_direction (propagate_rays surface_propagate (Sequence ss) r) = Some b ->
  exists d, r_direction r = Some d /\ b = if Nat.even (mirrors ss) then d else mirror_image a d.
Proof.
  intros Hp Hne Hr Hu Hi Hb.
  assert (Ua : is_unit a).
  { destruct Hp as [|s ss (Hs & Ha & _) _]; [congruence|]. assert (U := axis_unit s (proj2 (proj2 Hs))).
    destruct Ha as [-> | ->]; auto. unfold is_unit in *. rewrite <- U. vec_unfold. ring. }
  destruct (plane_chain solver a ss r b Hp Hne Hr Hb) as (d & Hd & Hn & Hub & Ht & Hside). exists d. split; [auto|].
  rewrite Hi in Ht.
  assert (T : tangential a b = tangential a d).
  { apply vec_eq.
    - apply (Rmult_eq_reg_l (r_index r)); [|lra]. exact (f_equal vx Ht).
    - apply (Rmult_eq_reg_l (r_index r)); [|lra]. exact (f_equal vy Ht).
    - apply (Rmult_eq_reg_l (r_index r)); [|lra]. exact (f_equal vz Ht). }
  assert (Ud := Hu d Hd).
  destruct (Nat.even (mirrors ss)) eqn:E.
  - apply Nat.even_spec in E as [m E]. rewrite E, pow_1_even, Rmult_1_l in Hside. apply (direction_unique a); auto; lra.
  - assert (O : Nat.odd (mirrors ss) = true) by (unfold Nat.odd; rewrite E; auto).
    apply Nat.odd_spec in O as [m O]. rewrite O in Hside. replace (2 * m + 1)%nat with (S (2 * m)) in Hside by (rewrite Nat.add_1_r; auto).
    rewrite pow_1_odd in Hside.
    assert (Da : dot a a = 1) by exact Ua.
    assert (Dm : dot (mirror_image a d) a = - dot d a).
    { unfold mirror_image. transitivity (dot d a - 2 * dot d a * dot a a); [vec_unfold; ring|]. rewrite Da. ring. }
    apply (direction_unique a); auto.
    + unfold is_unit, norm2, mirror_image in *.
      transitivity (dot d d + 4 * (dot d a * dot d a) * (dot a a - 1)); [vec_unfold; ring|]. rewrite Da, Ud. ring.
    + rewrite T. unfold tangential. rewrite Dm. unfold mirror_image. vec_ring.
    + rewrite Dm. lra.
Qed.

(** ** Flat mirrors *)
Lemma mirror_step solver s r b : flat_mirror solver s -> 0 < r_index r -> (forall d, r_direction r = Some d -> is_unit d) ->
  r_direction (surface_propagate s r) = Some b ->
  exists d, r_direction r = Some d /\ b = mirror_image (axis s) d /\ is_unit b.
Proof.
  intros [Hs Hm] Hr Hu Hb. assert (I := reflects_index s r Hm).
  assert (P : plane solver (axis s) s).
  { split; [auto|]. split; [auto|]. intros r' Hr'. rewrite (proj2 Hm). auto. }
  destruct (plate solver (axis s) [s] r b) as (d & Hd & E); auto; try discriminate.
  exists d. split; [auto|]. unfold mirrors in E; cbn [filter] in E. unfold is_mirror in E. rewrite (proj1 Hm) in E. cbn in E.
  split; [auto|]. destruct (plane_step solver _ s r b P Hr Hb) as (_ & _ & _ & U & _). exact U.
Qed.
Lemma mirror_chain solver : forall ss r b, List.Forall (flat_mirror solver) ss -> 0 < r_index r ->
  (forall d, r_direction r = Some d -> is_unit d) ->
  r_direction (propagate_rays surface_propagate (Sequence ss) r) = Some b ->
  exists d, r_direction r = Some d /\ b = images ss d.
Proof.
  unfold propagate_rays; cbn [as_list].
  induction ss as [|s ss IH]; intros r b Hp Hr Hu Hb; cbn [propagate_list] in *; [eauto|]. inversion Hp as [|s' ss' Hs Hss]; subst.
  destruct (IH (surface_propagate s r) b Hss) as (d1 & Hd1 & E); auto.
  - rewrite (reflects_index s r (proj2 Hs)). auto.
  - intros d1 Hd1. destruct (mirror_step solver s r d1 Hs Hr Hu Hd1) as (_ & _ & _ & U). exact U.
  - destruct (mirror_step solver s r d1 Hs Hr Hu Hd1) as (d & Hd & -> & _). exists d. split; [auto|]. exact E.
Qed.

Lemma corner_images a b c d : is_unit a -> is_unit b -> is_unit c -> dot a b = 0 -> dot b c = 0 -> dot c a = 0 ->
  mirror_image c (mirror_image b (mirror_image a d)) = vopp d.
Proof.
  intros Ha Hb Hc Hab Hbc Hca.
  set (m := M3 a b c).
  assert (O : orthogonal (mtrans m)).
  { unfold orthogonal. rewrite mtrans_invol. unfold is_unit, norm2 in *. unfold m.
    apply mat_eq; apply vec_eq; unfold mid; cbn; first [exact Ha|exact Hb|exact Hc|exact Hab|exact Hbc|exact Hca|idtac];
    destruct a, b, c; unfold dot in *; cbn in *; lra. }
  assert (D := orthogonal_inv_r _ d O). rewrite mtrans_invol in D.
  assert (E : vadd (vscale (dot d a) a) (vadd (vscale (dot d b) b) (vscale (dot d c) c)) = d).
  { etransitivity; [|exact D]. unfold m. destruct a, b, c, d. apply vec_eq; unfold mapply, mtrans, dot; cbn; ring. }
  assert (A : forall p q w, mirror_image p w = vsub w (vscale (2 * dot w p) p) /\ dot (mirror_image q w) p = dot w p - 2 * dot w q * dot q p)
    by (intros; split; [reflexivity|unfold mirror_image; vec_unfold; ring]).
  assert (Hba : dot b a = 0) by (rewrite <- Hab; vec_unfold; ring).
  assert (Hac : dot a c = 0) by (rewrite <- Hca; vec_unfold; ring).
  rewrite (proj1 (A c c _)), !(proj2 (A c _ _)), Hac, Hbc, (proj1 (A b b _)), (proj2 (A b a _)), Hab, (proj1 (A a a _)).
  transitivity (vsub d (vscale 2 (vadd (vscale (dot d a) a) (vadd (vscale (dot d b) b) (vscale (dot d c) c))))); [vec_ring|].
  rewrite E. vec_ring.
Qed.
Lemma corner solver s1 s2 s3 r b : List.Forall (flat_mirror solver) [s1; s2; s3] ->
  dot (axis s1) (axis s2) = 0 -> dot (axis s2) (axis s3) = 0 -> dot (axis s3) (axis s1) = 0 ->
  0 < r_index r -> (forall d, r_direction r = Some d -> is_unit d) ->
  r_direction (propagate_rays surface_propagate (Sequence [s1; s2; s3]) r) = Some b ->
  r_direction r = Some (vopp b).
Proof.
  intros H H12 H23 H31 Hr Hu Hb.
  destruct (mirror_chain solver _ _ _ H Hr Hu Hb) as (d & Hd & E). cbn in E.
  rewrite corner_images in E; auto.
  - rewrite Hd, E. f_equal. vec_ring.
  - inversion H as [|? ? F1 F2]; subst. apply axis_unit. apply F1.
  - inversion H as [|? ? F1 F2]; subst. inversion F2 as [|? ? F3 F4]; subst. apply axis_unit. apply F3.
  - inversion H as [|? ? F1 F2]; subst. inversion F2 as [|? ? F3 F4]; subst. inversion F4 as [|? ? F5 F6]; subst. apply axis_unit. apply F5.
Qed.
