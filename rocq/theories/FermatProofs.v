(** Optical lengths. *)
From Coq Require Import Reals Lra Psatz List.
From Coquelicot Require Import Coquelicot.
From Verif Require Import Vec VecLemmas Num NumLemmas RayModel SnellModel SnellSpec SnellProofs SurfaceModel
  SagModel SagSpec SagNormalProofs SagInterceptProofs CurvedSagProofs SequenceSpec SequenceProofs FocusSpec FocusProofs
  InvariantSpec InvariantProofs FermatSpec.
Import ListNotations.
Open Scope R_scope.

Ltac derivatives := repeat match goal with
  | H : is_derive _ 0 ?d |- context [Derive ?g 0] => replace (Derive g 0) with (d : R) by (symmetry; apply is_derive_unique; exact H)
  end.
(** ** Tangents *)
Lemma same_derivative (f g : R -> R) (df dg : R) : locally 0 (fun t => f t = g t) -> is_derive f 0 df -> is_derive g 0 dg -> df = dg.
Proof.
  intros L F G. assert (H := is_derive_ext_loc f g 0 df L F).
  apply is_derive_unique in H. apply is_derive_unique in G. congruence.
Qed.
Lemma derive_sum_sq (a b : R -> R) (a' b' : R) : is_derive a 0 a' -> is_derive b 0 b' ->
  is_derive (fun t => a t * a t + b t * b t) 0 (2 * (a 0 * a' + b 0 * b')).
Proof.
  intros A B. auto_derive.
  - repeat split; auto; eexists; eassumption.
  - derivatives. ring.
Qed.
Lemma derive_square (a : R -> R) (a' : R) : is_derive a 0 a' -> is_derive (fun t => a t * a t) 0 (2 * (a 0 * a')).
Proof.
  intros A. auto_derive; [repeat split; auto; eexists; eassumption|]. derivatives. ring.
Qed.
Lemma locally_radicand (f : R -> R) q (d : R) : is_derive f 0 d -> 0 < 1 - q * f 0 -> locally 0 (fun t => 0 < 1 - q * f t).
Proof.
  intros D H. apply (locally_pos (fun t => 1 - q * f t)); [|exact H].
  apply (ex_derive_continuous (fun t => 1 - q * f t)). auto_derive. exists d; exact D.
Qed.

Lemma conic_tangent r k (a b z : R -> R) (a' b' z' : R) p n : vx p = a 0 -> vy p = b 0 -> interior (ConicSag r k) (a 0) (b 0) ->
  is_derive a 0 a' -> is_derive b 0 b' -> is_derive z 0 z' -> locally 0 (fun t => conic_z r k (a t) (b t) = Some (z t)) ->
  conic_normal r k p = Some n -> dot n (V3 a' b' z') = 0.
Proof.
  intros Px Py [Hr Hi] A B Z L Hn. assert (Hp := conic_interior r k _ _ Hr Hi).
  assert (D := derive_sum_sq a b a' b' A B).
  set (q := (1 + k) * (1 / r * (1 / r))) in *.
  assert (LP := locally_radicand (fun t => a t * a t + b t * b t) q _ D Hp).
  assert (DP := derive_profile (1 / r) q (fun t => a t * a t + b t * b t) 0 _ Hp D). cbv beta in DP.
  assert (E : z' = 1 / r * (2 * (a 0 * a' + b 0 * b')) / (2 * sqrt (1 - q * (a 0 * a 0 + b 0 * b 0)))).
  { apply (same_derivative z (fun t => profile (1 / r) q (a t * a t + b t * b t))); auto.
    generalize (filter_and _ _ L LP); apply filter_imp. intros t [E1 E2].
    unfold q in E2. rewrite conic_z_profile in E1 by (auto; lra). injection E1 as <-. reflexivity. }
  unfold conic_normal in Hn. rewrite odiv_nz in Hn by auto. cbn [obind] in Hn. fold q in Hn. rewrite Px, Py in Hn.
  rewrite osqrt_nonneg in Hn by lra. cbn [obind] in Hn.
  set (g := sqrt _) in *. assert (Hg : 0 < g) by (apply sqrt_lt_R0; auto).
  rewrite !(odiv_nz _ g) in Hn by lra. cbn [obind] in Hn.
  destruct (odiv 1 (vlen _)) as [w|]; cbn [obind] in Hn; [|discriminate]. injection Hn as <-.
  rewrite dot_scale_l. unfold dot; cbn [vx vy vz]. rewrite E. field. repeat split; first [assumption|apply Rgt_not_eq; assumption].
Qed.

Lemma cylinder_tangent r (a b z : R -> R) (a' b' z' : R) p n : vx p = a 0 -> interior (CylindricalSag r) (a 0) (b 0) ->
  is_derive a 0 a' -> is_derive z 0 z' -> locally 0 (fun t => cylinder_z r (a t) (b t) = Some (z t)) ->
  cylinder_normal r p = Some n -> dot n (V3 a' b' z') = 0.
Proof.
  intros Px [Hr Hi] A Z L Hn. assert (Hp := cylinder_interior r _ Hr Hi).
  assert (D' : is_derive (fun t => a t * a t) 0 (2 * (a 0 * a'))).
  { exact (derive_square a a' A). }
  set (q := 1 / r * (1 / r)) in *.
  assert (LP := locally_radicand (fun t => a t * a t) q _ D' Hp).
  assert (DP := derive_profile (1 / r) q (fun t => a t * a t) 0 _ Hp D'). cbv beta in DP.
  assert (E : z' = 1 / r * (2 * (a 0 * a')) / (2 * sqrt (1 - q * (a 0 * a 0)))).
  { apply (same_derivative z (fun t => profile (1 / r) q (a t * a t))); auto.
    generalize (filter_and _ _ L LP); apply filter_imp. intros t [E1 E2].
    unfold q in E2. rewrite cylinder_z_profile in E1 by (auto; lra). injection E1 as <-. reflexivity. }
  unfold cylinder_normal in Hn. rewrite Px, odiv_nz in Hn by auto. cbn [obind] in Hn.
  replace (1 - a 0 / r * (a 0 / r)) with (1 - q * (a 0 * a 0)) in Hn by (unfold q; field; auto).
  rewrite osqrt_nonneg in Hn by lra. cbn [obind] in Hn. injection Hn as <-.
  set (g := sqrt _) in *. assert (Hg : 0 < g) by (apply sqrt_lt_R0; auto).
  unfold dot; cbn [vx vy vz]. rewrite E. field. repeat split; first [assumption|apply Rgt_not_eq; assumption].
Qed.

Lemma torus_tangent r R' (a b z : R -> R) (a' b' z' : R) p n : vx p = a 0 -> vy p = b 0 -> interior (ToroidalSag r R') (a 0) (b 0) ->
  is_derive a 0 a' -> is_derive b 0 b' -> is_derive z 0 z' -> locally 0 (fun t => torus_z r R' (a t) (b t) = Some (z t)) ->
  torus_normal r R' p = Some n -> dot n (V3 a' b' z') = 0.
Proof.
  intros Px Py (Hr & Hy & Hx) A B Z L Hn. assert (Hp := cylinder_interior r _ Hr Hy).
  assert (D : is_derive (fun t => b t * b t) 0 (2 * (b 0 * b'))).
  { exact (derive_square b b' B). }
  set (c := 1 / r) in *. set (q := c * c) in *.
  assert (LP := locally_radicand (fun t => b t * b t) q _ D Hp). cbv beta in LP.
  assert (DP := derive_profile c q (fun t => b t * b t) 0 _ Hp D). cbv beta in DP.
  set (zy := fun t => profile c q (b t * b t)) in *.
  set (g := sqrt (1 - q * (b 0 * b 0))) in *. assert (Hg : 0 < g) by (apply sqrt_lt_R0; auto).
  set (w := c * (2 * (b 0 * b')) / (2 * g)) in *.
  set (F := (R' - zy 0) * (R' - zy 0) - a 0 * a 0).
  assert (Ezy : zy 0 = arc r (b 0)) by (unfold zy, c, q; apply arc_profile; auto).
  assert (HF : 0 < F) by (unfold F; rewrite Ezy; lra).
  set (f := sqrt F). assert (Hf : 0 < f) by (apply sqrt_lt_R0; auto).
  assert (DS : is_derive (fun t => (R' - zy t) * (R' - zy t) - a t * a t) 0 (- (2 * (R' - zy 0) * w) - 2 * a 0 * a')).
  { auto_derive.
    - repeat split; auto; eexists; eassumption.
    - derivatives. ring. }
  assert (LS : locally 0 (fun t => 0 < (R' - zy t) * (R' - zy t) - a t * a t)).
  { apply (locally_pos (fun t => (R' - zy t) * (R' - zy t) - a t * a t)); [|exact HF].
    apply (ex_derive_continuous (fun t => (R' - zy t) * (R' - zy t) - a t * a t)). eexists; exact DS. }
  assert (DZ : is_derive (fun t => R' - sqrt ((R' - zy t) * (R' - zy t) - a t * a t)) 0 (((R' - zy 0) * w + a 0 * a') / f)).
  { assert (D3 : is_derive sqrt F (/ (2 * f))) by (auto_derive; [exact HF|unfold f; ring]).
    eapply is_derive_eq.
    - apply derive_rsub. apply (is_derive_comp sqrt (fun t => (R' - zy t) * (R' - zy t) - a t * a t)); [exact D3|exact DS].
    - unfold scal, mult; simpl; unfold mult; simpl. field. lra. }
  assert (E : z' = ((R' - zy 0) * w + a 0 * a') / f).
  { apply (same_derivative z (fun t => R' - sqrt ((R' - zy t) * (R' - zy t) - a t * a t))); auto.
    generalize (filter_and _ _ L (filter_and _ _ LP LS)); apply filter_imp. intros t (E1 & E2 & E3).
    assert (Hyt : b t * b t < r * r).
    { unfold q, c in E2. assert (Hr2 := sq_pos r Hr).
      apply Rmult_lt_compat_r with (r := r * r) in E2; auto.
      replace ((1 - 1 / r * (1 / r) * (b t * b t)) * (r * r)) with (r * r - b t * b t) in E2 by (field; auto). lra. }
    unfold zy in E3. unfold q, c in E3. rewrite torus_z_some in E1; auto.
    - injection E1 as <-. reflexivity.
    - rewrite arc_profile in E3 by auto. lra. }
  unfold torus_normal in Hn. rewrite Px, Py in Hn. rewrite odiv_nz in Hn by auto. cbn [obind] in Hn. fold c in Hn. fold q in Hn.
  rewrite osqrt_nonneg in Hn by lra. cbn [obind] in Hn. fold g in Hn.
  rewrite (odiv_nz _ (1 + g)) in Hn by lra. cbn [obind] in Hn.
  change (c * (b 0 * b 0) / (1 + g)) with (zy 0) in Hn. fold F in Hn.
  rewrite osqrt_nonneg in Hn by lra. cbn [obind] in Hn. fold f in Hn.
  rewrite !(odiv_nz _ f) in Hn by lra. cbn [obind] in Hn. rewrite (odiv_nz _ g) in Hn by lra. cbn [obind] in Hn.
  rewrite !(odiv_nz _ f) in Hn by lra. cbn [obind] in Hn.
  destruct (odiv 1 (vlen _)) as [v|]; cbn [obind] in Hn; [|discriminate]. injection Hn as <-.
  rewrite dot_scale_l. unfold dot; cbn [vx vy vz]. rewrite E. unfold w. clearbody f g. field. repeat split; apply Rgt_not_eq; assumption.
Qed.

(** A curve in a surface is perpendicular to the normal. *)
Lemma class_tangent k (c : R -> vec3) x v n : interior k (vx x) (vy x) -> moves c x v ->
  locally 0 (fun t => on_graph (class_z k) (c t)) -> class_normal k x = Some n -> dot n v = 0.
Proof.
  intros Hi (H0 & A & B & Z) L Hn. unfold on_graph in L. replace v with (V3 (vx v) (vy v) (vz v)) by (destruct v; reflexivity).
  rewrite <- H0 in Hi.
  assert (Px : vx x = vx (c 0)) by (rewrite H0; reflexivity). assert (Py : vy x = vy (c 0)) by (rewrite H0; reflexivity).
  destruct k as [|r|r k|f|r|r r']; cbn [class_z class_normal] in L, Hn.
  - injection Hn as <-. unfold dot; cbn [vx vy vz].
    assert (vz v = 0); [|lra].
    apply (same_derivative (fun t => vz (c t)) (fun _ => 0)); auto; [|apply is_derive_Reals, derivable_pt_lim_const].
    revert L; apply filter_imp. intros t E. injection E as E. auto.
  - apply (conic_tangent r 0 (fun t => vx (c t)) (fun t => vy (c t)) (fun t => vz (c t)) _ _ _ x); auto.
    + apply sphere_interior; exact Hi.
    + revert L; apply filter_imp. intros t E. rewrite <- sphere_z_conic. exact E.
    + rewrite <- sphere_normal_conic; auto. rewrite H0 in Hi. exact Hi.
  - apply (conic_tangent r k (fun t => vx (c t)) (fun t => vy (c t)) (fun t => vz (c t)) _ _ _ x); auto.
  - apply (conic_tangent (2 * f) (-1) (fun t => vx (c t)) (fun t => vy (c t)) (fun t => vz (c t)) _ _ _ x); auto.
    + apply parabola_interior; exact Hi.
    + rewrite <- parabola_normal_conic; auto.
  - apply (cylinder_tangent r (fun t => vx (c t)) (fun t => vy (c t)) (fun t => vz (c t)) _ _ _ x); auto.
  - apply (torus_tangent r r' (fun t => vx (c t)) (fun t => vy (c t)) (fun t => vz (c t)) _ _ _ x); auto.
Qed.

(** Curves in the coordinates of a surface. *)
Lemma derive_row (f g h : R -> R) (f' g' h' a b c u v w : R) : is_derive f 0 f' -> is_derive g 0 g' -> is_derive h 0 h' ->
  is_derive (fun t => a * (f t - u) + b * (g t - v) + c * (h t - w)) 0 (a * f' + b * g' + c * h').
Proof. intros A B Z. auto_derive; [repeat split; auto; eexists; eassumption|derivatives; ring]. Qed.
Lemma derive_norm2 (f1 g1 h1 f2 g2 h2 : R -> R) (f1' g1' h1' f2' g2' h2' : R) : is_derive f1 0 f1' -> is_derive g1 0 g1' -> is_derive h1 0 h1' ->
  is_derive f2 0 f2' -> is_derive g2 0 g2' -> is_derive h2 0 h2' ->
  is_derive (fun t => (f2 t - f1 t) * (f2 t - f1 t) + (g2 t - g1 t) * (g2 t - g1 t) + (h2 t - h1 t) * (h2 t - h1 t)) 0
    (2 * ((f2 0 - f1 0) * (f2' - f1') + (g2 0 - g1 0) * (g2' - g1') + (h2 0 - h1 0) * (h2' - h1'))).
Proof. intros A1 B1 Z1 A2 B2 Z2. auto_derive; [repeat split; auto; eexists; eassumption|derivatives; ring]. Qed.
Lemma moves_local s c x v : moves c x v -> moves (fun t => local_point s (c t)) (local_point s x) (local_vector s v).
Proof.
  unfold moves, local_point, local_vector. intros (H0 & A & B & Z). split; [rewrite H0; reflexivity|].
  destruct (sf_transformation s) as [t|]; [|auto]. set (m := mtrans (rg_mat t)). set (h := rg_shift t). clearbody m h.
  destruct m as [[a1 a2 a3] [b1 b2 b3] [c1 c2 c3]]. unfold mapply, dot, vsub; cbn [vx vy vz mr1 mr2 mr3].
  split; [|split]; exact (derive_row (fun t => vx (c t)) (fun t => vy (c t)) (fun t => vz (c t)) _ _ _ _ _ _ _ _ _ A B Z).
Qed.

(** ** The length of a segment *)
Lemma segment_derive c1 c2 x1 x2 v1 v2 d T : moves c1 x1 v1 -> moves c2 x2 v2 -> is_unit d -> 0 < T -> x2 = vadd x1 (vscale T d) ->
  is_derive (fun t => vlen (vsub (c2 t) (c1 t))) 0 (dot d (vsub v2 v1)).
Proof.
  intros (E1 & A1 & B1 & Z1) (E2 & A2 & B2 & Z2) U HT E.
  assert (N : norm2 (vsub (c2 0) (c1 0)) = T * T).
  { rewrite E1, E2, E. replace (vsub (vadd x1 (vscale T d)) x1) with (vscale T d) by vec_ring. rewrite norm2_scale, U. ring. }
  unfold vlen.
  assert (D : is_derive (fun t => norm2 (vsub (c2 t) (c1 t))) 0 (2 * T * dot d (vsub v2 v1))).
  { eapply is_derive_eq; [exact (derive_norm2 _ _ _ _ _ _ _ _ _ _ _ _ A1 B1 Z1 A2 B2 Z2)|]. cbv beta.
    rewrite E1, E2, E. unfold dot, vsub, vadd, vscale; cbn [vx vy vz]. ring. }
  assert (P : 0 < norm2 (vsub (c2 0) (c1 0))) by (rewrite N; nra).
  assert (S : is_derive sqrt (norm2 (vsub (c2 0) (c1 0))) (/ (2 * T))).
  { rewrite N. assert (0 < T * T) by nra. auto_derive; [auto|]. rewrite sqrt_square by lra. field; lra. }
  eapply is_derive_eq; [apply (is_derive_comp sqrt (fun t => norm2 (vsub (c2 t) (c1 t)))); [exact S|exact D]|].
  unfold scal, mult; simpl; unfold mult; simpl. field. lra.
Qed.

(** ** One surface *)
Lemma step_tangent solver k s r b x v c : shaped solver k s -> r_direction (surface_propagate s r) = Some b ->
  r_position (surface_propagate s r) = Some x -> moves c x v -> stays_on k s c ->
  interior k (vx (local_point s x)) (vy (local_point s x)) ->
  exists d, r_direction r = Some d /\ r_index (surface_propagate s r) * dot b v = r_index r * dot d v /\ is_unit b.
Proof.
  intros Hs Hb Hx Hm Hst Hi. assert (Hrig := proj2 (proj2 Hs)).
  destruct (global_step solver k s r b Hs Hb) as (x0 & d & x' & n & j & Hx0 & Hd & Hx' & _ & Hn & Hun & Hsn & Hj).
  rewrite Hx in Hx'. injection Hx' as <-. exists d. split; [auto|].
  assert (T := class_tangent k _ _ _ n Hi (moves_local s c x v Hm) Hst Hn).
  rewrite <- (local_dot s b v Hrig), <- (local_dot s d v Hrig). split; [exact (dot_kick _ _ _ j _ _ n Hj T)|].
  assert (U := snells_law_unit _ _ _ _ _ _ Hun Hsn). unfold is_unit, norm2 in *. rewrite local_dot in U by auto. exact U.
Qed.

(** ** The whole path *)
Lemma forward_direction r rays e : forward r rays e -> exists x d, r_position r = Some x /\ r_direction r = Some d.
Proof.
  destruct rays as [|r' rays]; cbn [forward].
  - intros (x & d & t & Hx & Hd & _). eauto.
  - intros [(p & _ & x & d & t & Hx & Hd & _) _]. eauto.
Qed.

Lemma forward_last : forall l r e, forward r (accumulate_rays surface_propagate (Sequence l) r) e ->
  exists b, r_direction (propagate_rays surface_propagate (Sequence l) r) = Some b.
Proof.
  induction l as [|s l IH]; intros r e H.
  - destruct H as (x & d & t & _ & Hd & _). exists d. exact Hd.
  - rewrite accumulate_cons in H. destruct H as [_ H]. exact (IH _ _ H).
Qed.

Lemma derive_scale_add n (f g : R -> R) (df dg : R) : is_derive f 0 df -> is_derive g 0 dg ->
  is_derive (fun t => n * f t + g t) 0 (n * df + dg).
Proof.
  intros F G. auto_derive; [split; [eexists; exact F|split; [eexists; exact G|auto]]|].
  derivatives. ring.
Qed.

Lemma variation solver : forall l r x d c0 v0 cs e ce ve b,
  List.Forall (fun ks => shaped solver (fst ks) (snd ks)) l ->
  r_position r = Some x -> r_direction r = Some d -> is_unit d ->
  forward r (accumulate_rays surface_propagate (Sequence (map snd l)) r) e ->
  varied l (accumulate_rays surface_propagate (Sequence (map snd l)) r) cs ->
  moves c0 x v0 -> moves ce e ve ->
  r_direction (propagate_rays surface_propagate (Sequence (map snd l)) r) = Some b ->
  is_derive (fun t => optical_length (r_index r) (c0 t)
      (combine (map r_index (accumulate_rays surface_propagate (Sequence (map snd l)) r)) (map (fun c => c t) cs)) (ce t)) 0
    (r_index (propagate_rays surface_propagate (Sequence (map snd l)) r) * dot b ve - r_index r * dot d v0).
Proof.
  induction l as [|[k s] l IH]; intros r x d c0 v0 cs e ce ve b Hl Hx Hd Hu Hf Hv H0 He Hb.
  - cbn in Hf, Hv, Hb |- *. destruct cs; [|contradiction]. cbn.
    destruct Hf as (x1 & d1 & T & Hx1 & Hd1 & HT & E). rewrite Hx in Hx1. injection Hx1 as <-.
    rewrite Hd in Hd1, Hb. injection Hd1 as <-. injection Hb as <-.
    assert (S := segment_derive c0 ce x e v0 ve d T H0 He Hu HT E).
    eapply is_derive_eq; [apply (is_derive_scal (fun t => vlen (vsub (ce t) (c0 t)))); exact S|].
    rewrite dot_sub_r. unfold scal, mult; simpl; unfold mult; simpl. ring.
  - cbn [map snd] in *. rewrite accumulate_cons in *. set (r' := surface_propagate s r) in *.
    change (propagate_rays surface_propagate (Sequence (s :: map snd l)) r)
      with (propagate_rays surface_propagate (Sequence (map snd l)) r') in *.
    apply Forall_cons_iff in Hl. destruct Hl as [Hs Hl]. cbn [fst snd] in Hs.
    cbn [forward] in Hf. destruct Hf as [(p & Hp & x1 & d1 & T & Hx1 & Hd1 & HT & E) Hf].
    rewrite Hx in Hx1. injection Hx1 as <-. rewrite Hd in Hd1. injection Hd1 as <-.
    destruct cs as [|c cs]; [contradiction|]. cbn [varied] in Hv. destruct Hv as [(p' & v & Hp' & Hm & Hst & Hi) Hv].
    rewrite Hp in Hp'. injection Hp' as <-.
    destruct (forward_direction _ _ _ Hf) as (p2 & d' & Hp2 & Hd'). clear p2 Hp2.
    destruct (step_tangent solver k s r d' p v c Hs Hd' Hp Hm Hst Hi) as (d2 & Hd2 & K & Hu').
    rewrite Hd in Hd2. injection Hd2 as <-. fold r' in K.
    assert (IHr := IH r' p d' c v cs e ce ve b Hl Hp Hd' Hu' Hf Hv Hm He Hb).
    assert (S := segment_derive c0 c x p v0 v d T H0 Hm Hu HT E).
    cbn [map combine optical_length].
    eapply is_derive_eq; [exact (derive_scale_add _ _ _ _ _ S IHr)|]. rewrite dot_sub_r. lra.
Qed.

(** ** Planes *)
Lemma cauchy d a : is_unit d -> dot d a <= vlen a.
Proof.
  intros U. assert (H := dot_sq_le d a). rewrite U, Rmult_1_l in H. unfold vlen.
  destruct (Rle_dec (dot d a) 0) as [N|P]; [assert (Q := sqrt_pos (norm2 a)); lra|].
  rewrite <- (sqrt_square (dot d a)) by lra. apply sqrt_le_1; [nra|apply norm2_nonneg|exact H].
Qed.
Lemma cauchy_eq d a : is_unit d -> dot d a = vlen a -> a = vscale (vlen a) d.
Proof.
  intros U E. assert (N : vlen a * vlen a = norm2 a) by (unfold vlen; apply sqrt_def, norm2_nonneg).
  assert (Z : norm2 (vsub a (vscale (vlen a) d)) = 0).
  { transitivity (norm2 a - 2 * vlen a * dot d a + vlen a * vlen a * norm2 d); [vec_unfold; ring|].
    rewrite U, E, <- N. ring. }
  apply norm2_zero in Z. transitivity (vadd (vsub a (vscale (vlen a) d)) (vscale (vlen a) d)); [vec_ring|]. rewrite Z. vec_ring.
Qed.
Lemma local_point_line s x T d : local_point s (vadd x (vscale T d)) = vadd (local_point s x) (vscale T (local_vector s d)).
Proof. unfold local_point, local_vector. destruct (sf_transformation s) as [t|]; [|reflexivity]. rewrite !mapply_sub, mapply_add, mapply_scale. vec_ring. Qed.
Lemma local_point_sub s x y : vsub (local_point s x) (local_point s y) = local_vector s (vsub x y).
Proof. unfold local_point, local_vector. destruct (sf_transformation s) as [t|]; [|reflexivity]. rewrite !mapply_sub. vec_ring. Qed.

Lemma plane_kick solver s r b : shaped solver NoSag s -> r_direction (surface_propagate s r) = Some b ->
  exists d p, r_direction r = Some d /\ r_position (surface_propagate s r) = Some p /\ in_plane s p /\ is_unit b /\
    vz (local_vector s d) <> 0 /\
    forall y, in_plane s y -> r_index (surface_propagate s r) * dot b (vsub y p) = r_index r * dot d (vsub y p).
Proof.
  intros Hs Hb. assert (Hrig := proj2 (proj2 Hs)).
  destruct (global_step solver NoSag s r b Hs Hb) as (x & d & p & n & j & Hx & Hd & Hp & Hi & Hn & Hun & Hsn & Hj).
  exists d, p. cbn [class_intercept class_normal] in Hi, Hn. injection Hn as <-. split; [auto|]. split; [auto|].
  assert (Hq : in_plane s p) by exact (flat_on_quadric _ _ _ Hi). split; [exact Hq|].
  split; [|split].
  - assert (U := snells_law_unit _ _ _ _ _ _ Hun Hsn). unfold is_unit, norm2 in *. rewrite local_dot in U by auto. exact U.
  - unfold flat_intercept in Hi. intros Z. rewrite Z in Hi.
    unfold odiv in Hi. destruct (Req_EM_T 0 0); [discriminate|congruence].
  - intros y Hy. rewrite <- (local_dot s b _ Hrig), <- (local_dot s d _ Hrig). apply (dot_kick _ _ _ j _ _ _ Hj).
    rewrite <- local_point_sub. unfold in_plane in *. unfold dot, vsub; cbn [vx vy vz]. rewrite Hq, Hy. ring.
Qed.

Lemma plane_once s x d t1 t2 : vz (local_vector s d) <> 0 -> in_plane s (vadd x (vscale t1 d)) -> in_plane s (vadd x (vscale t2 d)) -> t1 = t2.
Proof.
  unfold in_plane. rewrite !local_point_line. cbn [vz vadd vscale]. intros N E1 E2.
  apply (Rmult_eq_reg_r (vz (local_vector s d))); [lra|exact N].
Qed.

Lemma shortest solver : forall ss r x d xs ys e x0,
  List.Forall (shaped solver NoSag) ss -> r_position r = Some x -> r_direction r = Some d -> is_unit d ->
  0 < r_index r -> List.Forall (fun r => 0 < r_index r) (accumulate_rays surface_propagate (Sequence ss) r) ->
  forward r (accumulate_rays surface_propagate (Sequence ss) r) e ->
  map r_position (accumulate_rays surface_propagate (Sequence ss) r) = map Some xs ->
  Forall2 in_plane ss ys ->
  let ns := map r_index (accumulate_rays surface_propagate (Sequence ss) r) in
  optical_length (r_index r) x (combine ns xs) e - r_index r * dot d (vsub x0 x) <= optical_length (r_index r) x0 (combine ns ys) e /\
  (x0 = x -> ys <> xs -> optical_length (r_index r) x (combine ns xs) e < optical_length (r_index r) x0 (combine ns ys) e).
Proof.
  induction ss as [|s ss IH]; intros r x d xs ys e x0 Hs Hx Hd Hu Hn Hns Hf Hxs Hys ns; unfold ns; clear ns.
  - inversion Hys; subst. cbn in Hf, Hxs |- *. destruct xs; [|discriminate]. cbn.
    destruct Hf as (x1 & d1 & T & Hx1 & Hd1 & HT & E). rewrite Hx in Hx1. injection Hx1 as <-. rewrite Hd in Hd1. injection Hd1 as <-.
    split; [|congruence].
    assert (L : vlen (vsub e x) = T).
    { rewrite E. replace (vsub (vadd x (vscale T d)) x) with (vscale T d) by vec_ring. unfold vlen. rewrite norm2_scale.
      rewrite Hu, Rmult_1_r. apply sqrt_square; lra. }
    assert (C := cauchy d (vsub e x0) Hu). rewrite L.
    assert (D : dot d (vsub e x0) = T - dot d (vsub x0 x)).
    { transitivity (T * norm2 d - dot d (vsub x0 x)); [rewrite E; vec_unfold; ring|rewrite Hu; ring]. }
    nra.
  - inversion Hys as [|? y ? ys' Hy Hys']; subst. clear Hys.
    rewrite accumulate_cons in *. set (r' := surface_propagate s r) in *.
    apply Forall_cons_iff in Hs. destruct Hs as [Hs Hss]. apply Forall_cons_iff in Hns. destruct Hns as [Hn' Hns].
    cbn [forward] in Hf. destruct Hf as [(p & Hp & x1 & d1 & T & Hx1 & Hd1 & HT & E) Hf].
    rewrite Hx in Hx1. injection Hx1 as <-. rewrite Hd in Hd1. injection Hd1 as <-.
    destruct xs as [|p' xs]; [discriminate|]. cbn [map] in Hxs. injection Hxs as Hp' Hxs.
    rewrite Hp in Hp'. injection Hp' as <-.
    destruct (forward_direction _ _ _ Hf) as (p2 & d' & Hp2 & Hd'). clear p2 Hp2.
    destruct (plane_kick solver s r d' Hs Hd') as (d2 & p2 & Hd2 & Hp2 & Hpl & Hu' & Hz & K).
    rewrite Hd in Hd2. injection Hd2 as <-. fold r' in Hp2. rewrite Hp in Hp2. injection Hp2 as <-. fold r' in K.
    cbn [map combine optical_length].
    destruct (IH r' p d' xs ys' e y Hss Hp Hd' Hu' Hn' Hns Hf Hxs Hys') as [I1 I2].
    assert (Ky := K y Hy).
    assert (L : vlen (vsub p x) = T).
    { rewrite E. replace (vsub (vadd x (vscale T d)) x) with (vscale T d) by vec_ring. unfold vlen. rewrite norm2_scale.
      rewrite Hu, Rmult_1_r. apply sqrt_square; lra. }
    assert (C := cauchy d (vsub y x0) Hu).
    assert (D : dot d (vsub y x0) = dot d (vsub y p) + T - dot d (vsub x0 x)).
    { transitivity (dot d (vsub y p) + T * norm2 d - dot d (vsub x0 x)); [rewrite E; vec_unfold; ring|rewrite Hu; ring]. }
    rewrite L. split; [nra|]. intros -> Hne.
    assert (D0 : dot d (vsub x x) = 0) by (vec_unfold; ring).
    destruct (Rle_lt_or_eq_dec _ _ C) as [Cl|Ce]; [nra|].
    apply cauchy_eq in Ce; auto. set (w := vlen (vsub y x)) in *.
    assert (Ey : y = vadd x (vscale w d)) by (transitivity (vadd x (vsub y x)); [vec_ring|rewrite Ce; reflexivity]).
    assert (HwT : w = T) by (apply (plane_once s x d); [exact Hz|rewrite <- Ey; exact Hy|rewrite <- E; exact Hpl]).
    assert (Hyp : y = p) by (rewrite Ey, E, HwT; reflexivity).
    assert (I3 := I2 Hyp ltac:(intros Eq; apply Hne; congruence)).
    rewrite HwT. lra.
Qed.

(** ** Corollaries *)
Lemma moves_still x : moves (fun _ => x) x vzero.
Proof. split; [reflexivity|]. split; [|split]; apply (is_derive_const (V := R_NormedModule)). Qed.

Lemma fermat solver l r d cs e :
  List.Forall (fun ks => shaped solver (fst ks) (snd ks)) l ->
  r_direction r = Some d -> is_unit d ->
  forward r (accumulate_rays surface_propagate (Sequence (map snd l)) r) e ->
  varied l (accumulate_rays surface_propagate (Sequence (map snd l)) r) cs ->
  exists x, r_position r = Some x /\
    is_derive (fun t => optical_length (r_index r) x
      (combine (map r_index (accumulate_rays surface_propagate (Sequence (map snd l)) r)) (map (fun c => c t) cs)) e) 0 0.
Proof.
  intros Hl Hd Hu Hf Hv. destruct (forward_direction _ _ _ Hf) as (x & d' & Hx & _). exists x. split; [auto|].
  destruct (forward_last _ _ _ Hf) as [b Hb].
  assert (V := variation solver l r x d (fun _ => x) vzero cs e (fun _ => e) vzero b Hl Hx Hd Hu Hf Hv (moves_still x) (moves_still e) Hb).
  eapply is_derive_eq; [exact V|]. unfold dot, vzero; cbn [vx vy vz]. ring.
Qed.

Lemma malus solver l r x d c0 v0 cs e ce ve b L :
  List.Forall (fun ks => shaped solver (fst ks) (snd ks)) l ->
  r_position r = Some x -> r_direction r = Some d -> is_unit d ->
  forward r (accumulate_rays surface_propagate (Sequence (map snd l)) r) e ->
  varied l (accumulate_rays surface_propagate (Sequence (map snd l)) r) cs ->
  moves c0 x v0 -> moves ce e ve ->
  r_direction (propagate_rays surface_propagate (Sequence (map snd l)) r) = Some b ->
  r_index (propagate_rays surface_propagate (Sequence (map snd l)) r) <> 0 ->
  dot d v0 = 0 ->
  locally 0 (fun t => optical_length (r_index r) (c0 t)
      (combine (map r_index (accumulate_rays surface_propagate (Sequence (map snd l)) r)) (map (fun c => c t) cs)) (ce t) = L) ->
  dot b ve = 0.
Proof.
  intros Hl Hx Hd Hu Hf Hv H0 He Hb Hn Ho HL.
  assert (V := variation solver l r x d c0 v0 cs e ce ve b Hl Hx Hd Hu Hf Hv H0 He Hb).
  assert (E := same_derivative _ (fun _ => L) _ 0 HL V ltac:(apply (is_derive_const (V := R_NormedModule)))).
  rewrite Ho in E. apply (Rmult_eq_reg_l (r_index (propagate_rays surface_propagate (Sequence (map snd l)) r))); [|exact Hn].
  lra.
Qed.

Lemma shortest_path solver ss r x d xs ys e :
  List.Forall (shaped solver NoSag) ss -> r_position r = Some x -> r_direction r = Some d -> is_unit d ->
  0 < r_index r -> List.Forall (fun r => 0 < r_index r) (accumulate_rays surface_propagate (Sequence ss) r) ->
  forward r (accumulate_rays surface_propagate (Sequence ss) r) e ->
  map r_position (accumulate_rays surface_propagate (Sequence ss) r) = map Some xs ->
  Forall2 in_plane ss ys -> ys <> xs ->
  let ns := map r_index (accumulate_rays surface_propagate (Sequence ss) r) in
  optical_length (r_index r) x (combine ns xs) e < optical_length (r_index r) x (combine ns ys) e.
Proof.
  intros Hs Hx Hd Hu Hn Hns Hf Hxs Hys Hne.
  exact (proj2 (shortest solver ss r x d xs ys e x Hs Hx Hd Hu Hn Hns Hf Hxs Hys) eq_refl Hne).
Qed.
