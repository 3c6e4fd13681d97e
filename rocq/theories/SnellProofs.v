From Coq Require Import Reals Lra Psatz.
From Verif Require Import Vec VecLemmas Num NumLemmas SnellModel SnellSpec.
Open Scope R_scope.

(** The result of [snells_law] written with vector operations. *)
Lemma snells_law_some a n1 n2 m u b :
  snells_law a n1 n2 m u = Some b ->
  n1 <> 0 /\ n2 <> 0 /\ 0 <= snell_radicand a n1 n2 u /\
  b = vscale (n1 / n2)
        (vadd a (vscale (- dot a u
             + (if m then - copysign1 (dot a u) else copysign1 (dot a u))
               * sqrt (snell_radicand a n1 n2 u)) u)).
Proof.
  unfold snells_law.
  destruct (Req_EM_T n1 0) as [|H1]; [discriminate|].
  destruct (Req_EM_T n2 0) as [|H2]; [discriminate|].
  destruct (osqrt (snell_radicand a n1 n2 u)) as [s|] eqn:E; [|discriminate].
  apply osqrt_some in E; destruct E as (E1 & E2 & E3 & E4).
  cbn [obind]. intro Hb; inversion Hb; subst b s; clear Hb.
  repeat split; auto.
  destruct m; apply vec_eq; unfold vscale, vadd; cbn [vx vy vz]; ring.
Qed.

Lemma snells_law_defined a n1 n2 m u :
  n1 <> 0 -> n2 <> 0 -> 0 <= snell_radicand a n1 n2 u ->
  exists b, snells_law a n1 n2 m u = Some b.
Proof.
  intros H1 H2 H3. unfold snells_law.
  destruct (Req_EM_T n1 0) as [|_]; [tauto|].
  destruct (Req_EM_T n2 0) as [|_]; [tauto|].
  rewrite osqrt_nonneg by auto. cbn [obind]. eauto.
Qed.

Lemma snells_law_none_iff a n1 n2 m u :
  n1 <> 0 -> n2 <> 0 ->
  (snells_law a n1 n2 m u = None <-> snell_radicand a n1 n2 u < 0).
Proof.
  intros H1 H2. split; intros H.
  - destruct (Rlt_dec (snell_radicand a n1 n2 u) 0) as [|Hn]; auto.
    destruct (snells_law_defined a n1 n2 m u) as [b Hb]; auto; [lra|].
    rewrite Hb in H; discriminate.
  - destruct (snells_law a n1 n2 m u) eqn:E; auto.
    apply snells_law_some in E. lra.
Qed.

Lemma radicand_sq a n1 n2 u :
  n1 <> 0 -> n2 <> 0 ->
  (n1 / n2) * (n1 / n2) * snell_radicand a n1 n2 u
  = 1 - (n1 / n2) * (n1 / n2) * (dot a a - dot a u * dot a u).
Proof. intros; unfold snell_radicand; cbv zeta; field; auto. Qed.

(** Normal component of the result. *)
Lemma snells_law_normal a n1 n2 m u b :
  is_unit u -> snells_law a n1 n2 m u = Some b ->
  dot b u = n1 / n2 * ((if m then - copysign1 (dot a u) else copysign1 (dot a u))
                       * sqrt (snell_radicand a n1 n2 u)).
Proof.
  intros Hu H. apply snells_law_some in H. destruct H as (H1 & H2 & H3 & ->).
  rewrite dot_scale_l, dot_add_l, dot_scale_l.
  unfold is_unit, norm2 in Hu. rewrite Hu. ring.
Qed.

Lemma snells_law_tangential a n1 n2 m u b :
  is_unit u -> snells_law a n1 n2 m u = Some b ->
  tangential u b = vscale (n1 / n2) (tangential u a).
Proof.
  intros Hu H. assert (Hn := snells_law_normal _ _ _ _ _ _ Hu H).
  apply snells_law_some in H. destruct H as (H1 & H2 & H3 & Hb).
  unfold tangential. rewrite Hn, Hb.
  apply vec_eq; unfold vscale, vadd, vsub; cbn [vx vy vz]; ring.
Qed.

Lemma norm2_tangential u a : is_unit u ->
  norm2 a = norm2 (tangential u a) + dot a u * dot a u.
Proof.
  intros Hu. unfold tangential, norm2.
  rewrite dot_sub_l, !dot_sub_r, !dot_scale_l, !dot_scale_r.
  unfold is_unit, norm2 in Hu. rewrite Hu, (dot_comm u a). ring.
Qed.

Lemma norm2_scale k a : norm2 (vscale k a) = k * k * norm2 a.
Proof. vec_unfold; ring. Qed.

Lemma tangential_decomp u a : a = vadd (tangential u a) (vscale (dot a u) u).
Proof. unfold tangential. vec_ring. Qed.

Lemma snells_law_unit a n1 n2 m u b :
  is_unit u -> snells_law a n1 n2 m u = Some b -> is_unit b.
Proof.
  intros Hu H. assert (Ht := snells_law_tangential _ _ _ _ _ _ Hu H).
  assert (Hn := snells_law_normal _ _ _ _ _ _ Hu H).
  apply snells_law_some in H. destruct H as (H1 & H2 & H3 & _).
  unfold is_unit. rewrite (norm2_tangential u b Hu), Ht, Hn, norm2_scale.
  set (s := sqrt (snell_radicand a n1 n2 u)) in *.
  assert (Hs : s * s = snell_radicand a n1 n2 u) by (apply sqrt_def; auto).
  assert (Hc := copysign1_sq (dot a u)).
  replace (n1 / n2 * ((if m then - copysign1 (dot a u) else copysign1 (dot a u)) * s)
           * (n1 / n2 * ((if m then - copysign1 (dot a u) else copysign1 (dot a u)) * s)))
    with ((n1/n2) * (n1/n2) * (s * s) * (copysign1 (dot a u) * copysign1 (dot a u)))
    by (destruct m; ring).
  rewrite Hc, Hs, Rmult_1_r, radicand_sq by auto.
  assert (E := norm2_tangential u a Hu). unfold norm2 at 1 in E.
  replace (dot a a - dot a u * dot a u) with (norm2 (tangential u a)) by lra. ring.
Qed.

Lemma snells_law_phase a n1 n2 m u b :
  is_unit u -> snells_law a n1 n2 m u = Some b -> phase_matched u n1 a n2 b.
Proof.
  intros Hu H. assert (Ht := snells_law_tangential _ _ _ _ _ _ Hu H).
  apply snells_law_some in H. destruct H as (H1 & H2 & _ & _).
  unfold phase_matched. rewrite Ht.
  apply vec_eq; unfold vscale; cbn [vx vy vz]; field; auto.
Qed.

Lemma copysign1_mul_nonneg x : 0 <= x * copysign1 x.
Proof. unfold copysign1; destruct (Rle_dec 0 x); lra. Qed.

Lemma snells_law_side a n1 n2 m u b :
  0 < n1 -> 0 < n2 -> is_unit u -> snells_law a n1 n2 m u = Some b ->
  if m then opposite_side u a b else same_side u a b.
Proof.
  intros H1 H2 Hu H. assert (Hn := snells_law_normal _ _ _ _ _ _ Hu H).
  assert (Hr : 0 < n1 / n2) by (apply Rdiv_lt_0_compat; auto).
  assert (Hs := sqrt_pos (snell_radicand a n1 n2 u)).
  assert (Hc := copysign1_mul_nonneg (dot a u)).
  assert (Hp : 0 <= n1 / n2 * sqrt (snell_radicand a n1 n2 u)) by nra.
  destruct m; unfold opposite_side, same_side; rewrite Hn.
  - replace (dot a u * (n1 / n2 * (- copysign1 (dot a u) * sqrt (snell_radicand a n1 n2 u))))
      with (- ((dot a u * copysign1 (dot a u)) * (n1 / n2 * sqrt (snell_radicand a n1 n2 u))))
      by ring. nra.
  - replace (dot a u * (n1 / n2 * (copysign1 (dot a u) * sqrt (snell_radicand a n1 n2 u))))
      with ((dot a u * copysign1 (dot a u)) * (n1 / n2 * sqrt (snell_radicand a n1 n2 u)))
      by ring. nra.
Qed.

Lemma sq_eq_same_side x y : x * x = y * y -> 0 <= x * y -> x = y.
Proof.
  intros E H. destruct (Req_dec (x + y) 0) as [H0|H0].
  - assert (y = - x) by lra. subst y. assert (x * x = 0) by nra.
    assert (x = 0) by (apply Rsqr_0_uniq; exact H1). lra.
  - apply Rminus_diag_uniq. apply (Rmult_eq_reg_l (x + y)); auto. lra.
Qed.

(** Two unit vectors with the same tangential part and normal components on the
    same side coincide: the spec determines the result. *)
Lemma direction_unique u b b' :
  is_unit u -> is_unit b -> is_unit b' ->
  tangential u b = tangential u b' -> 0 <= dot b u * dot b' u ->
  b = b'.
Proof.
  intros Hu Hb Hb' Ht Hs.
  assert (E : dot b u * dot b u = dot b' u * dot b' u).
  { unfold is_unit in *. rewrite (norm2_tangential u b Hu) in Hb.
    rewrite (norm2_tangential u b' Hu) in Hb'. rewrite Ht in Hb. lra. }
  assert (E2 : dot b u = dot b' u) by (apply sq_eq_same_side; auto).
  rewrite (tangential_decomp u b'), <- Ht, <- E2. apply tangential_decomp.
Qed.

Lemma radicand_equal_index a n u :
  n <> 0 -> is_unit a -> snell_radicand a n n u = dot a u * dot a u.
Proof.
  intros Hn Ha. unfold snell_radicand; cbv zeta. unfold is_unit, norm2 in Ha. rewrite Ha.
  field; auto.
Qed.

Lemma sqrt_sq_copysign x : sqrt (x * x) = copysign1 x * x.
Proof.
  unfold copysign1; destruct (Rle_dec 0 x).
  - rewrite sqrt_square by auto. ring.
  - replace (x * x) with ((- x) * (- x)) by ring. rewrite sqrt_square by lra. ring.
Qed.

Lemma snells_law_reflect a n u :
  n <> 0 -> is_unit u -> is_unit a ->
  snells_law a n n true u = Some (mirror_image u a).
Proof.
  intros Hn Hu Ha.
  destruct (snells_law_defined a n n true u) as [b Hb]; auto.
  { rewrite radicand_equal_index by auto. nra. }
  rewrite Hb. f_equal. apply snells_law_some in Hb.
  destruct Hb as (_ & _ & _ & ->). rewrite radicand_equal_index by auto.
  rewrite sqrt_sq_copysign. unfold mirror_image.
  assert (Hc := copysign1_sq (dot a u)).
  replace (- copysign1 (dot a u) * (copysign1 (dot a u) * dot a u))
    with (- (copysign1 (dot a u) * copysign1 (dot a u)) * dot a u) by ring.
  rewrite Hc.
  apply vec_eq; unfold vscale, vadd, vsub; cbn [vx vy vz]; field; auto.
Qed.

Lemma snells_law_transmit_same a n u :
  n <> 0 -> is_unit a -> snells_law a n n false u = Some a.
Proof.
  intros Hn Ha.
  destruct (snells_law_defined a n n false u) as [b Hb]; auto.
  { rewrite radicand_equal_index by auto. nra. }
  rewrite Hb. f_equal. apply snells_law_some in Hb.
  destruct Hb as (_ & _ & _ & ->). rewrite radicand_equal_index by auto.
  rewrite sqrt_sq_copysign.
  assert (Hc := copysign1_sq (dot a u)).
  replace (copysign1 (dot a u) * (copysign1 (dot a u) * dot a u))
    with ((copysign1 (dot a u) * copysign1 (dot a u)) * dot a u) by ring.
  rewrite Hc.
  apply vec_eq; unfold vscale, vadd, vsub; cbn [vx vy vz]; field; auto.
Qed.

Lemma snells_law_flip_normal a n1 n2 m u :
  dot a u <> 0 -> snells_law a n1 n2 m (vopp u) = snells_law a n1 n2 m u.
Proof.
  intros Ha. unfold snells_law.
  destruct (Req_EM_T n1 0); auto. destruct (Req_EM_T n2 0); auto.
  assert (E : snell_radicand a n1 n2 (vopp u) = snell_radicand a n1 n2 u).
  { unfold snell_radicand; cbv zeta. rewrite dot_opp_r. ring. }
  rewrite E. destruct (osqrt (snell_radicand a n1 n2 u)) as [s|]; auto. cbn [obind].
  rewrite dot_opp_r.
  assert (Ec : copysign1 (- dot a u) = - copysign1 (dot a u)).
  { unfold copysign1. destruct (Rle_dec 0 (- dot a u)), (Rle_dec 0 (dot a u)); lra. }
  rewrite Ec. f_equal. apply vec_eq; unfold vopp; cbn [vx vy vz]; ring.
Qed.

(** Reversibility. *)
Lemma radicand_reversed a n1 n2 m u b :
  is_unit a -> is_unit u ->
  snells_law a n1 n2 m u = Some b ->
  snell_radicand (vopp b) n2 n1 u = (n1 / n2) * (n1 / n2) * (dot a u * dot a u).
Proof.
  intros Ha Hu H. assert (Hb := snells_law_unit _ _ _ _ _ _ Hu H).
  assert (Ht := snells_law_tangential _ _ _ _ _ _ Hu H).
  assert (H' := H). apply snells_law_some in H'. destruct H' as (H1 & H2 & H3 & _).
  unfold snell_radicand; cbv zeta.
  rewrite dot_opp_l, !dot_opp_l, dot_opp_r.
  assert (E1 := norm2_tangential u b Hu). rewrite Ht, norm2_scale in E1.
  assert (E2 := norm2_tangential u a Hu).
  unfold is_unit in *. rewrite Hb in E1. rewrite Ha in E2. fold (norm2 b). rewrite Hb.
  replace (- dot b u * - dot b u) with (1 - n1 / n2 * (n1 / n2) * norm2 (tangential u a)) by lra.
  replace (norm2 (tangential u a)) with (1 - dot a u * dot a u) by lra.
  field; auto.
Qed.

Lemma snells_law_reversible a n1 n2 u b :
  0 < n1 -> 0 < n2 -> is_unit a -> is_unit u -> dot a u <> 0 ->
  0 < snell_radicand a n1 n2 u ->
  snells_law a n1 n2 false u = Some b ->
  snells_law (vopp b) n2 n1 false u = Some (vopp a).
Proof.
  intros H1 H2 Ha Hu Hau Hrad H.
  assert (Hb := snells_law_unit _ _ _ _ _ _ Hu H).
  assert (Hrev := radicand_reversed _ _ _ _ _ _ Ha Hu H).
  destruct (snells_law_defined (vopp b) n2 n1 false u) as [c Hc]; try lra.
  { rewrite Hrev. assert (0 <= (n1 / n2 * dot a u) * (n1 / n2 * dot a u)) by nra. nra. }
  rewrite Hc. f_equal.
  assert (Hcu := snells_law_unit _ _ _ _ _ _ Hu Hc).
  assert (Hct := snells_law_tangential _ _ _ _ _ _ Hu Hc).
  assert (Hbt := snells_law_tangential _ _ _ _ _ _ Hu H).
  assert (Hside := snells_law_side _ _ _ _ _ _ H1 H2 Hu H). simpl in Hside.
  assert (Hside2 := snells_law_side _ _ _ _ _ _ H2 H1 Hu Hc). simpl in Hside2.
  unfold same_side in *.
  assert (Hoa : is_unit (vopp a)).
  { unfold is_unit, norm2. rewrite dot_opp_l, dot_opp_r. unfold is_unit, norm2 in Ha. lra. }
  apply (direction_unique u); auto.
  - assert (Htb : tangential u (vopp b) = vopp (tangential u b)) by (unfold tangential; vec_ring).
    assert (Hta : tangential u (vopp a) = vopp (tangential u a)) by (unfold tangential; vec_ring).
    rewrite Hct, Htb, Hta, Hbt.
    apply vec_eq; unfold vscale, vopp; cbn [vx vy vz]; field; lra.
  - rewrite dot_opp_l in *.
    assert (Hbn := snells_law_normal _ _ _ _ _ _ Hu H). simpl in Hbn.
    assert (Hbnz : dot b u <> 0).
    { rewrite Hbn. apply Rmult_integral_contrapositive_currified.
      - apply Rgt_not_eq, Rdiv_lt_0_compat; auto.
      - apply Rmult_integral_contrapositive_currified.
        + destruct (copysign1_cases (dot a u)) as [->| ->]; lra.
        + apply Rgt_not_eq. apply sqrt_lt_R0; auto. }
    assert (Hab : 0 < dot a u * dot b u).
    { assert (dot a u * dot b u <> 0) by (apply Rmult_integral_contrapositive_currified; auto). lra. }
    (* c.u has the sign of -b.u, i.e. of -a.u *)
    destruct (Rlt_dec 0 (dot a u)); nra.
Qed.

Lemma mirror_image_invol u a : is_unit u -> mirror_image u (mirror_image u a) = a.
Proof.
  intros Hu. unfold mirror_image. unfold is_unit, norm2 in Hu.
  rewrite dot_sub_l, dot_scale_l, Hu. vec_ring.
Qed.

Lemma mirror_image_unit u a : is_unit u -> is_unit a -> is_unit (mirror_image u a).
Proof.
  intros Hu Ha. unfold mirror_image, is_unit, norm2 in *.
  rewrite dot_sub_l, !dot_sub_r, !dot_scale_l, !dot_scale_r, Hu, Ha, (dot_comm u a). ring.
Qed.

(** The radicand in terms of the tangential part. *)
Lemma radicand_spec a n1 n2 u :
  0 < n1 -> 0 < n2 -> is_unit u ->
  n1 * n1 * snell_radicand a n1 n2 u = n2 * n2 - n1 * n1 * norm2 (tangential u a).
Proof.
  intros H1 H2 Hu. unfold snell_radicand; cbv zeta.
  assert (E := norm2_tangential u a Hu). unfold norm2 at 1 in E.
  replace (dot a a) with (norm2 (tangential u a) + dot a u * dot a u) by lra.
  field; lra.
Qed.

Lemma snells_law_unit_iff a n1 n2 mirror u :
  0 < n1 -> 0 < n2 -> is_unit u ->
  (n1 * n1 * norm2 (tangential u a) <= n2 * n2 ->
     exists b, snells_law a n1 n2 mirror u = Some b /\ norm2 b = 1) /\
  (n2 * n2 < n1 * n1 * norm2 (tangential u a) -> snells_law a n1 n2 mirror u = None).
Proof.
  intros H1 H2 Hu. assert (E := radicand_spec a n1 n2 u H1 H2 Hu).
  assert (Hn : 0 < n1 * n1) by nra.
  split; intros H.
  - destruct (snells_law_defined a n1 n2 mirror u) as [b Hb]; try lra; [nra|].
    exists b; split; auto. apply (snells_law_unit a n1 n2 mirror u); auto.
  - apply snells_law_none_iff; try lra. nra.
Qed.

Lemma snells_law_full a n1 n2 (mirror : bool) u b :
  0 < n1 -> 0 < n2 -> is_unit u -> snells_law a n1 n2 mirror u = Some b ->
  vscale n2 (tangential u b) = vscale n1 (tangential u a) /\
  (if mirror then dot a u * dot b u <= 0 else 0 <= dot a u * dot b u).
Proof.
  intros H1 H2 Hu H. split.
  - exact (snells_law_phase _ _ _ _ _ _ Hu H).
  - exact (snells_law_side _ _ _ _ _ _ H1 H2 Hu H).
Qed.

Lemma snells_law_complete a n1 n2 (mirror : bool) u b :
  0 < n1 -> 0 < n2 -> is_unit u -> dot a u <> 0 -> is_unit b ->
  vscale n2 (tangential u b) = vscale n1 (tangential u a) ->
  (if mirror then dot a u * dot b u <= 0 else 0 <= dot a u * dot b u) ->
  snells_law a n1 n2 mirror u = Some b.
Proof.
  intros H1 H2 Hu Hau Hb Hph Hside.
  assert (Ht : tangential u b = vscale (n1 / n2) (tangential u a)).
  { apply vec_eq.
    - apply (f_equal vx) in Hph. unfold vscale in *; cbn [vx vy vz] in *.
      apply (Rmult_eq_reg_l n2); [|lra]. rewrite Hph. field; lra.
    - apply (f_equal vy) in Hph. unfold vscale in *; cbn [vx vy vz] in *.
      apply (Rmult_eq_reg_l n2); [|lra]. rewrite Hph. field; lra.
    - apply (f_equal vz) in Hph. unfold vscale in *; cbn [vx vy vz] in *.
      apply (Rmult_eq_reg_l n2); [|lra]. rewrite Hph. field; lra. }
  assert (Hle : n1 * n1 * norm2 (tangential u a) <= n2 * n2).
  { assert (E := norm2_tangential u b Hu). rewrite Ht, norm2_scale in E.
    unfold is_unit in Hb. rewrite Hb in E.
    assert (Hq : n1 / n2 * (n1 / n2) * norm2 (tangential u a) <= 1) by nra.
    replace (n1 * n1 * norm2 (tangential u a))
      with ((n1 / n2 * (n1 / n2) * norm2 (tangential u a)) * (n2 * n2)) by (field; lra). nra. }
  destruct (proj1 (snells_law_unit_iff a n1 n2 mirror u H1 H2 Hu) Hle) as (c & Hc & Hcu).
  rewrite Hc. f_equal.
  destruct (snells_law_full _ _ _ _ _ _ H1 H2 Hu Hc) as [_ Hcs].
  apply (direction_unique u); auto.
  - rewrite (snells_law_tangential _ _ _ _ _ _ Hu Hc), Ht. reflexivity.
  - destruct (Rlt_dec 0 (dot a u)); destruct mirror;
    destruct (Rle_dec 0 (dot b u)), (Rle_dec 0 (dot c u)); nra.
Qed.

Lemma snells_law_reflect_pos a n u :
  0 < n -> is_unit u -> is_unit a ->
  snells_law a n n true u = Some (vsub a (vscale (2 * dot a u) u)).
Proof. intros; apply snells_law_reflect; auto; lra. Qed.

Lemma snells_law_reversible_spec a n1 n2 u b :
  0 < n1 -> 0 < n2 -> is_unit a -> is_unit u -> dot a u <> 0 ->
  n1 * n1 * norm2 (tangential u a) < n2 * n2 ->
  snells_law a n1 n2 false u = Some b ->
  snells_law (vopp b) n2 n1 false u = Some (vopp a).
Proof.
  intros. apply (snells_law_reversible a n1 n2 u b); auto.
  assert (E := radicand_spec a n1 n2 u H H0 H2).
  assert (Hn : 0 < n1 * n1) by nra. nra.
Qed.

Lemma snells_law_reflect_twice a n u b :
  0 < n -> is_unit a -> is_unit u ->
  snells_law a n n true u = Some b -> snells_law b n n true u = Some a.
Proof.
  intros Hn Ha Hu H. rewrite snells_law_reflect in H by (auto; lra).
  inversion H; subst b.
  rewrite snells_law_reflect; [|lra|auto|apply mirror_image_unit; auto].
  rewrite mirror_image_invol; auto.
Qed.
