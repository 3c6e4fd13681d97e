(** Elementary facts on vectors and orthogonal matrices. *)
From Coq Require Import Reals Lra Psatz.
From Verif Require Import Vec.
Open Scope R_scope.

Ltac vec_unfold := cbv [vadd vsub vopp vscale dot cross norm2 vzero mapply mtrans mmul mid
                        vx vy vz mr1 mr2 mr3] in *.

Lemma vec_eq (a b : vec3) : vx a = vx b -> vy a = vy b -> vz a = vz b -> a = b.
Proof. destruct a, b; simpl; intros -> -> ->; reflexivity. Qed.

Ltac vec_ring := apply vec_eq; vec_unfold; ring.

Lemma dot_comm a b : dot a b = dot b a.
Proof. unfold dot; ring. Qed.
Lemma dot_add_l a b c : dot (vadd a b) c = dot a c + dot b c.
Proof. vec_unfold; ring. Qed.
Lemma dot_sub_l a b c : dot (vsub a b) c = dot a c - dot b c.
Proof. vec_unfold; ring. Qed.
Lemma dot_scale_l k a c : dot (vscale k a) c = k * dot a c.
Proof. vec_unfold; ring. Qed.
Lemma dot_add_r a b c : dot c (vadd a b) = dot c a + dot c b.
Proof. vec_unfold; ring. Qed.
Lemma dot_sub_r a b c : dot c (vsub a b) = dot c a - dot c b.
Proof. vec_unfold; ring. Qed.
Lemma dot_scale_r k a c : dot c (vscale k a) = k * dot c a.
Proof. vec_unfold; ring. Qed.
Lemma dot_opp_l a c : dot (vopp a) c = - dot a c.
Proof. vec_unfold; ring. Qed.
Lemma dot_opp_r a c : dot c (vopp a) = - dot c a.
Proof. vec_unfold; ring. Qed.
Lemma norm2_nonneg a : 0 <= norm2 a.
Proof. unfold norm2, dot; nra. Qed.
Lemma norm2_zero a : norm2 a = 0 -> a = vzero.
Proof.
  destruct a as [x y z]; unfold norm2, dot, vzero; simpl; intros H.
  assert (x = 0) by nra. assert (y = 0) by nra. assert (z = 0) by nra.
  subst; reflexivity.
Qed.
Lemma vopp_invol a : vopp (vopp a) = a.
Proof. vec_ring. Qed.

Lemma vlen_unit a : is_unit a <-> vlen a = 1.
Proof.
  unfold is_unit, vlen; split; intros H.
  - rewrite H; apply sqrt_1.
  - assert (Hn := norm2_nonneg a).
    rewrite <- (sqrt_def (norm2 a) Hn), H; ring.
Qed.

(** Cauchy-Schwarz. *)
Lemma dot_sq_le a b : dot a b * dot a b <= norm2 a * norm2 b.
Proof.
  assert (H : norm2 a * norm2 b - dot a b * dot a b = norm2 (cross a b)).
  { vec_unfold; ring. }
  assert (H2 := norm2_nonneg (cross a b)). lra.
Qed.

Lemma mapply_add m a b : mapply m (vadd a b) = vadd (mapply m a) (mapply m b).
Proof. vec_ring. Qed.
Lemma mapply_sub m a b : mapply m (vsub a b) = vsub (mapply m a) (mapply m b).
Proof. vec_ring. Qed.
Lemma mapply_scale m k a : mapply m (vscale k a) = vscale k (mapply m a).
Proof. vec_ring. Qed.
Lemma mapply_opp m a : mapply m (vopp a) = vopp (mapply m a).
Proof. vec_ring. Qed.
Lemma mapply_mmul a b v : mapply (mmul a b) v = mapply a (mapply b v).
Proof. vec_ring. Qed.
Lemma mapply_mid v : mapply mid v = v.
Proof. vec_ring. Qed.
Lemma mtrans_dot m a b : dot (mapply m a) b = dot a (mapply (mtrans m) b).
Proof. vec_unfold; ring. Qed.

Lemma orthogonal_inv_l m v : orthogonal m -> mapply (mtrans m) (mapply m v) = v.
Proof. intros H. rewrite <- mapply_mmul, H, mapply_mid; reflexivity. Qed.

Lemma orthogonal_dot m a b : orthogonal m -> dot (mapply m a) (mapply m b) = dot a b.
Proof. intros H. rewrite mtrans_dot, orthogonal_inv_l; auto. Qed.

Lemma orthogonal_norm2 m a : orthogonal m -> norm2 (mapply m a) = norm2 a.
Proof. intros H; unfold norm2; apply orthogonal_dot; auto. Qed.

(** A left inverse of a square matrix is a right inverse (orthogonal case). *)
Definition det3 (m : mat3) : R := dot (mr1 m) (cross (mr2 m) (mr3 m)).

Lemma det3_mmul a b : det3 (mmul a b) = det3 a * det3 b.
Proof. unfold det3; vec_unfold; ring. Qed.
Lemma det3_trans a : det3 (mtrans a) = det3 a.
Proof. unfold det3; vec_unfold; ring. Qed.
Lemma det3_mid : det3 mid = 1.
Proof. unfold det3; vec_unfold; ring. Qed.

Definition madj (m : mat3) : mat3 :=
  mtrans (M3 (cross (mr2 m) (mr3 m)) (cross (mr3 m) (mr1 m)) (cross (mr1 m) (mr2 m))).

Lemma mat_eq (a b : mat3) : mr1 a = mr1 b -> mr2 a = mr2 b -> mr3 a = mr3 b -> a = b.
Proof. destruct a, b; simpl; intros -> -> ->; reflexivity. Qed.

Lemma mapply_adj_r m v : mapply m (mapply (madj m) v) = vscale (det3 m) v.
Proof. unfold madj, det3. vec_ring. Qed.

Lemma orthogonal_det m : orthogonal m -> det3 m * det3 m = 1.
Proof.
  intros H. assert (E : det3 (mmul (mtrans m) m) = det3 mid) by (rewrite H; reflexivity).
  rewrite det3_mmul, det3_trans, det3_mid in E. exact E.
Qed.

Lemma orthogonal_inv_r m v : orthogonal m -> mapply m (mapply (mtrans m) v) = v.
Proof.
  intros H. assert (Hd := orthogonal_det m H).
  assert (Hnz : det3 m <> 0) by (intro E; rewrite E in Hd; lra).
  (* v = m w with w = adj m v / det *)
  set (w := vscale (/ det3 m) (mapply (madj m) v)).
  assert (E : v = mapply m w).
  { unfold w. rewrite mapply_scale, mapply_adj_r.
    apply vec_eq; vec_unfold; field; exact Hnz. }
  rewrite E, orthogonal_inv_l; auto.
Qed.

Lemma mtrans_invol m : mtrans (mtrans m) = m.
Proof. destruct m as [[] [] []]; reflexivity. Qed.

Lemma mat_ext m n : (forall v, mapply m v = mapply n v) -> m = n.
Proof.
  intros H. destruct m as [[a b c] [d e f] [g h i]], n as [[a' b' c'] [d' e' f'] [g' h' i']].
  assert (H1 := H (V3 1 0 0)). assert (H2 := H (V3 0 1 0)). assert (H3 := H (V3 0 0 1)).
  vec_unfold. inversion H1; inversion H2; inversion H3.
  apply mat_eq; simpl; apply vec_eq; simpl; lra.
Qed.

Lemma orthogonal_trans m : orthogonal m -> orthogonal (mtrans m).
Proof.
  intros H. unfold orthogonal. apply mat_ext; intro v.
  rewrite mtrans_invol, mapply_mmul, orthogonal_inv_r, mapply_mid; auto.
Qed.

Lemma orthogonal_mmul a b : orthogonal a -> orthogonal b -> orthogonal (mmul a b).
Proof.
  intros Ha Hb. unfold orthogonal. apply mat_ext; intro v.
  assert (E : mtrans (mmul a b) = mmul (mtrans b) (mtrans a)).
  { apply mat_eq; simpl; vec_ring. }
  rewrite E, !mapply_mmul, orthogonal_inv_l, orthogonal_inv_l, mapply_mid; auto.
Qed.

Lemma orthogonal_mid : orthogonal mid.
Proof. unfold orthogonal. apply mat_eq; vec_ring. Qed.
