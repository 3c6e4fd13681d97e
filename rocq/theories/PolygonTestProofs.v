From Coq Require Import Reals Lra Psatz List Bool ZArith Lia.
From Verif Require Import Vec VecLemmas Num NumLemmas RayModel SurfaceModel ApertureModel ApertureSpec
  ApertureProofs ApertureProofs2 SectorProofs WireProofs PolygonTest.
Import ListNotations.
Open Scope R_scope.

Lemma xor_path (f : vec3 -> bool) l v w :
  fold_right xorb false (map (fun e => xorb (f (fst e)) (f (snd e))) (combine (v :: l) (l ++ [w]))) =
  xorb (f v) (f w).
Proof.
  revert v. induction l as [|a l IH]; intros v.
  - cbn. destruct (f v), (f w); reflexivity.
  - cbn [app combine map fold_right fst snd]. specialize (IH a). cbn [combine] in IH. rewrite IH.
    destruct (f v), (f a), (f w); reflexivity.
Qed.
Lemma straddles_even vs y : fold_right xorb false (map (straddles y) (sides vs)) = false.
Proof.
  destruct vs as [|v l]; [reflexivity|]. cbn [sides]. unfold straddles.
  rewrite (xor_path (fun a => rlt y (vy a)) l v v). destruct (rlt y (vy v)); reflexivity.
Qed.
Lemma xor_true_in {A} (f : A -> bool) l : fold_right xorb false (map f l) = true ->
  exists e, In e l /\ f e = true.
Proof.
  induction l as [|a l IH]; cbn; [discriminate|]. destruct (f a) eqn:E; intros H.
  - exists a; auto.
  - rewrite xorb_false_l in H. destruct (IH H) as (e & H1 & H2). exists e; auto.
Qed.
Lemma xor_split {A} (f g : A -> bool) l :
  fold_right xorb false (map f l) =
  xorb (fold_right xorb false (map (fun e => f e && g e) l)) (fold_right xorb false (map (fun e => f e && negb (g e)) l)).
Proof.
  induction l as [|a l IH]; cbn; auto. rewrite IH.
  destruct (f a), (g a), (fold_right xorb false (map (fun e => f e && g e) l)),
    (fold_right xorb false (map (fun e => f e && negb (g e)) l)); reflexivity.
Qed.

Lemma combination_cons x a : combination (x :: a) = vadd (vscale (fst x) (snd x)) (combination a).
Proof. reflexivity. Qed.
Ltac vr := apply vec_eq; unfold vadd, vscale, vzero; cbn [vx vy vz fst snd]; ring.
Lemma combination_app a b : combination (a ++ b) = vadd (combination a) (combination b).
Proof.
  induction a as [|x a IH]; cbn [app].
  - change (combination []) with vzero. vr.
  - rewrite !combination_cons, IH. vr.
Qed.
Lemma combination_scale k a : combination (map (fun wv => (k * fst wv, snd wv)) a) = vscale k (combination a).
Proof.
  induction a as [|x a IH]; cbn [map].
  - change (combination []) with vzero. vr.
  - rewrite !combination_cons, IH. vr.
Qed.
Lemma rsum_scale k (a : list (R * vec3)) : rsum (map fst (map (fun wv => (k * fst wv, snd wv)) a)) = k * rsum (map fst a).
Proof. unfold rsum in *. induction a as [|x a IH]; cbn [map fold_right fst]; [ring|]. rewrite IH. ring. Qed.
Lemma hull_convex vs p q t : 0 <= t <= 1 -> in_hull vs p -> in_hull vs q ->
  in_hull vs (vadd (vscale (1 - t) p) (vscale t q)).
Proof.
  intros Ht (a & A1 & A2 & <-) (b & B1 & B2 & <-).
  exists (map (fun wv => ((1 - t) * fst wv, snd wv)) a ++ map (fun wv => (t * fst wv, snd wv)) b).
  split; [|split].
  - intros w v H. apply in_app_or in H. destruct H as [H|H]; apply in_map_iff in H;
      destruct H as ([w' v'] & E & H); inversion E; subst; cbn [fst].
    + destruct (A1 _ _ H). split; auto. nra.
    + destruct (B1 _ _ H). split; auto. nra.
  - rewrite map_app, rsum_app, !rsum_scale, A2, B2. ring.
  - rewrite combination_app, !combination_scale. reflexivity.
Qed.

Lemma crossing_hull vs y e : (forall v, In v vs -> vz v = 0) -> In e (sides vs) -> straddles y e = true ->
  in_hull vs (V3 (crossing y e) y 0).
Proof.
  intros Hz He Hs. destruct (In_nth _ _ (vzero, vzero) He) as (i & Hi & E).
  rewrite sides_length in Hi. rewrite sides_nth in E by auto. subst e.
  set (a := nth i vs vzero) in *. set (b := next_vertex vs i) in *.
  assert (Ha : In a vs) by (apply nth_In; auto).
  assert (Hb : In b vs) by (apply nth_In, Nat.mod_upper_bound; lia).
  unfold straddles in Hs; cbn [fst snd] in Hs. unfold crossing; cbn [fst snd].
  set (t := (y - vy a) / (vy b - vy a)).
  assert (Hn : vy b - vy a <> 0).
  { unfold rlt in Hs. destruct (Rlt_dec y (vy a)), (Rlt_dec y (vy b)); cbn in Hs; try discriminate; lra. }
  assert (Et : t * (vy b - vy a) = y - vy a) by (unfold t; field; auto).
  assert (Ht : 0 <= t <= 1).
  { unfold rlt in Hs. destruct (Rlt_dec y (vy a)), (Rlt_dec y (vy b)); cbn in Hs; try discriminate; nra. }
  apply polygon_in_hull. exists i. split; auto. exists t. split; auto. fold a b.
  apply vec_eq; cbn; [ring|lra|]. rewrite (Hz a Ha), (Hz b Hb). ring.
Qed.

Lemma pnpoly_sound : sound_pip pnpoly.
Proof.
  intros vs x y Hz H. unfold pnpoly in H.
  assert (S := xor_split (straddles y) (fun e => rlt x (crossing y e)) (sides vs)).
  rewrite straddles_even, H in S.
  assert (H2 : fold_right xorb false (map (fun e => straddles y e && negb (rlt x (crossing y e))) (sides vs)) = true).
  { destruct (fold_right xorb false (map (fun e => straddles y e && negb (rlt x (crossing y e))) (sides vs))); auto. }
  apply xor_true_in in H. destruct H as (e & He & E). apply xor_true_in in H2. destruct H2 as (f & Hf & F).
  apply andb_true_iff in E. destruct E as [E1 E2]. apply rlt_true in E2.
  apply andb_true_iff in F. destruct F as [F1 F2]. apply negb_true_iff in F2.
  assert (F3 : crossing y f <= x).
  { apply Rnot_lt_le. intro. apply rlt_true in H. congruence. }
  assert (P := crossing_hull vs y e Hz He E1). assert (Q := crossing_hull vs y f Hz Hf F1).
  set (u := crossing y e) in *. set (w := crossing y f) in *. clearbody u w.
  replace (V3 x y 0) with (vadd (vscale (1 - (x - w) / (u - w)) (V3 w y 0)) (vscale ((x - w) / (u - w)) (V3 u y 0))).
  - apply hull_convex; auto. split.
    + apply Rmult_le_pos; [lra|]. left. apply Rinv_0_lt_compat. lra.
    + apply Rmult_le_reg_r with (u - w); [lra|]. unfold Rdiv. rewrite Rmult_assoc, Rinv_l by lra. lra.
  - apply vec_eq; cbn; field; lra.
Qed.

(** A triangle contains its centroid. *)
Lemma pnpoly_triangle : pnpoly [V3 0 0 0; V3 3 0 0; V3 0 3 0] 1 1 = true.
Proof.
  unfold pnpoly, straddles, crossing; cbn [sides combine app map fold_right fst snd vx vy].
  unfold rlt. repeat (destruct (Rlt_dec _ _)); try lra; cbn; auto; exfalso; lra.
Qed.
