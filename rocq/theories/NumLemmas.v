From Coq Require Import Reals Lra List Psatz.
From Verif Require Import Num.
Import ListNotations.
Open Scope R_scope.

Lemma osqrt_some x y : osqrt x = Some y -> 0 <= x /\ y = sqrt x /\ 0 <= y /\ y * y = x.
Proof.
  unfold osqrt; destruct (Rle_dec 0 x) as [H|H]; intro E; inversion E; subst.
  repeat split; auto. apply sqrt_pos. apply sqrt_def; auto.
Qed.
Lemma osqrt_nonneg x : 0 <= x -> osqrt x = Some (sqrt x).
Proof. unfold osqrt; destruct (Rle_dec 0 x); [reflexivity|tauto]. Qed.
Lemma osqrt_neg x : x < 0 -> osqrt x = None.
Proof. unfold osqrt; destruct (Rle_dec 0 x); [lra|reflexivity]. Qed.
Lemma osqrt_sq x : 0 <= x -> osqrt (x * x) = Some x.
Proof. intros. rewrite osqrt_nonneg by nra. f_equal. apply sqrt_square; auto. Qed.
Lemma odiv_some a b y : odiv a b = Some y -> b <> 0 /\ y = a / b /\ y * b = a.
Proof.
  unfold odiv; destruct (Req_EM_T b 0); intro E; inversion E; subst.
  repeat split; auto. field; auto.
Qed.
Lemma odiv_nz a b : b <> 0 -> odiv a b = Some (a / b).
Proof. unfold odiv; destruct (Req_EM_T b 0); [tauto|reflexivity]. Qed.
Lemma odiv_0 a : odiv a 0 = None.
Proof. unfold odiv; destruct (Req_EM_T 0 0); [reflexivity|tauto]. Qed.
Lemma rsign_pos x : 0 < x -> rsign x = 1.
Proof. unfold rsign; intros; destruct (Rlt_dec 0 x); lra. Qed.
Lemma rsign_neg x : x < 0 -> rsign x = -1.
Proof. unfold rsign; intros; destruct (Rlt_dec 0 x); [lra|]; destruct (Rlt_dec x 0); lra. Qed.
Lemma rsign_0 : rsign 0 = 0.
Proof. unfold rsign; destruct (Rlt_dec 0 0); [lra|]; destruct (Rlt_dec 0 0); lra. Qed.
Lemma rsign_sq x : x <> 0 -> rsign x * rsign x = 1.
Proof. intros; unfold rsign; destruct (Rlt_dec 0 x); [lra|]; destruct (Rlt_dec x 0); lra. Qed.
Lemma rsign_abs x : rsign x * x = Rabs x.
Proof.
  unfold rsign; destruct (Rlt_dec 0 x); [rewrite Rabs_right; lra|].
  destruct (Rlt_dec x 0); [rewrite Rabs_left; lra|].
  assert (x = 0) by lra; subst; rewrite Rabs_R0; ring.
Qed.
Lemma copysign1_pos x : 0 <= x -> copysign1 x = 1.
Proof. unfold copysign1; destruct (Rle_dec 0 x); lra. Qed.
Lemma copysign1_neg x : x < 0 -> copysign1 x = -1.
Proof. unfold copysign1; destruct (Rle_dec 0 x); lra. Qed.
Lemma copysign1_sq x : copysign1 x * copysign1 x = 1.
Proof. unfold copysign1; destruct (Rle_dec 0 x); ring. Qed.
Lemma copysign1_cases x : copysign1 x = 1 \/ copysign1 x = -1.
Proof. unfold copysign1; destruct (Rle_dec 0 x); auto. Qed.

Lemma rsum_app l1 l2 : rsum (l1 ++ l2) = rsum l1 + rsum l2.
Proof. induction l1; simpl; [lra| rewrite IHl1; lra]. Qed.
Lemma rprod_app l1 l2 : rprod (l1 ++ l2) = rprod l1 * rprod l2.
Proof. induction l1; simpl; [lra| rewrite IHl1; lra]. Qed.
Lemma rsum_map_ext {A} (f g : A -> R) l : (forall x, In x l -> f x = g x) ->
  rsum (map f l) = rsum (map g l).
Proof. intros; f_equal; apply map_ext_in; auto. Qed.
Lemma rsum_map_plus {A} (f g : A -> R) l :
  rsum (map (fun x => f x + g x) l) = rsum (map f l) + rsum (map g l).
Proof. induction l; simpl; [lra|rewrite IHl; lra]. Qed.
Lemma rsum_map_scale {A} k (f : A -> R) l :
  rsum (map (fun x => k * f x) l) = k * rsum (map f l).
Proof. induction l; simpl; [lra|rewrite IHl; lra]. Qed.
Lemma rsum_map_0 {A} (l : list A) : rsum (map (fun _ => 0) l) = 0.
Proof. induction l; simpl; lra. Qed.
Lemma rsum_swap {A B} (f : A -> B -> R) l m :
  rsum (map (fun a => rsum (map (fun b => f a b) m)) l)
  = rsum (map (fun b => rsum (map (fun a => f a b) l)) m).
Proof.
  induction l; simpl.
  - symmetry; apply rsum_map_0.
  - rewrite IHl. symmetry; apply rsum_map_plus.
Qed.
Lemma rsum_map_nonneg {A} (f : A -> R) l : (forall x, In x l -> 0 <= f x) ->
  0 <= rsum (map f l).
Proof.
  induction l; simpl; intros H; [lra|].
  assert (0 <= f a) by auto. assert (0 <= rsum (map f l)) by auto. lra.
Qed.
Lemma rsum_map_le {A} (f g : A -> R) l : (forall x, In x l -> f x <= g x) ->
  rsum (map f l) <= rsum (map g l).
Proof.
  induction l; simpl; intros H; [lra|].
  assert (f a <= g a) by auto. assert (rsum (map f l) <= rsum (map g l)) by auto. lra.
Qed.
Lemma rprod_nonneg l : (forall x, In x l -> 0 <= x) -> 0 <= rprod l.
Proof.
  induction l; simpl; intros H; [lra|].
  apply Rmult_le_pos; auto.
Qed.
Lemma rprod_unit l : (forall x, In x l -> 0 <= x <= 1) -> 0 <= rprod l <= 1.
Proof.
  induction l; simpl; intros H; [lra|].
  assert (0 <= a <= 1) by auto. assert (0 <= rprod l <= 1) by auto. nra.
Qed.
