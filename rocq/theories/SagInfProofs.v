From Coq Require Import Reals Lra Psatz Bool.
From Verif Require Import Vec VecLemmas Num NumLemmas ExtNum SagModel SagInfModel.
Open Scope R_scope.

Lemma ediv_inf x s : ediv (Fin x) (Inf s) = Fin 0.
Proof. reflexivity. Qed.
Ltac ecbn := repeat (rewrite ?ediv_inf; progress cbn [ex ey ez fin epos esq esub eadd eopp emul eabs esign elt ele
  negb xorb eqb andb orb vx vy vz e_cross e_dot]); rewrite ?ediv_inf.

Lemma fin_eq a b : a = b -> Fin a = Fin b.
Proof. congruence. Qed.
Lemma ediv_fin x y : y <> 0 -> ediv (Fin x) (Fin y) = Fin (x / y).
Proof. intro H. cbn [ediv]. destruct (Req_EM_T y 0); [contradiction|auto]. Qed.
Lemma esqrt_fin x : 0 <= x -> esqrt (Fin x) = Fin (sqrt x).
Proof. intro H. cbn [esqrt]. destruct (Rle_dec 0 x); [auto|contradiction]. Qed.
Lemma flat_some o u : vz u <> 0 -> flat_intercept o u = Some (vadd o (vscale (- vz o / vz u) u)).
Proof. intro H. unfold flat_intercept. rewrite odiv_nz by auto. reflexivity. Qed.

Lemma conic_z_inf neg k x y : e_conic_z (Inf neg) (Fin (1 + k)) (Fin x) (Fin y) = Fin 0.
Proof.
  unfold e_conic_z. ecbn.
  rewrite esqrt_fin by lra. ecbn. rewrite ediv_fin.
  - apply fin_eq. unfold Rdiv; ring.
  - assert (H := sqrt_pos (1 + - ((1 + k) * (0 * 0) * (x * x + y * y)))). lra.
Qed.
Lemma sphere_z_inf neg x y : e_sphere_z (Inf neg) (Fin x) (Fin y) = Fin 0.
Proof.
  unfold e_sphere_z. ecbn. rewrite esqrt_fin by lra. ecbn. rewrite ediv_fin.
  - apply fin_eq. unfold Rdiv; ring.
  - assert (H := sqrt_pos (1 + - (0 * 0 * (x * x + y * y)))). lra.
Qed.
Lemma cylinder_z_inf neg x y : e_cylinder_z (Inf neg) (Fin x) (Fin y) = Fin 0.
Proof.
  unfold e_cylinder_z. ecbn. rewrite esqrt_fin by lra. ecbn. rewrite ediv_fin.
  - apply fin_eq. unfold Rdiv; ring.
  - assert (H := sqrt_pos (1 + - (0 * 0 * (x * x)))). lra.
Qed.
Lemma sphere_normal_inf neg p : e_sphere_normal (Inf neg) (fin p) = fin (V3 0 0 (-1)).
Proof.
  unfold e_sphere_normal. ecbn.
  replace (1 + - (0 * vx p * (0 * vx p)) + - (0 * vy p * (0 * vy p))) with 1 by ring.
  rewrite esqrt_fin by lra. rewrite sqrt_1. unfold fin. cbn. f_equal; apply fin_eq; ring.
Qed.
Lemma cylinder_normal_inf neg p : e_cylinder_normal (Inf neg) (fin p) = fin (V3 0 0 (-1)).
Proof.
  unfold e_cylinder_normal. ecbn.
  replace (1 + - (0 * 0)) with 1 by ring. rewrite esqrt_fin by lra. rewrite sqrt_1. reflexivity.
Qed.
Lemma conic_normal_inf neg k p : e_conic_normal (Inf neg) (Fin (1 + k)) (fin p) = fin (V3 0 0 (-1)).
Proof.
  unfold e_conic_normal. ecbn.
  replace (1 + - ((1 + k) * (0 * 0) * (vx p * vx p + vy p * vy p))) with 1 by ring.
  rewrite (esqrt_fin 1) by lra. rewrite sqrt_1.
  rewrite !ediv_fin by lra. ecbn.
  replace (0 * vx p / 1 * (0 * vx p / 1) + 0 * vy p / 1 * (0 * vy p / 1) + 1) with 1 by field.
  rewrite esqrt_fin by lra. rewrite sqrt_1. rewrite !ediv_fin by lra.
  unfold fin; cbn. f_equal; apply fin_eq; field.
Qed.

(** The conic takes the linear branch and keeps the point. *)
Lemma conic_intercept_inf neg k o u : vz u <> 0 ->
  e_conic_intercept (Inf neg) (Fin (1 + k)) (fin o) (fin u)
  = fin (vadd o (vscale (- vz o / vz u) u)).
Proof.
  intros Hz. unfold e_conic_intercept. ecbn. cbv zeta.
  set (A := vx u * vx u + vy u * vy u + (1 + k) * (vz u * vz u)).
  set (B := vx o * vx u + vy o * vy u + (1 + k) * vz o * vz u).
  set (C := vx o * vx o + vy o * vy o + (1 + k) * (vz o * vz o)).
  destruct (Rle_dec 0 _) as [Hd|Hd].
  2:{ exfalso; apply Hd. replace (4 * (0 * A)) with 0 by ring. ring_simplify.
      assert (H := Rle_0_sqr (vz u)). unfold Rsqr in H. nra. }
  destruct (Rlt_dec _ _) as [Hs|Hs].
  2:{ exfalso; apply Hs. rewrite Rmult_0_l, Rabs_R0. lra. }
  replace (2 * (0 * B + - vz u)) with (- 2 * vz u) by ring.
  replace (0 * C + - (2 * vz o)) with (- 2 * vz o) by ring.
  rewrite (ediv_fin _ (-2 * vz u)) by lra.
  replace (- (-2 * vz o) / (-2 * vz u)) with (- vz o / vz u) by (field; auto).
  set (t := - vz o / vz u). ecbn.
  assert (Hzt : vz o + vz u * t = 0) by (unfold t; field; auto). rewrite Hzt.
  destruct (Rle_dec 0 _) as [Hq|Hq]; [|exfalso; apply Hq; lra].
  ecbn. destruct (Rle_dec _ _) as [Ha|Ha]; [|exfalso; apply Ha; lra].
  ecbn. unfold epos, fin, vadd, vscale. ecbn. f_equal; apply fin_eq; ring.
Qed.

Lemma cylinder_intercept_inf neg o u : vz u <> 0 ->
  e_cylinder_intercept (Inf neg) (fin o) (fin u) = fin (vadd o (vscale (- vz o / vz u) u)).
Proof.
  intros Hz. unfold e_cylinder_intercept. cbv zeta.
  assert (Hd : forall P Q : ext -> ext, True) by auto. clear Hd.
  ecbn. replace (vx u * 1 + - (vy u * 0)) with (vx u) by ring.
  assert (Hn : forall m, emul (Fin m) (Inf (xorb neg neg)) = NaN \/ exists b, emul (Fin m) (Inf (xorb neg neg)) = Inf b).
  { intro m. cbn [emul]. destruct (Req_EM_T m 0); eauto. }
  rewrite xorb_nilpotent in *.
  destruct (Req_EM_T (vx u) 0) as [Hx|Hx]; ecbn.
  - destruct (Req_EM_T _ 0) as [He|He]; ecbn;
      (rewrite (ediv_fin _ (vz u)) by auto);
      ecbn; unfold epos, fin, vadd, vscale; ecbn; f_equal; apply fin_eq; ring.
  - rewrite xorb_nilpotent.
    destruct (Req_EM_T (_ + _ + _) 0) as [He|He]; ecbn.
    + rewrite (ediv_fin _ (vz u)) by auto.
      ecbn; unfold epos, fin, vadd, vscale; ecbn; f_equal; apply fin_eq; ring.
    + assert (Hneg : r_neg ((vy u * 0 + - (vz u * 1)) * (vy u * 0 + - (vz u * 1)) +
        (vz u * 0 + - (vx u * 0)) * (vz u * 0 + - (vx u * 0)) + vx u * vx u) = false).
      { unfold r_neg. destruct (Rlt_dec _ 0) as [H|H]; auto. exfalso.
        assert (H1 := Rle_0_sqr (vz u)). assert (H2 := Rle_0_sqr (vx u)). unfold Rsqr in *. nra. }
      rewrite Hneg. ecbn.
      rewrite (ediv_fin _ (vz u)) by auto.
      ecbn; unfold epos, fin, vadd, vscale; ecbn; f_equal; apply fin_eq; ring.
Qed.

Lemma esub_inf_inf s : esub (Inf s) (Inf s) = NaN.
Proof. destruct s; reflexivity. Qed.
Lemma sphere_intercept_nan neg o u :
  e_sphere_intercept (Inf neg) (fin o) (fin u) = EV NaN NaN NaN.
Proof.
  unfold e_sphere_intercept. ecbn. rewrite !xorb_nilpotent. ecbn.
  assert (H : forall a, esub a NaN = NaN) by (intros []; reflexivity).
  assert (H0 : forall a, emul a NaN = NaN) by (intros []; reflexivity).
  assert (H1 : forall a, eadd a NaN = NaN) by (intros []; reflexivity).
  rewrite ?negb_involutive.
  replace (xorb (negb neg) (negb neg)) with false by (destruct neg; reflexivity).
  cbn [eqb negb eopp eadd].
  destruct (Req_EM_T (vz u) 0); ecbn.
  all: repeat match goal with |- context [match ?a with Fin _ => NaN | Inf _ => NaN | NaN => NaN end] =>
         replace (match a with Fin _ => NaN | Inf _ => NaN | NaN => NaN end) with NaN by (destruct a; reflexivity) end; reflexivity.
Qed.

(** On finite radii this model is the model of [SagModel]. *)
Lemma e_sphere_z_fin r x y : r <> 0 -> e_sphere_z (Fin r) (Fin x) (Fin y) = of_opt (sphere_z r x y).
Proof.
  intros Hr. unfold e_sphere_z, sphere_z. rewrite odiv_nz, ediv_fin by auto. cbn [obind]. ecbn.
  unfold osqrt. replace (1 + - (1 / r * (1 / r) * (x * x + y * y))) with
    (1 - 1 / r * (1 / r) * (x * x + y * y)) by ring.
  cbn [esqrt]. destruct (Rle_dec 0 _) as [H|H]; cbn [obind]; ecbn; auto.
  assert (Hp := sqrt_pos (1 - 1 / r * (1 / r) * (x * x + y * y))).
  rewrite odiv_nz, ediv_fin by lra. reflexivity.
Qed.
Lemma e_sphere_intercept_fin r o u :
  e_sphere_intercept (Fin r) (fin o) (fin u) =
  match sphere_intercept r o u with Some q => fin q | None => EV NaN NaN NaN end.
Proof.
  unfold e_sphere_intercept, sphere_intercept. ecbn. cbv zeta. cbn [vx vy vz].
  unfold osqrt, Rminus. cbn [esqrt]. destruct (Rle_dec 0 _) as [H|H]; cbn [obind]; ecbn; auto.
  unfold epos, fin, vadd, vscale; ecbn. f_equal; apply fin_eq; ring.
Qed.

Lemma all_z_inf neg k x y : flat_z x y = Some 0 /\
  e_sphere_z (Inf neg) (Fin x) (Fin y) = Fin 0 /\
  e_conic_z (Inf neg) (Fin (1 + k)) (Fin x) (Fin y) = Fin 0 /\
  e_cylinder_z (Inf neg) (Fin x) (Fin y) = Fin 0.
Proof.
  split; [reflexivity|]. split; [apply sphere_z_inf|]. split; [apply conic_z_inf|apply cylinder_z_inf].
Qed.
Lemma all_normal_inf neg k p n : flat_normal p = Some n ->
  e_sphere_normal (Inf neg) (fin p) = fin n /\
  e_conic_normal (Inf neg) (Fin (1 + k)) (fin p) = fin n /\
  e_cylinder_normal (Inf neg) (fin p) = fin n.
Proof.
  unfold flat_normal. intro E; injection E as <-.
  split; [apply sphere_normal_inf|]. split; [apply conic_normal_inf|apply cylinder_normal_inf].
Qed.
Lemma all_intercept_inf neg k o u : vz u <> 0 ->
  exists q, flat_intercept o u = Some q /\
    e_conic_intercept (Inf neg) (Fin (1 + k)) (fin o) (fin u) = fin q /\
    e_cylinder_intercept (Inf neg) (fin o) (fin u) = fin q.
Proof.
  intros H. eexists. split; [apply flat_some; auto|].
  split; [apply conic_intercept_inf; auto|apply cylinder_intercept_inf; auto].
Qed.
Lemma sphere_inf_nan : exists o u q, flat_intercept o u = Some q /\
  forall neg o' u', e_sphere_intercept (Inf neg) (fin o') (fin u') = EV NaN NaN NaN /\
    e_sphere_intercept (Inf neg) (fin o) (fin u) <> fin q.
Proof.
  exists (V3 0 0 (-3)), (V3 0 0 1). eexists. split; [apply flat_some; cbn; lra|].
  intros. rewrite !sphere_intercept_nan. split; [reflexivity|discriminate].
Qed.
Lemma ex_flat : vz (V3 (4/5) 0 (3/5)) <> 0 /\
  flat_intercept (V3 0 0 (-3)) (V3 (4/5) 0 (3/5)) = Some (V3 4 0 0).
Proof.
  split; [cbn; lra|]. rewrite flat_some by (cbn; lra). f_equal.
  apply vec_eq; cbn [vx vy vz vadd vscale]; field.
Qed.
