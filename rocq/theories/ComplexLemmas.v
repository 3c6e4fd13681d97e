(** Facts about the complex arithmetic of [ComplexModel]. *)
From Coq Require Import Reals Lra Psatz.
From Coquelicot Require Import Coquelicot.
From Verif Require Import Num NumLemmas ComplexModel.
Open Scope C_scope.

Lemma C_eq : forall a b : C, Re a = Re b -> Im a = Im b -> a = b.
Proof. intros [a1 a2] [b1 b2]; cbn; intros; subst; reflexivity. Qed.

Lemma C0_iff : forall z : C, z = 0 <-> (Re z = 0 /\ Im z = 0)%R.
Proof.
  intros z; split.
  - intros ->; split; reflexivity.
  - intros [A B]; apply C_eq; assumption.
Qed.

Lemma norm_pos : forall z : C, z <> 0 -> (0 < Re z ^ 2 + Im z ^ 2)%R.
Proof.
  intros z H. destruct (Req_dec (Re z) 0) as [A|A].
  - assert (Im z <> 0)%R by (intros B; apply H, C0_iff; auto). nra.
  - nra.
Qed.

Lemma Cmod_sq : forall z : C, (Cmod z ^ 2 = Re z ^ 2 + Im z ^ 2)%R.
Proof. intros z. unfold Cmod. rewrite <- Rsqr_pow2, Rsqr_sqrt; [reflexivity|]. unfold Re, Im; nra. Qed.

Lemma Re_plus : forall a b, Re (a + b) = (Re a + Re b)%R. Proof. reflexivity. Qed.
Lemma Im_plus : forall a b, Im (a + b) = (Im a + Im b)%R. Proof. reflexivity. Qed.
Lemma Re_opp : forall a, Re (- a) = (- Re a)%R. Proof. reflexivity. Qed.
Lemma Im_opp : forall a, Im (- a) = (- Im a)%R. Proof. reflexivity. Qed.
Lemma Re_minus : forall a b, Re (a - b) = (Re a - Re b)%R. Proof. reflexivity. Qed.
Lemma Im_minus : forall a b, Im (a - b) = (Im a - Im b)%R. Proof. reflexivity. Qed.
Lemma Re_mult : forall a b, Re (a * b) = (Re a * Re b - Im a * Im b)%R. Proof. reflexivity. Qed.
Lemma Im_mult : forall a b, Im (a * b) = (Re a * Im b + Im a * Re b)%R. Proof. reflexivity. Qed.
Lemma Re_conj : forall a, Re (Cconj a) = Re a. Proof. reflexivity. Qed.
Lemma Im_conj : forall a, Im (Cconj a) = (- Im a)%R. Proof. reflexivity. Qed.
Lemma Re_R : forall x : R, Re (RtoC x) = x. Proof. reflexivity. Qed.
Lemma Im_R : forall x : R, Im (RtoC x) = 0%R. Proof. reflexivity. Qed.
Lemma Re_i : Re Ci = 0%R. Proof. reflexivity. Qed.
Lemma Im_i : Im Ci = 1%R. Proof. reflexivity. Qed.
Lemma Re_inv : forall a, Re (/ a) = (Re a / (Re a ^ 2 + Im a ^ 2))%R. Proof. reflexivity. Qed.
Lemma Im_inv : forall a, Im (/ a) = (- Im a / (Re a ^ 2 + Im a ^ 2))%R. Proof. reflexivity. Qed.

Global Hint Rewrite Re_plus Im_plus Re_opp Im_opp Re_minus Im_minus Re_mult Im_mult Re_conj Im_conj
  Re_R Im_R Re_i Im_i Re_inv Im_inv : cparts.
Ltac cparts := autorewrite with cparts.
Ltac cring := apply C_eq; cparts; ring.

Lemma Cconj_mult : forall a b, Cconj (a * b) = Cconj a * Cconj b. Proof. intros; cring. Qed.
Lemma Cconj_plus : forall a b, Cconj (a + b) = Cconj a + Cconj b. Proof. intros; cring. Qed.
Lemma Cconj_minus : forall a b, Cconj (a - b) = Cconj a - Cconj b. Proof. intros; cring. Qed.
Lemma Cconj_conj : forall a, Cconj (Cconj a) = a. Proof. intros; cring. Qed.
Lemma Cconj_0 : forall a : C, Cconj a = 0 -> a = 0.
Proof. intros a H. rewrite <- (Cconj_conj a), H. cring. Qed.
Lemma Cconj_neq_0 : forall a : C, a <> 0 -> Cconj a <> 0.
Proof. intros a H E; apply H, Cconj_0, E. Qed.
Lemma Cinv_neq_0 : forall a : C, a <> 0 -> / a <> 0.
Proof. intros a H E. assert (X := Cinv_r a H). rewrite E, Cmult_0_r in X.
  apply (f_equal Re) in X. cbn in X. lra. Qed.
Lemma C1_neq_0 : (1 : C) <> 0.
Proof. intros E; apply (f_equal Re) in E; cbn in E; lra. Qed.
Lemma C2_neq_0 : (2 : C) <> 0.
Proof. intros E; apply (f_equal Re) in E; cbn in E; lra. Qed.
Lemma RtoC_neq_0 : forall x : R, x <> 0%R -> RtoC x <> 0.
Proof. intros x H E; apply (f_equal Re) in E; cbn in E; auto. Qed.
Lemma Cmult_integral : forall a b : C, a * b = 0 -> a = 0 \/ b = 0.
Proof.
  intros a b H. destruct (Ceq_dec a 0) as [|A]; [left; assumption|].
  destruct (Ceq_dec b 0) as [|B]; [right; assumption|]. exfalso. exact (Cmult_neq_0 a b A B H).
Qed.
Lemma Cdiv_neq_0 : forall a b : C, a <> 0 -> b <> 0 -> a / b <> 0.
Proof. intros a b A B. apply Cmult_neq_0; [exact A | apply Cinv_neq_0, B]. Qed.

(** ** Division *)
Lemma cdiv_nz : forall a b : C, b <> 0 -> cdiv a b = Some (a / b).
Proof. intros a b H. unfold cdiv. destruct (Ceq_dec b 0); [contradiction | reflexivity]. Qed.
Lemma cdiv_z : forall a, cdiv a 0 = None.
Proof. intros a. unfold cdiv. destruct (Ceq_dec 0 0); [reflexivity | congruence]. Qed.
Lemma cdiv_inv : forall a b c : C, cdiv a b = Some c -> b <> 0 /\ c = a / b.
Proof. intros a b c. unfold cdiv. destruct (Ceq_dec b 0); intros E; inversion E; auto. Qed.

(** ** The principal square root *)
Lemma Cmod_Re : forall z, (Rabs (Re z) <= Cmod z)%R.
Proof. intros z. eapply Rle_trans; [apply Rmax_l | apply Rmax_Cmod]. Qed.

Lemma csqrt_sq : forall z, csqrt z * csqrt z = z.
Proof.
  intros z. assert (M := Cmod_Re z).
  assert (A : (0 <= (Cmod z + Re z) / 2)%R) by (revert M; unfold Rabs; destruct (Rcase_abs (Re z)); intros; lra).
  assert (B : (0 <= (Cmod z - Re z) / 2)%R) by (revert M; unfold Rabs; destruct (Rcase_abs (Re z)); intros; lra).
  assert (P := sqrt_sqrt _ A). assert (Q := sqrt_sqrt _ B).
  assert (S := Cmod_sq z).
  set (u := sqrt ((Cmod z + Re z) / 2)) in *. set (v := sqrt ((Cmod z - Re z) / 2)) in *.
  assert (U : (0 <= u)%R) by apply sqrt_pos. assert (V : (0 <= v)%R) by apply sqrt_pos.
  assert (X : ((u * v) * (u * v) * 4 = Im z * Im z)%R).
  { replace ((u * v) * (u * v) * 4)%R with ((u * u) * (v * v) * 4)%R by ring. rewrite P, Q. nra. }
  assert (UV : (0 <= u * v)%R) by (apply Rmult_le_pos; assumption).
  unfold csqrt. fold u v. destruct (Rle_dec 0 (Im z)) as [I|I]; apply C_eq; unfold Re, Im, Cmult in *; cbn [fst snd] in *.
  - nra.
  - assert (2 * (u * v) = snd z)%R by nra. nra.
  - nra.
  - assert (2 * (u * v) = - snd z)%R by nra. nra.
Qed.

Lemma csqrt_Re : forall z, (0 <= Re (csqrt z))%R.
Proof. intros z. apply sqrt_pos. Qed.

Lemma csqrt_Im : forall z, (0 <= Im z)%R -> (0 <= Im (csqrt z))%R.
Proof.
  intros z H. unfold csqrt, Im at 1. cbn [snd]. destruct (Rle_dec 0 (Im z)); [|contradiction].
  rewrite Rmult_1_l. apply sqrt_pos.
Qed.

(** The branch: on the negative real axis the root is on the positive imaginary axis. *)
Lemma csqrt_branch : forall z, Re (csqrt z) = 0%R -> (0 <= Im (csqrt z))%R.
Proof.
  intros z H. apply csqrt_Im. assert (S := csqrt_sq z).
  apply (f_equal Im) in S. autorewrite with cparts in S. rewrite H in S. lra.
Qed.

(** The root in the right half-plane (with the positive imaginary axis) is unique. *)
Lemma csqrt_unique : forall z w, w * w = z -> (0 < Re w \/ (Re w = 0 /\ 0 <= Im w))%R -> csqrt z = w.
Proof.
  intros z w E H. assert (S := csqrt_sq z).
  assert (P : (csqrt z - w) * (csqrt z + w) = 0).
  { transitivity (csqrt z * csqrt z - w * w); [ring|]. rewrite S, E. ring. }
  apply Cmult_integral in P. destruct P as [P|P].
  - replace (csqrt z) with (csqrt z - w + w) by ring. rewrite P. ring.
  - assert (A : csqrt z = - w) by (replace (csqrt z) with (csqrt z + w - w) by ring; rewrite P; ring).
    assert (R0 := csqrt_Re z). assert (B := csqrt_branch z).
    rewrite A in *. autorewrite with cparts in *. destruct H as [H|[H1 H2]]; [lra|].
    assert (Z : w = 0). { apply C0_iff. split; [exact H1|]. specialize (B ltac:(lra)). lra. }
    rewrite Z. ring.
Qed.

Lemma csqrt_of_sq : forall w, (0 < Re w)%R -> csqrt (w * w) = w.
Proof. intros w H. apply csqrt_unique; auto. Qed.

Lemma csqrt_neq_0 : forall z : C, z <> 0 -> csqrt z <> 0.
Proof. intros z H E. apply H. rewrite <- (csqrt_sq z), E. ring. Qed.

(** ** The exponential *)
Lemma cexp_plus : forall a b, cexp (a + b) = cexp a * cexp b.
Proof.
  intros a b. apply C_eq; unfold cexp, Re, Im, Cplus, Cmult; cbn [fst snd];
    rewrite exp_plus, ?cos_plus, ?sin_plus; ring.
Qed.
Lemma cexp_0 : cexp 0 = 1.
Proof. apply C_eq; unfold cexp, Re, Im; cbn; rewrite exp_0, ?cos_0, ?sin_0; ring. Qed.
Lemma Cmod_cexp : forall z, Cmod (cexp z) = exp (Re z).
Proof.
  intros z. unfold Cmod, cexp; cbn [fst snd].
  replace ((exp (Re z) * cos (Im z)) ^ 2 + (exp (Re z) * sin (Im z)) ^ 2)%R with ((exp (Re z)) ^ 2)%R.
  - rewrite <- Rsqr_pow2. apply sqrt_Rsqr. left; apply exp_pos.
  - assert (S := sin2_cos2 (Im z)). unfold Rsqr in S.
    transitivity (exp (Re z) ^ 2 * (sin (Im z) * sin (Im z) + cos (Im z) * cos (Im z)))%R; [rewrite S; ring | ring].
Qed.
Lemma cexp_neq_0 : forall z, cexp z <> 0.
Proof.
  intros z E. assert (M := Cmod_cexp z). rewrite E, Cmod_0 in M. assert (P := exp_pos (Re z)). lra.
Qed.
Lemma cexp_opp : forall z, cexp z * cexp (- z) = 1.
Proof. intros z. rewrite <- cexp_plus. replace (z + - z) with (0 : C) by ring. apply cexp_0. Qed.

(** ** Matrices *)
Lemma mat_eq : forall a b, mxx a = mxx b -> mxy a = mxy b -> myx a = myx b -> myy a = myy b -> a = b.
Proof. intros [] [] ; cbn; intros; subst; reflexivity. Qed.
Lemma mat_mul_assoc : forall a b c, mat_mul a (mat_mul b c) = mat_mul (mat_mul a b) c.
Proof. intros; apply mat_eq; cbn; ring. Qed.
Lemma mat_id_l : forall a, mat_mul mat_id a = a.
Proof. intros; apply mat_eq; cbn; ring. Qed.
Lemma mat_id_r : forall a, mat_mul a mat_id = a.
Proof. intros; apply mat_eq; cbn; ring. Qed.
Lemma mat_det_mul : forall a b, mat_det (mat_mul a b) = mat_det a * mat_det b.
Proof. intros; unfold mat_det, mat_mul; cbn; ring. Qed.
Lemma mat_apply_mul : forall a b v, mat_apply (mat_mul a b) v = mat_apply a (mat_apply b v).
Proof. intros a b [x y]; unfold mat_apply, mat_mul; cbn; f_equal; ring. Qed.
Lemma mat_inverse_some : forall a, mat_det a <> 0 -> exists b, mat_inverse a = Some b /\
  mat_mul a b = mat_id /\ mat_mul b a = mat_id.
Proof.
  intros a H. unfold mat_inverse. rewrite cdiv_nz by exact H. eexists; split; [reflexivity|].
  unfold mat_det in *. split; apply mat_eq; cbn; field; exact H.
Qed.
Lemma omul_assoc : forall a b c, omul a (omul b c) = omul (omul a b) c.
Proof. intros [a|] [b|] [c|]; cbn; try reflexivity. rewrite mat_mul_assoc; reflexivity. Qed.
Lemma omul_id_l : forall a, omul (Some mat_id) a = a.
Proof. intros [a|]; cbn; [rewrite mat_id_l|]; reflexivity. Qed.
Lemma omul_id_r : forall a, omul a (Some mat_id) = a.
Proof. intros [a|]; cbn; [rewrite mat_id_r|]; reflexivity. Qed.
