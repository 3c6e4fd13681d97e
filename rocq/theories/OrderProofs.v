(** The orders of a grating: Bessel's inequality for the grooves. *)
From Coq Require Import Reals Lra Psatz List Bool ZArith Lia.
From Coquelicot Require Import Coquelicot.
From Verif Require Import Vec VecLemmas Num NumLemmas RayModel SurfaceModel SnellSpec MaterialModel
  RulingModel RulingSpec RulingProofs GrooveProofs.
Import ListNotations.
Open Scope R_scope.

Notation turn := (2 * PI) (only parsing).

Lemma rint_plus (f g : R -> R) a b x y : is_RInt f a b x -> is_RInt g a b y -> is_RInt (fun t => f t + g t) a b (x + y).
Proof. intros A B. exact (is_RInt_plus f g a b x y A B). Qed.
Lemma rint_minus (f g : R -> R) a b x y : is_RInt f a b x -> is_RInt g a b y -> is_RInt (fun t => f t - g t) a b (x - y).
Proof. intros A B. exact (is_RInt_minus f g a b x y A B). Qed.
Lemma rint_scal (f : R -> R) k a b x : is_RInt f a b x -> is_RInt (fun t => k * f t) a b (k * x).
Proof. intros A. exact (is_RInt_scal f a b k x A). Qed.
Lemma rint_ext (f g : R -> R) a b x : (forall t, f t = g t) -> is_RInt f a b x -> is_RInt g a b x.
Proof. intros E. apply is_RInt_ext. intros t _. apply E. Qed.

Lemma rint_val (f : R -> R) a b (x y : R) : is_RInt f a b x -> x = y -> is_RInt f a b y.
Proof. intros A <-. exact A. Qed.

Lemma rint_mean (f : R -> R) : ex_RInt f 0 turn -> is_RInt f 0 turn (turn * (RInt f 0 turn / turn)).
Proof.
  intros E. assert (P := PI_RGT_0). assert (A := RInt_correct f 0 turn E).
  set (x := RInt f 0 turn : R) in *. clearbody x. apply (rint_val _ _ _ x); [exact A|]. field. lra.
Qed.

Lemma wave_cos (m : Z) : m <> 0%Z -> is_RInt (fun t => cos (IZR m * t)) 0 turn 0.
Proof.
  intros N. assert (Z : IZR m <> 0) by (apply not_0_IZR; exact N).
  assert (I := lin_cos (IZR m) 0 0 turn Z). eapply rint_ext; [|eapply rint_val; [exact I|]].
  - intros t. cbn. f_equal. ring.
  - replace (IZR m * turn + 0) with (0 + IZR m * turn) by ring. rewrite (proj1 (trig_shift_2pi m 0)).
    replace (IZR m * 0 + 0) with 0 by ring. unfold Rminus. rewrite Rplus_opp_r. unfold Rdiv. apply Rmult_0_l.
Qed.
Lemma wave_sin (m : Z) : m <> 0%Z -> is_RInt (fun t => sin (IZR m * t)) 0 turn 0.
Proof.
  intros N. assert (Z : IZR m <> 0) by (apply not_0_IZR; exact N).
  assert (I := lin_sin (IZR m) 0 0 turn Z). eapply rint_ext; [|eapply rint_val; [exact I|]].
  - intros t. cbn. f_equal. ring.
  - replace (IZR m * turn + 0) with (0 + IZR m * turn) by ring. rewrite (proj2 (trig_shift_2pi m 0)).
    replace (IZR m * 0 + 0) with 0 by ring. unfold Rminus. rewrite Rplus_opp_r. unfold Rdiv. apply Rmult_0_l.
Qed.

Section Bessel.
Variable phase : R -> R.
Hypothesis Ec : forall i, ex_RInt (fun t => cos (phase t - IZR i * t)) 0 turn.
Hypothesis Es : forall i, ex_RInt (fun t => sin (phase t - IZR i * t)) 0 turn.

Definition fa (i : Z) : R := RInt (fun t => cos (phase t - IZR i * t)) 0 turn / turn.
Definition fb (i : Z) : R := RInt (fun t => sin (phase t - IZR i * t)) 0 turn / turn.

(** What is left of the wave without the orders in [l]. *)
Fixpoint re_rest (l : list Z) (t : R) : R :=
  match l with [] => cos (phase t) | i :: l => re_rest l t - (fa i * cos (IZR i * t) - fb i * sin (IZR i * t)) end.
Fixpoint im_rest (l : list Z) (t : R) : R :=
  match l with [] => sin (phase t) | i :: l => im_rest l t - (fa i * sin (IZR i * t) + fb i * cos (IZR i * t)) end.

Lemma rest_coefficients : forall l k, ~ In k l ->
  is_RInt (fun t => re_rest l t * cos (IZR k * t) + im_rest l t * sin (IZR k * t)) 0 turn (turn * fa k) /\
  is_RInt (fun t => im_rest l t * cos (IZR k * t) - re_rest l t * sin (IZR k * t)) 0 turn (turn * fb k).
Proof.
  assert (P := PI_RGT_0).
  induction l as [|i l IH]; intros k N.
  - cbn [re_rest im_rest]. split.
    + eapply rint_ext; [|apply (rint_mean (fun t => cos (phase t - IZR k * t))); apply Ec].
      intros t. cbn. rewrite cos_minus. reflexivity.
    + eapply rint_ext; [|apply (rint_mean (fun t => sin (phase t - IZR k * t))); apply Es].
      intros t. cbn. rewrite sin_minus. reflexivity.
  - assert (Nk : (i - k <> 0)%Z) by (intros E; apply N; left; lia).
    destruct (IH k) as [A B]; [intros F; apply N; right; exact F|].
    assert (C := wave_cos _ Nk). assert (S := wave_sin _ Nk).
    assert (Tc : forall t, cos (IZR (i - k) * t) = cos (IZR i * t) * cos (IZR k * t) + sin (IZR i * t) * sin (IZR k * t)).
    { intros t. rewrite minus_IZR, Rmult_minus_distr_r, cos_minus. reflexivity. }
    assert (Ts : forall t, sin (IZR (i - k) * t) = sin (IZR i * t) * cos (IZR k * t) - cos (IZR i * t) * sin (IZR k * t)).
    { intros t. rewrite minus_IZR, Rmult_minus_distr_r, sin_minus. reflexivity. }
    cbn [re_rest im_rest]. split.
    + replace (turn * fa k) with (turn * fa k - (fa i * 0 - fb i * 0)) by ring.
      eapply rint_ext; [|exact (rint_minus _ _ _ _ _ _ A (rint_minus _ _ _ _ _ _ (rint_scal _ (fa i) _ _ _ C) (rint_scal _ (fb i) _ _ _ S)))].
      intros t. cbn. rewrite Tc, Ts. ring.
    + replace (turn * fb k) with (turn * fb k - (fa i * 0 + fb i * 0)) by ring.
      eapply rint_ext; [|exact (rint_minus _ _ _ _ _ _ B (rint_plus _ _ _ _ _ _ (rint_scal _ (fa i) _ _ _ S) (rint_scal _ (fb i) _ _ _ C)))].
      intros t. cbn. rewrite Tc, Ts. ring.
Qed.

Lemma rest_power : forall l, NoDup l ->
  is_RInt (fun t => re_rest l t * re_rest l t + im_rest l t * im_rest l t) 0 turn
    (turn * (1 - rsum (map (order_power phase) l))).
Proof.
  induction l as [|i l IH]; intros N.
  - cbn [re_rest im_rest map rsum fold_right]. replace (turn * (1 - 0)) with ((turn - 0) * 1) by ring.
    eapply rint_ext; [|exact (const_int 1 0 turn)]. intros t. cbn. rewrite Rplus_comm. symmetry. apply trig1.
  - apply NoDup_cons_iff in N. destruct N as [N D]. specialize (IH D). destruct (rest_coefficients l i N) as [A B].
    cbn [map]. replace (rsum (order_power phase i :: map (order_power phase) l)) with (order_power phase i + rsum (map (order_power phase) l)) by reflexivity.
    change (order_power phase i) with (square (fa i) + square (fb i)). unfold square.
    replace (turn * (1 - (fa i * fa i + fb i * fb i + rsum (map (order_power phase) l)))) with
      (turn * (1 - rsum (map (order_power phase) l)) - 2 * (fa i * (turn * fa i) + fb i * (turn * fb i)) + (turn - 0) * (fa i * fa i + fb i * fb i)) by ring.
    eapply rint_ext; [|exact (rint_plus _ _ _ _ _ _ (rint_minus _ _ _ _ _ _ IH (rint_scal _ 2 _ _ _
      (rint_plus _ _ _ _ _ _ (rint_scal _ (fa i) _ _ _ A) (rint_scal _ (fb i) _ _ _ B)))) (const_int (fa i * fa i + fb i * fb i) 0 turn))].
    intros t. cbn [re_rest im_rest]. assert (T := trig1 (IZR i * t)).
    set (s := sin (IZR i * t)) in *. set (c := cos (IZR i * t)) in *. set (p := re_rest l t). set (q := im_rest l t).
    set (a := fa i). set (b := fb i). clearbody s c p q a b.
    replace ((p - (a * c - b * s)) * (p - (a * c - b * s)) + (q - (a * s + b * c)) * (q - (a * s + b * c)))
      with (p * p + q * q - 2 * (a * (p * c + q * s) + b * (q * c - p * s)) + (a * a + b * b) * (s * s + c * c)) by ring.
    rewrite T. ring.
Qed.

Lemma bessel_inequality : forall l, NoDup l -> rsum (map (order_power phase) l) <= 1.
Proof.
  intros l N. assert (P := PI_RGT_0). assert (I := rest_power l N).
  assert (G : 0 <= turn * (1 - rsum (map (order_power phase) l))).
  { rewrite <- (is_RInt_unique _ _ _ _ I). apply RInt_ge_0; [lra|eexists; exact I|]. intros t _.
    assert (A := Rle_0_sqr (re_rest l t)). assert (B := Rle_0_sqr (im_rest l t)). unfold Rsqr in *. lra. }
  nra.
Qed.
End Bessel.

(** ** The profiles have integrals *)
Lemma ex_pieces (f g h : R -> R) a c b : a <= c <= b ->
  (forall t, a < t < c -> g t = f t) -> (forall t, c < t < b -> h t = f t) ->
  (forall t, continuous g t) -> (forall t, continuous h t) -> ex_RInt f a b.
Proof.
  intros H Hg Hh Cg Ch. apply (ex_RInt_Chasles f a c b).
  - apply (ex_RInt_ext g); [intros t; rewrite Rmin_left, Rmax_right by lra; auto|].
    apply (ex_RInt_continuous (V := R_CompleteNormedModule)). auto.
  - apply (ex_RInt_ext h); [intros t; rewrite Rmin_left, Rmax_right by lra; auto|].
    apply (ex_RInt_continuous (V := R_CompleteNormedModule)). auto.
Qed.
Lemma cont_cos p q t : continuous (fun t => cos (p * t + q)) t.
Proof. apply (ex_derive_continuous (fun t => cos (p * t + q))). auto_derive. auto. Qed.
Lemma cont_sin p q t : continuous (fun t => sin (p * t + q)) t.
Proof. apply (ex_derive_continuous (fun t => sin (p * t + q))). auto_derive. auto. Qed.

Definition measurable (phase : R -> R) : Prop :=
  (forall i, ex_RInt (fun t => cos (phase t - IZR i * t)) 0 turn) /\
  (forall i, ex_RInt (fun t => sin (phase t - IZR i * t)) 0 turn).

Lemma rect_measurable phi a : 0 <= a <= turn -> measurable (fun t => phi * rectangle_wave a t).
Proof.
  intros Ha. split; intros i.
  - apply (ex_pieces _ (fun t => cos (- IZR i * t + phi)) (fun t => cos (- IZR i * t + - phi)) _ _ _ Ha); auto using cont_cos.
    + intros t Ht. f_equal. rewrite rect_low by lra. ring.
    + intros t Ht. f_equal. rewrite rect_high by lra. ring.
  - apply (ex_pieces _ (fun t => sin (- IZR i * t + phi)) (fun t => sin (- IZR i * t + - phi)) _ _ _ Ha); auto using cont_sin.
    + intros t Ht. f_equal. rewrite rect_low by lra. ring.
    + intros t Ht. f_equal. rewrite rect_high by lra. ring.
Qed.
Lemma saw_measurable phi : measurable (fun t => phi * falling_ramp t).
Proof.
  assert (P := PI_RGT_0).
  assert (E : forall i t, phi * falling_ramp t - IZR i * t = - (phi / PI + IZR i) * t + phi) by (intros i t; unfold falling_ramp; field; lra).
  split; intros i.
  - apply (ex_RInt_ext (fun t => cos (- (phi / PI + IZR i) * t + phi))); [intros t _; rewrite E; reflexivity|].
    apply (ex_RInt_continuous (V := R_CompleteNormedModule)). auto using cont_cos.
  - apply (ex_RInt_ext (fun t => sin (- (phi / PI + IZR i) * t + phi))); [intros t _; rewrite E; reflexivity|].
    apply (ex_RInt_continuous (V := R_CompleteNormedModule)). auto using cont_sin.
Qed.
Lemma tri_measurable phi : measurable (fun t => phi * triangle_wave t).
Proof.
  assert (P := PI_RGT_0). assert (H : 0 <= PI <= turn) by lra. split; intros i.
  - apply (ex_pieces _ (fun t => cos ((2 * phi / PI - IZR i) * t + - phi)) (fun t => cos (- (2 * phi / PI + IZR i) * t + 3 * phi)) _ _ _ H); auto using cont_cos.
    + intros t Ht. f_equal. rewrite tri_low by lra. field. lra.
    + intros t Ht. f_equal. rewrite tri_high by lra. field. lra.
  - apply (ex_pieces _ (fun t => sin ((2 * phi / PI - IZR i) * t + - phi)) (fun t => sin (- (2 * phi / PI + IZR i) * t + 3 * phi)) _ _ _ H); auto using cont_sin.
    + intros t Ht. f_equal. rewrite tri_low by lra. field. lra.
    + intros t Ht. f_equal. rewrite tri_high by lra. field. lra.
Qed.
Lemma sine_measurable phi : measurable (fun t => phi * sin t).
Proof.
  split; intros i; apply (ex_RInt_continuous (V := R_CompleteNormedModule)); intros t _.
  - apply (ex_derive_continuous (fun t => cos (phi * sin t - IZR i * t))). auto_derive. auto.
  - apply (ex_derive_continuous (fun t => sin (phi * sin t - IZR i * t))). auto_derive. auto.
Qed.
