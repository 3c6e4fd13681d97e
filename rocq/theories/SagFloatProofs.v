From Coq Require Import Reals Lra ZArith Floats.SpecFloat.
From Flocq Require Import Core IEEE754.BinarySingleNaN.
From Verif Require Import Vec VecLemmas Num NumLemmas RayModel SagModel SagSpec SagInterceptProofs
  SagFloatModel SagFloatSpec.
Open Scope R_scope.

Lemma conic_axis_exact : conic_intercept 100 0 (V3 0 0 (-1)) (V3 0 0 1) = Some (V3 0 0 0).
Proof.
  assert (Hreg : regular (ConicSag 100 0) (V3 0 0 (-1)) (V3 0 0 1)).
  { split; [lra|split]; [unfold is_unit, norm2, dot; vcb; ring|right]. vcb.
    replace (1 / 100 * (0 * 0 + 0 * 0 + (1 + 0) * (1 * 1))) with (1 / 100) by field.
    rewrite Rabs_right; lra. }
  apply conic_iff; auto.
  - intros q' [t ->] H. apply sheet_graph in H; [|lra]. revert H. unfold quad; vcb. intros [H1 H2].
    assert (t = 1) by nra. subst. apply vec_eq; vcb; ring.
  - exists 1. apply vec_eq; vcb; ring.
  - apply sheet_graph; [lra|]. unfold quad; vcb. lra.
Qed.

Lemma conic_float_lost : exists r k o u, exact_vec o = V3 0 0 (-1) /\ exact_vec u = V3 0 0 1 /\
  conic_intercept (exact r) (exact k) (exact_vec o) (exact_vec u) = Some (V3 0 0 0) /\
  fz (f_conic_intercept r k o u) = S754_infinity false.
Proof.
  exists (fnat 100), (fnat 0), (FV (fnat 0) (fnat 0) (fnat (-1))), (FV (fnat 0) (fnat 0) (fnat 1)).
  assert (H0 : exact (fnat 0) = 0) by reflexivity.
  assert (H1 : exact (fnat 1) = 1) by (vm_compute fnat; unfold exact, SF2R, F2R; simpl; lra).
  assert (Hm : exact (fnat (-1)) = -1) by (vm_compute fnat; unfold exact, SF2R, F2R; simpl; lra).
  assert (Hh : exact (fnat 100) = 100) by (vm_compute fnat; unfold exact, SF2R, F2R; simpl; lra).
  unfold exact_vec; cbn [fx fy fz]. rewrite H0, H1, Hm, Hh.
  split; [reflexivity|split; [reflexivity|split; [exact conic_axis_exact|]]].
  vm_compute. reflexivity.
Qed.

Lemma conic_float_flat_lost : exists o u, vz (exact_vec u) <> 0 /\
  fz (f_conic_intercept (S754_infinity false) (fnat 0) o u) = S754_infinity false.
Proof.
  exists (FV (fnat 0) (fnat 0) (fnat (-1))), (FV (fnat 8/fnat 17)%F (fnat 0) (fnat 15/fnat 17)%F).
  split; [|vm_compute; reflexivity].
  cbn [exact_vec vz fz].
  assert (E : (fnat 15 / fnat 17)%F = S754_finite false 7947528754183228 (-53)) by (vm_compute; reflexivity).
  rewrite E. unfold exact, SF2R, F2R; simpl. lra.
Qed.
