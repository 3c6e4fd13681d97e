From Coq Require Import Reals Lra Psatz.
From Verif Require Import Vec VecLemmas Num NumLemmas Trig TrigLemmas AngleModel.
Open Scope R_scope.

Lemma sc a : sin a * sin a + cos a * cos a = 1.
Proof. assert (H := sin2_cos2 a). unfold Rsqr in H. exact H. Qed.
Lemma direction_unit ax ay : is_unit (direction ax ay).
Proof.
  unfold is_unit, norm2, dot, direction; cbn [vx vy vz].
  replace (- cos ay * sin ax * (- cos ay * sin ax) + - sin ay * - sin ay + cos ay * cos ax * (cos ay * cos ax))
    with (cos ay * cos ay * (sin ax * sin ax + cos ax * cos ax) + sin ay * sin ay) by ring.
  rewrite sc. assert (H := sc ay). lra.
Qed.
Lemma oasin_in x : -1 <= x <= 1 -> oasin x = Some (asin x).
Proof. intros [H1 H2]. unfold oasin. destruct (Rle_dec (-1) x); [|contradiction]. destruct (Rle_dec x 1); [auto|contradiction]. Qed.
Lemma angles_unit d : is_unit d -> angles d = Some (- atan2 (vx d) (vz d), - asin (vy d)).
Proof.
  intros Hu. unfold angles. assert (Hl : vlen d = 1) by (apply vlen_unit; auto).
  rewrite Hl, odiv_nz by lra. cbn [obind]. replace (vy d / 1) with (vy d) by field.
  rewrite oasin_in; [reflexivity|]. unfold is_unit, norm2, dot in Hu.
  assert (H1 := Rle_0_sqr (vx d)). assert (H2 := Rle_0_sqr (vz d)). unfold Rsqr in *. split; nra.
Qed.
Lemma angles_direction ax ay : - PI < ax < PI -> - (PI / 2) < ay < PI / 2 ->
  angles (direction ax ay) = Some (ax, ay).
Proof.
  intros Hx Hy. rewrite angles_unit by apply direction_unit.
  unfold direction; cbn [vx vy vz]. assert (Hc : 0 < cos ay) by (apply cos_gt_0; lra).
  f_equal. f_equal.
  - replace (- cos ay * sin ax) with (cos ay * sin (- ax)) by (rewrite sin_neg; ring).
    replace (cos ay * cos ax) with (cos ay * cos (- ax)) by (rewrite cos_neg; ring).
    rewrite atan2_of_polar by lra. lra.
  - rewrite <- sin_neg. rewrite asin_sin by lra. lra.
Qed.
Lemma direction_angles d : is_unit d -> exists ax ay, angles d = Some (ax, ay) /\ direction ax ay = d.
Proof.
  intros Hu. do 2 eexists. split; [apply angles_unit; auto|].
  destruct d as [x y z]. unfold is_unit, norm2, dot in Hu; cbn [vx vy vz] in *.
  assert (Hy : -1 <= y <= 1).
  { assert (H1 := Rle_0_sqr x). assert (H2 := Rle_0_sqr z). unfold Rsqr in *. split; nra. }
  destruct (atan2_polar x z) as [Hz Hx].
  assert (Hr : cos (asin y) = sqrt (z * z + x * x)).
  { rewrite cos_asin by auto. f_equal. unfold Rsqr. lra. }
  unfold direction. rewrite cos_neg, !sin_neg, Hr, cos_neg, sin_asin by auto.
  apply vec_eq; cbn [vx vy vz]; lra.
Qed.
