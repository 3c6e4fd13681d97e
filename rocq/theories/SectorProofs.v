(** CircularSectorAperture: acceptance and bounding box. *)
From Coq Require Import Reals Lra Psatz List Bool ZArith Lia.
From Verif Require Import Vec VecLemmas Num NumLemmas Trig TrigLemmas RayModel SurfaceModel
  SequenceProofs ApertureModel ApertureSpec ApertureProofs.
Import ListNotations.
Open Scope R_scope.

Lemma rmod_neg_pos a : rmod a (- (2 * PI)) = rmod a (2 * PI) - 2 * PI \/
  (rmod a (2 * PI) = 0 /\ rmod a (- (2 * PI)) = 0).
Proof.
  assert (Hpi := PI_RGT_0). assert (H := rmod_pos a (2 * PI) ltac:(lra)).
  destruct (rmod_shift a (2 * PI)) as [k Ek].
  destruct (Req_dec (rmod a (2 * PI)) 0) as [E|E].
  - right. split; auto. rewrite (rmod_neg_unique a (- (2 * PI)) k).
    + lra.
    + lra.
    + replace (a + - (2 * PI) * IZR k) with (a - 2 * PI * IZR k) by ring. rewrite <- Ek, E. lra.
  - left. rewrite (rmod_neg_unique a (- (2 * PI)) (k + 1)).
    + rewrite plus_IZR, Ek. ring.
    + lra.
    + rewrite plus_IZR. replace (a + - (2 * PI) * (IZR k + 1)) with (a - 2 * PI * IZR k - 2 * PI) by ring.
      rewrite <- Ek. lra.
Qed.

Lemma between_rmod a0 a1 th : - (2 * PI) <= a0 -> a1 <= 2 * PI ->
  (angle_strictly_between a0 a1 th <->
   (a0 < rmod th (2 * PI) < a1) \/ (a0 < rmod th (- (2 * PI)) < a1)).
Proof.
  intros H0 H1. assert (Hpi := PI_RGT_0). split.
  - intros [k [Hk1 Hk2]].
    destruct (Rle_lt_dec 0 (th + 2 * PI * IZR k)) as [Hp|Hp].
    + left. rewrite (rmod_pos_unique th (2 * PI) k); lra.
    + right. rewrite (rmod_neg_unique th (- (2 * PI)) (- k)); rewrite ?opp_IZR; lra.
  - intros [H|H].
    + destruct (rmod_shift th (2 * PI)) as [k E]. exists (- k)%Z. rewrite opp_IZR, E in *. lra.
    + destruct (rmod_shift th (- (2 * PI))) as [k E]. exists k. rewrite E in H. lra.
Qed.
Lemma between_shift a0 a1 th (k : Z) :
  angle_strictly_between a0 a1 (th + 2 * PI * IZR k) <-> angle_strictly_between a0 a1 th.
Proof.
  split; intros [j Hj].
  - exists (k + j)%Z. rewrite plus_IZR. lra.
  - exists (j - k)%Z. rewrite minus_IZR. lra.
Qed.

Lemma sector_mask pip r a0 a1 p : - (2 * PI) <= a0 -> a1 <= 2 * PI ->
  (shape_mask pip (Sector r a0 a1) p = true <->
   xy_length p <= r /\ angle_strictly_between a0 a1 (atan2 (vy p) (vx p))).
Proof.
  intros H0 H1. cbn [shape_mask]. rewrite (between_rmod a0 a1 _ H0 H1).
  rewrite andb_true_iff, orb_true_iff, !andb_true_iff, rle_true, !rlt_true. tauto.
Qed.
Lemma atan2_polar_shift rho th : 0 < rho -> exists k : Z,
  atan2 (rho * sin th) (rho * cos th) = th + 2 * PI * IZR k.
Proof.
  intros H. assert (Hpi := PI_RGT_0).
  destruct (rmod_shift (th + PI) (2 * PI)) as [k Ek]. assert (Hr := rmod_pos (th + PI) (2 * PI) ltac:(lra)).
  rewrite Ek in Hr.
  (* th' = th - 2 PI k in [-PI, PI) *)
  destruct (Req_dec (th - 2 * PI * IZR k) (- PI)) as [E|E].
  - exists (- k + 1)%Z. rewrite plus_IZR, opp_IZR.
    replace (th + 2 * PI * (- IZR k + 1)) with (th - 2 * PI * IZR k + 2 * PI) by ring. rewrite E.
    replace (- PI + 2 * PI) with PI by ring.
    rewrite <- (sin_shift_Z th (- k)), <- (cos_shift_Z th (- k)). rewrite opp_IZR.
    replace (th + 2 * PI * - IZR k) with (th - 2 * PI * IZR k) by ring. rewrite E, sin_neg, cos_neg.
    replace (- sin PI) with (sin PI) by (rewrite sin_PI; ring). apply atan2_of_polar; lra.
  - exists (- k)%Z. rewrite opp_IZR.
    rewrite <- (sin_shift_Z th (- k)), <- (cos_shift_Z th (- k)). rewrite opp_IZR.
    apply atan2_of_polar; lra.
Qed.
Lemma xy_polar rho th z : 0 <= rho -> xy_length (V3 (rho * cos th) (rho * sin th) z) = rho.
Proof.
  intros H. unfold xy_length; cbn [vx vy].
  replace (rho * cos th * (rho * cos th) + rho * sin th * (rho * sin th))
    with (rho * rho * (Rsqr (sin th) + Rsqr (cos th))) by (unfold Rsqr; ring).
  rewrite sin2_cos2, Rmult_1_r. apply sqrt_square; auto.
Qed.

Lemma sector_polar pip r a0 a1 rho th z : - (2 * PI) <= a0 -> a1 <= 2 * PI -> 0 < rho ->
  (shape_mask pip (Sector r a0 a1) (V3 (rho * cos th) (rho * sin th) z) = true <->
   rho <= r /\ angle_strictly_between a0 a1 th).
Proof.
  intros H0 H1 Hr. rewrite sector_mask by auto. rewrite xy_polar by lra. cbn [vx vy].
  destruct (atan2_polar_shift rho th Hr) as [k ->]. rewrite between_shift. tauto.
Qed.

(** Edge rejected: full circle, point on the positive x axis. *)
Lemma sector_full_circle pip : exists r a0 a1 rho th, - (2 * PI) <= a0 /\ a0 <= a1 /\ a1 <= 2 * PI /\
  a1 - a0 = 2 * PI /\ 0 < rho <= r /\ angle_between a0 a1 th /\
  shape_mask pip (Sector r a0 a1) (V3 (rho * cos th) (rho * sin th) 0) = false.
Proof.
  assert (Hpi := PI_RGT_0). exists 1, 0, (2 * PI), 1, 0.
  repeat split; try lra.
  - exists 0%Z. lra.
  - apply not_true_iff_false. rewrite sector_polar by lra. intros [_ [k Hk]].
    assert (H1 : 0 < IZR k) by nra. assert (H2 : IZR k < 1) by nra.
    apply lt_IZR in H1. apply lt_IZR in H2. lia.
Qed.
Lemma sector_apex pip : exists r a0 a1, - (2 * PI) <= a0 /\ a0 <= a1 /\ a1 <= 2 * PI /\ 0 < r /\
  shape_mask pip (Sector r a0 a1) vzero = false.
Proof.
  assert (Hpi := PI_RGT_0). exists 1, (PI / 4), (PI / 2). repeat split; try lra.
  apply not_true_iff_false. rewrite sector_mask by lra. cbn [vzero vx vy]. intros [_ [k Hk]].
  replace (atan2 0 0) with 0 in Hk.
  - assert (H1 : 0 < IZR k) by nra. assert (H2 : IZR k < 1) by nra.
    apply lt_IZR in H1. apply lt_IZR in H2. lia.
  - unfold atan2. destruct (Rlt_dec 0 0); lra.
Qed.

(** ** Bounding box *)
Lemma cos_arc phi a0 a1 x : a0 <= x <= a1 -> a1 - a0 < 2 * PI ->
  ~ (rmod (phi - a0) (2 * PI) <= a1 - a0) ->
  cos (x - phi) <= Rmax (cos (a0 - phi)) (cos (a1 - phi)).
Proof.
  intros Hx Hs Hd. assert (Hpi := PI_RGT_0).
  assert (Hr := rmod_pos (phi - a0) (2 * PI) ltac:(lra)).
  destruct (rmod_shift (phi - a0) (2 * PI)) as [k Ek]. set (d := rmod (phi - a0) (2 * PI)) in *.
  assert (S : forall y, cos (y - phi) = cos (y - a0 - d)).
  { intro y. rewrite Ek. rewrite <- (cos_shift_Z (y - phi) k). f_equal. ring. }
  rewrite !S. set (y := x - a0 - d). set (y0 := a0 - a0 - d). set (y1 := a1 - a0 - d).
  assert (Hy : y0 <= y <= y1) by (unfold y, y0, y1; lra).
  assert (Hy0 : - (2 * PI) < y0) by (unfold y0; lra).
  assert (Hy1 : y1 < 0) by (unfold y1; lra).
  destruct (Rle_lt_dec y (- PI)) as [H|H].
  - apply Rle_trans with (cos y0); [|apply Rmax_l].
    rewrite <- (cos_shift_Z y 1), <- (cos_shift_Z y0 1).
    destruct (Req_dec y y0) as [->|Hn]; [lra|]. left. apply cos_decreasing_1; lra.
  - apply Rle_trans with (cos y1); [|apply Rmax_r].
    rewrite <- (cos_neg y), <- (cos_neg y1).
    destruct (Req_dec y y1) as [->|Hn]; [lra|]. left. apply cos_decreasing_1; lra.
Qed.

Lemma fold_Rmax l a x : In x (a :: l) -> x <= fold_left Rmax l a.
Proof.
  revert a x. induction l as [|b l IH]; intros a x Hin; cbn [fold_left].
  - destruct Hin as [->|[]]; lra.
  - destruct Hin as [->|[->|Hin]].
    + apply Rle_trans with (Rmax x b); [apply Rmax_l|apply IH; left; auto].
    + apply Rle_trans with (Rmax a x); [apply Rmax_r|apply IH; left; auto].
    + apply IH; right; auto.
Qed.
Lemma fold_Rmin l a x : In x (a :: l) -> fold_left Rmin l a <= x.
Proof.
  revert a x. induction l as [|b l IH]; intros a x Hin; cbn [fold_left].
  - destruct Hin as [->|[]]; lra.
  - destruct Hin as [->|[->|Hin]].
    + apply Rle_trans with (Rmin x b); [apply IH; left; auto|apply Rmin_l].
    + apply Rle_trans with (Rmin a x); [apply IH; left; auto|apply Rmin_r].
    + apply IH; right; auto.
Qed.

(** The extremum of c + s (a cos x + b sin x) over the sector is among the candidates. *)
Lemma candidates_bound a0 a1 c a b x s : 0 <= s <= 1 -> a0 <= x <= a1 -> a1 - a0 < 2 * PI ->
  let v := c + s * (a * cos x + b * sin x) in
  (exists u, In u (sector_candidates a0 a1 c a b) /\ v <= u) /\
  (exists u, In u (sector_candidates a0 a1 c a b) /\ u <= v).
Proof.
  intros Hs Hx Hspan v.
  assert (Hpi := PI_RGT_0).
  set (h := sqrt (a * a + b * b)). set (phi := atan2 b a).
  destruct (atan2_polar b a) as [Ea Eb]. fold h phi in Ea, Eb.
  assert (Hh : 0 <= h) by apply sqrt_pos.
  assert (G : forall y, a * cos y + b * sin y = h * cos (y - phi)).
  { intro y. rewrite cos_minus, <- Ea, <- Eb. ring. }
  assert (Esp : rmod (a1 - a0) (2 * PI) = a1 - a0).
  { rewrite (rmod_pos_unique _ _ 0); [ring|lra|lra]. }
  unfold sector_candidates. rewrite Esp. fold phi.
  assert (At : forall y, c + a * cos y + b * sin y = c + h * cos (y - phi)).
  { intro y. rewrite <- G. ring. }
  assert (Ev : v = c + s * (h * cos (x - phi))) by (unfold v; rewrite G; auto).
  assert (Hcp : cos (phi + PI - phi) = -1) by (replace (phi + PI - phi) with PI by ring; apply cos_PI).
  assert (Hc0 : cos (phi - phi) = 1) by (rewrite Rminus_diag_eq by auto; apply cos_0).
  assert (Bx := COS_bound (x - phi)).
  split.
  - destruct (Rle_lt_dec (h * cos (x - phi)) 0) as [Hn|Hp].
    { exists c. split; [left; auto|]. rewrite Ev. nra. }
    assert (Hv : v <= c + h * cos (x - phi)) by (rewrite Ev; nra).
    destruct (rle (rmod (phi - a0) (2 * PI)) (a1 - a0)) eqn:Er.
    + exists (c + a * cos phi + b * sin phi). split; [cbn; tauto|]. rewrite At, Hc0. nra.
    + assert (Hd : ~ rmod (phi - a0) (2 * PI) <= a1 - a0) by (intro H; apply rle_true in H; congruence).
      assert (Hm := cos_arc phi a0 a1 x Hx Hspan Hd).
      unfold Rmax in Hm. destruct (Rle_dec _ _).
      * exists (c + a * cos a1 + b * sin a1). split; [cbn; tauto|]. rewrite At. nra.
      * exists (c + a * cos a0 + b * sin a0). split; [cbn; tauto|]. rewrite At. nra.
  - destruct (Rle_lt_dec 0 (h * cos (x - phi))) as [Hn|Hp].
    { exists c. split; [left; auto|]. rewrite Ev. nra. }
    assert (Hv : c + h * cos (x - phi) <= v) by (rewrite Ev; nra).
    destruct (rle (rmod (phi + PI - a0) (2 * PI)) (a1 - a0)) eqn:Er.
    + exists (c + a * cos (phi + PI) + b * sin (phi + PI)). split; [cbn; tauto|]. rewrite At, Hcp. nra.
    + assert (Hd : ~ rmod (phi + PI - a0) (2 * PI) <= a1 - a0) by (intro H; apply rle_true in H; congruence).
      assert (Hm := cos_arc (phi + PI) a0 a1 x Hx Hspan Hd).
      assert (N : forall y, cos (y - (phi + PI)) = - cos (y - phi)).
      { intro y. replace (y - (phi + PI)) with (- (phi - y + PI)) by ring. rewrite cos_neg, neg_cos.
        rewrite <- (cos_neg (y - phi)). f_equal. f_equal. ring. }
      rewrite !N in Hm. unfold Rmax in Hm. destruct (Rle_dec _ _).
      * exists (c + a * cos a1 + b * sin a1). split; [cbn; tauto|]. rewrite At. nra.
      * exists (c + a * cos a0 + b * sin a0). split; [cbn; tauto|]. rewrite At. nra.
Qed.

Lemma sector_axes t r :
  match t with None => V3 r 0 0 | Some _ => vsub (transform t (V3 r 0 0)) (transform t vzero) end = tlin t (V3 r 0 0) /\
  match t with None => V3 0 r 0 | Some _ => vsub (transform t (V3 0 r 0)) (transform t vzero) end = tlin t (V3 0 r 0).
Proof.
  destruct t as [t|]; [|split; reflexivity].
  split; rewrite (transform_tlin (Some t) (V3 _ _ _)); apply vec_eq; vec_unfold; ring.
Qed.

Lemma sector_enclosed pip r a0 a1 t len p :
  let a := mkApertureObj (Sector r a0 a1) true false t len in
  rigid_or_none t -> - (2 * PI) <= a0 -> a0 <= a1 -> a1 <= 2 * PI -> a1 - a0 < 2 * PI ->
  in_plane t p -> aperture_call pip a (Some p) = true ->
  exists lo hi, bound_lower a = Some lo /\ bound_upper a = Some hi /\ in_box lo hi p.
Proof.
  intros a Ht H0 H01 H1 Hspan Hpl Hc.
  rewrite call_local in Hc. cbn [a ao_active ao_inverted ao_shape ao_transformation negb] in Hc.
  rewrite xorb_false_l in Hc. unfold in_plane in Hpl.
  assert (Hp := transform_local t p Ht). set (q := ap_local t p) in *.
  apply sector_mask in Hc; auto. destruct Hc as [Hl [k Hk]].
  do 2 eexists. split; [reflexivity|split; [reflexivity|]].
  set (th := atan2 (vy q) (vx q)) in *. set (x := th + 2 * PI * IZR k) in *.
  destruct (atan2_polar (vy q) (vx q)) as [Ex Ey]. fold th in Ex, Ey.
  change (sqrt (vx q * vx q + vy q * vy q)) with (xy_length q) in Ex, Ey.
  rewrite <- (cos_shift_Z th k) in Ex. rewrite <- (sin_shift_Z th k) in Ey. fold x in Ex, Ey.
  set (rho := xy_length q) in *. assert (Hrho : 0 <= rho) by apply sqrt_pos.
  assert (Hs : exists s, 0 <= s <= 1 /\ rho = s * r).
  { destruct (Req_dec r 0) as [E|E].
    - exists 0. split; [lra|]. subst r. lra.
    - exists (rho / r). split; [|field; auto]. split.
      + apply Rmult_le_reg_r with r; [lra|]. replace (rho / r * r) with rho by (field; auto). lra.
      + apply Rmult_le_reg_r with r; [lra|]. replace (rho / r * r) with rho by (field; auto). lra. }
  destruct Hs as (s & Hs & Es).
  assert (Eq : q = V3 (r * (s * cos x)) (r * (s * sin x)) 0).
  { apply vec_eq; cbn [vx vy vz]; auto; [rewrite <- Ex|rewrite <- Ey]; rewrite Es; ring. }
  rewrite <- Hp. unfold bound_lower, bound_upper, sector_bound. cbn [a ao_transformation].
  destruct (sector_axes t r) as [-> ->].
  rewrite (transform_tlin t q), Eq, tlin_comb.
  set (c := transform t vzero). set (A := tlin t (V3 r 0 0)). set (B := tlin t (V3 0 r 0)). clearbody c A B.
  assert (X : forall g : vec3 -> R,
    (forall a b, g (vadd a b) = g a + g b) -> (forall k a, g (vscale k a) = k * g a) ->
    match sector_candidates a0 a1 (g c) (g A) (g B) with [] => 0 | x :: l => fold_left Rmin l x end <=
    g (vadd (vadd (vscale (s * cos x) A) (vscale (s * sin x) B)) c) <=
    match sector_candidates a0 a1 (g c) (g A) (g B) with [] => 0 | x :: l => fold_left Rmax l x end).
  { intros g G1 G2. rewrite !G1, !G2.
    destruct (candidates_bound a0 a1 (g c) (g A) (g B) x s Hs ltac:(lra) Hspan) as [(u & Hu1 & Hu2) (w & Hw1 & Hw2)].
    replace (s * cos x * g A + s * sin x * g B + g c) with (g c + s * (g A * cos x + g B * sin x)) by ring.
    unfold sector_candidates in *. split.
    - eapply Rle_trans; [|exact Hw2]. apply fold_Rmin. exact Hw1.
    - eapply Rle_trans; [exact Hu2|]. apply fold_Rmax. exact Hu1. }
  split; [|split].
  - apply (X vx); reflexivity.
  - apply (X vy); reflexivity.
  - apply (X vz); reflexivity.
Qed.

(** The box of a full circle is flat. *)
Lemma sector_box_lost pip : exists r a0 a1 p,
  let a := mkApertureObj (Sector r a0 a1) true false None true in
  - (2 * PI) <= a0 /\ a0 <= a1 /\ a1 <= 2 * PI /\ in_plane None p /\
  aperture_call pip a (Some p) = true /\
  exists lo hi, bound_lower a = Some lo /\ bound_upper a = Some hi /\ ~ in_box lo hi p.
Proof.
  assert (Hpi := PI_RGT_0).
  exists 1, 0, (2 * PI), (V3 (1 * cos (PI / 2)) (1 * sin (PI / 2)) 0). cbv zeta.
  split; [lra|]. split; [lra|]. split; [lra|]. split; [reflexivity|]. split.
  - rewrite call_local. cbn [ao_active ao_inverted ao_shape ao_transformation negb ap_local].
    rewrite xorb_false_l. apply sector_polar; try lra. split; [lra|]. exists 0%Z. lra.
  - do 2 eexists. split; [reflexivity|split; [reflexivity|]].
    intros (_ & [_ H] & _). revert H. unfold sector_bound, sector_candidates, vzero. cbn [ao_transformation transform vx vy vz].
    assert (E0 : rmod (2 * PI - 0) (2 * PI) = 0).
    { rewrite (rmod_pos_unique _ _ (-1)); lra. }
    assert (Ea : atan2 1 0 = PI / 2).
    { unfold atan2. destruct (Rlt_dec 0 0); [lra|]. destruct (Rlt_dec 0 1); lra. }
    rewrite E0, Ea. cbn [fold_left].
    assert (E1 : rmod (PI / 2 - 0) (2 * PI) = PI / 2) by (rewrite (rmod_pos_unique _ _ 0); lra).
    assert (E2 : rmod (PI / 2 + PI - 0) (2 * PI) = PI / 2 + PI) by (rewrite (rmod_pos_unique _ _ 0); lra).
    rewrite E1, E2. unfold rle. destruct (Rle_dec (PI / 2) 0); [lra|]. destruct (Rle_dec (PI / 2 + PI) 0); [lra|].
    rewrite sin_0, cos_0, sin_2PI, cos_2PI, sin_PI2.
    unfold Rmax. repeat (destruct (Rle_dec _ _)); lra.
Qed.
