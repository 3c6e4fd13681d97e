(** Groove efficiencies: bounds, and comparison with thin-grating theory. *)
From Coq Require Import Reals Lra Psatz List Bool ZArith Lia.
From Coquelicot Require Import Coquelicot.
From Verif Require Import Vec VecLemmas Num NumLemmas RayModel SurfaceModel SnellSpec MaterialModel
  RulingModel RulingSpec RulingProofs.
Import ListNotations.
Open Scope R_scope.

Ltac nzm := unfold Rdiv; repeat match goal with
  | |- _ => assumption
  | |- _ * _ <> 0 => apply Rmult_integral_contrapositive_currified
  | |- / _ <> 0 => apply Rinv_neq_0_compat
  end; try (apply Rgt_not_eq; lra); try lra.

(** ** Trigonometry *)
Lemma sin_p2pi x : sin (x + 2 * PI) = sin x.
Proof. rewrite <- (sin_period x 1). f_equal. cbn. ring. Qed.
Lemma cos_p2pi x : cos (x + 2 * PI) = cos x.
Proof. rewrite <- (cos_period x 1). f_equal. cbn. ring. Qed.
Lemma trig_shift_2pi (i : Z) x : sin (x + IZR i * (2 * PI)) = sin x /\ cos (x + IZR i * (2 * PI)) = cos x.
Proof.
  revert x. induction i as [|i IH|i IH] using Z.peano_ind; intros x.
  - rewrite Rmult_0_l, Rplus_0_r. auto.
  - rewrite succ_IZR. replace (x + (IZR i + 1) * (2 * PI)) with ((x + IZR i * (2 * PI)) + 2 * PI) by ring.
    rewrite sin_p2pi, cos_p2pi. apply IH.
  - rewrite <- (sin_p2pi (x + _)), <- (cos_p2pi (x + _)), <- Z.sub_1_r, minus_IZR.
    replace (x + (IZR i - 1) * (2 * PI) + 2 * PI) with (x + IZR i * (2 * PI)) by ring. apply IH.
Qed.
Lemma sin_m2pi i x : sin (x - IZR i * (2 * PI)) = sin x.
Proof. rewrite <- (proj1 (trig_shift_2pi (- i) x)). f_equal. rewrite opp_IZR. ring. Qed.
Lemma cos_m2pi i x : cos (x - IZR i * (2 * PI)) = cos x.
Proof. rewrite <- (proj2 (trig_shift_2pi (- i) x)). f_equal. rewrite opp_IZR. ring. Qed.
Lemma cos_pi_even i : (i mod 2 = 0)%Z -> cos (IZR i * PI) = 1.
Proof.
  intros H. assert (E : (i = 2 * (i / 2))%Z) by (rewrite (Z.div_mod i 2) at 1; lia).
  rewrite E, mult_IZR. replace (2 * IZR (i / 2) * PI) with (0 + IZR (i / 2) * (2 * PI)) by ring.
  rewrite (proj2 (trig_shift_2pi _ _)). apply cos_0.
Qed.
Lemma cos_pi_odd i : (i mod 2 <> 0)%Z -> cos (IZR i * PI) = -1.
Proof.
  intros H. assert (E : (i = 2 * (i / 2) + 1)%Z).
  { rewrite (Z.div_mod i 2) at 1 by lia. assert (0 <= i mod 2 < 2)%Z by (apply Z.mod_pos_bound; lia). lia. }
  rewrite E, plus_IZR, mult_IZR. replace ((2 * IZR (i / 2) + 1) * PI) with (PI + IZR (i / 2) * (2 * PI)) by ring.
  rewrite (proj2 (trig_shift_2pi _ _)). apply cos_PI.
Qed.
Lemma sin_sq_shift i x : sin (x + IZR i * PI) * sin (x + IZR i * PI) = sin x * sin x.
Proof.
  revert x. induction i as [|i IH|i IH] using Z.peano_ind; intros x.
  - rewrite Rmult_0_l, Rplus_0_r. auto.
  - rewrite succ_IZR. replace (x + (IZR i + 1) * PI) with ((x + IZR i * PI) + PI) by ring.
    rewrite neg_sin. rewrite <- IH. ring.
  - rewrite <- (IH x). rewrite <- Z.sub_1_r, minus_IZR.
    replace (x + IZR i * PI) with ((x + (IZR i - 1) * PI) + PI) by ring. rewrite neg_sin. ring.
Qed.
Lemma sin_sq_le x : sin x * sin x <= x * x.
Proof.
  destruct (Rtotal_order x 0) as [H|[->|H]].
  - assert (A := sin_lt_x (- x) ltac:(lra)). rewrite sin_neg in A.
    assert (B : x <= sin x) by lra. destruct (Rle_dec (sin x) (- x)); [nra|].
    assert (C := SIN_bound x). destruct (Rle_dec (- x) 1).
    + assert (D : 0 <= sin (- x)) by (apply sin_ge_0; assert (P := PI_RGT_0); assert (P2 := PI2_1); unfold PI2 in P2; lra).
      rewrite sin_neg in D. lra.
    + nra.
  - rewrite sin_0. lra.
  - assert (A := sin_lt_x x H). destruct (Rle_dec (- x) (sin x)); [nra|].
    assert (C := SIN_bound x). destruct (Rle_dec x 1).
    + assert (D : 0 <= sin x) by (apply sin_ge_0; assert (P := PI_RGT_0); assert (P2 := PI2_1); unfold PI2 in P2; lra).
      lra.
    + nra.
Qed.
Lemma sin_sq_1 x : 0 <= sin x * sin x <= 1.
Proof. assert (H := SIN_bound x). nra. Qed.
Lemma cos_sq_1 x : 0 <= cos x * cos x <= 1.
Proof. assert (H := COS_bound x). nra. Qed.
Lemma trig1 x : sin x * sin x + cos x * cos x = 1.
Proof. assert (H := sin2_cos2 x). unfold Rsqr in H. exact H. Qed.

(** ** Integrals *)
Lemma lin_cos p q a b : p <> 0 -> is_RInt (fun t => cos (p * t + q)) a b ((sin (p * b + q) - sin (p * a + q)) / p).
Proof.
  intros Hp. replace ((sin (p * b + q) - sin (p * a + q)) / p) with (minus (sin (p * b + q) / p) (sin (p * a + q) / p)).
  2: { unfold minus, plus, opp; cbn. field. auto. }
  apply (is_RInt_derive (fun t => sin (p * t + q) / p)).
  - intros x _. auto_derive; auto. field. auto.
  - intros x _. apply (ex_derive_continuous (fun t => cos (p * t + q))). auto_derive. auto.
Qed.
Lemma lin_sin p q a b : p <> 0 -> is_RInt (fun t => sin (p * t + q)) a b ((cos (p * a + q) - cos (p * b + q)) / p).
Proof.
  intros Hp. replace ((cos (p * a + q) - cos (p * b + q)) / p) with (minus (- cos (p * b + q) / p) (- cos (p * a + q) / p)).
  2: { unfold minus, plus, opp; cbn. field. auto. }
  apply (is_RInt_derive (fun t => - cos (p * t + q) / p)).
  - intros x _. auto_derive; auto. field. auto.
  - intros x _. apply (ex_derive_continuous (fun t => sin (p * t + q))). auto_derive. auto.
Qed.
Lemma const_int (k : R) a b : is_RInt (fun _ => k) a b ((b - a) * k).
Proof. apply (is_RInt_const a b k). Qed.
Lemma pieces (f g h : R -> R) a c b x y : a <= c <= b ->
  (forall t, a < t < c -> g t = f t) -> (forall t, c < t < b -> h t = f t) ->
  is_RInt g a c x -> is_RInt h c b y -> RInt f a b = x + y.
Proof.
  intros H Hg Hh Ig Ih. apply is_RInt_unique. change (x + y) with (plus x y).
  apply (is_RInt_Chasles f a c b).
  - apply (is_RInt_ext g); auto. intros t. rewrite Rmin_left, Rmax_right by lra. auto.
  - apply (is_RInt_ext h); auto. intros t. rewrite Rmin_left, Rmax_right by lra. auto.
Qed.

(** ** Rectangular grooves *)
Lemma rect_low a t : t < a -> rectangle_wave a t = 1.
Proof. intros. unfold rectangle_wave. destruct (Rlt_dec t a); lra. Qed.
Lemma rect_high a t : a < t -> rectangle_wave a t = -1.
Proof. intros. unfold rectangle_wave. destruct (Rlt_dec t a); lra. Qed.

Lemma rect_power_0 phi a : 0 <= a <= 2 * PI ->
  order_power (fun t => phi * rectangle_wave a t) 0 =
  cos phi * cos phi + sin phi * sin phi * ((a / PI - 1) * (a / PI - 1)).
Proof.
  intros Ha. assert (P := PI_RGT_0). unfold order_power.
  rewrite (pieces _ (fun _ => cos phi) (fun _ => cos phi) 0 a (2 * PI) ((a - 0) * cos phi) ((2 * PI - a) * cos phi)); auto using const_int.
  2: { intros t Ht. f_equal. rewrite rect_low by lra. ring. }
  2: { intros t Ht. rewrite <- (cos_neg phi). f_equal. rewrite rect_high by lra. ring. }
  rewrite (pieces _ (fun _ => sin phi) (fun _ => - sin phi) 0 a (2 * PI) ((a - 0) * sin phi) ((2 * PI - a) * - sin phi)); auto using const_int.
  2: { intros t Ht. f_equal. rewrite rect_low by lra. ring. }
  2: { intros t Ht. rewrite <- (sin_neg phi). f_equal. rewrite rect_high by lra. ring. }
  unfold square. field. lra.
Qed.

Lemma rect_power phi a i : 0 <= a <= 2 * PI -> i <> 0%Z ->
  order_power (fun t => phi * rectangle_wave a t) i =
  2 / square (IZR i * PI) * (1 - cos (IZR i * a)) * (sin phi * sin phi).
Proof.
  intros Ha Hi. assert (P := PI_RGT_0). assert (Hz : IZR i <> 0) by (apply not_0_IZR; auto).
  unfold order_power. set (k := IZR i) in *.
  erewrite (pieces _ (fun t => cos (- k * t + phi)) (fun t => cos (- k * t + - phi)) 0 a (2 * PI) _ _ Ha); cycle 1.
  { intros t Ht. f_equal. rewrite rect_low by lra. ring. }
  { intros t Ht. f_equal. rewrite rect_high by lra. ring. }
  { apply lin_cos. lra. }
  { apply lin_cos. lra. }
  erewrite (pieces _ (fun t => sin (- k * t + phi)) (fun t => sin (- k * t + - phi)) 0 a (2 * PI) _ _ Ha); cycle 1.
  { intros t Ht. f_equal. rewrite rect_low by lra. ring. }
  { intros t Ht. f_equal. rewrite rect_high by lra. ring. }
  { apply lin_sin. lra. }
  { apply lin_sin. lra. }
  replace (- k * (2 * PI) + - phi) with (- phi - IZR i * (2 * PI)) by (unfold k; ring).
  rewrite sin_m2pi, cos_m2pi. rewrite !Rmult_0_r, !Rplus_0_l.
  replace (- k * a + phi) with (phi - k * a) by ring. replace (- k * a + - phi) with (- (phi + k * a)) by ring.
  rewrite !sin_neg, !cos_neg, sin_minus, sin_plus, cos_minus, cos_plus.
  assert (T := trig1 (k * a)). set (c := cos (k * a)) in *. set (s := sin (k * a)) in *.
  set (sp := sin phi). set (cp := cos phi). clearbody sp cp c s k.
  unfold square. transitivity (sp * sp * ((1 - c) * (1 - c) + s * s) / ((k * PI) * (k * PI))); [field; lra|].
  replace (s * s) with (1 - c * c) by lra. field. lra.
Qed.

Lemma rect_eff p h duty i w c : 0 < duty < 1 -> w <> 0 -> c <> 0 -> p = RectangularGroove h duty ->
  profile_efficiency p i w c = Some (thin_grating p i w c).
Proof.
  intros Hd Hw Hc ->. assert (P := PI_RGT_0). cbn [profile_efficiency thin_grating unit_shape groove_depth].
  set (a := 2 * PI * duty). assert (Ha : 0 <= a <= 2 * PI) by (unfold a; nra).
  assert (Hs : 0 < 2 * (1 - cos a)).
  { assert (C : cos a < 1); [|lra]. assert (B := COS_bound a). destruct (Req_dec (cos a) 1) as [E|]; [|lra]. exfalso.
    assert (T := trig1 a). rewrite E in T. assert (Z : sin a = 0) by nra.
    destruct (sin_eq_O_2PI_0 a) as [X|[X|X]]; auto; try lra; unfold a in *.
    - nra.
    - rewrite X, cos_PI in E. lra.
    - nra. }
  set (s := sqrt (2 * (1 - cos a))). assert (Hsp : 0 < s) by (apply sqrt_lt_R0; auto).
  rewrite odiv_nz by lra. cbn [obind]. rewrite odiv_nz by (apply Rgt_not_eq, Rdiv_lt_0_compat; lra). cbn [obind].
  rewrite odiv_nz by nzm. cbn [obind]. rewrite odiv_nz by lra. cbn [obind].
  replace (PI * (PI * (h / (PI / (2 * s))) / (w * c)) / s) with (half_delay h w c).
  2: { unfold half_delay. field. repeat split; try lra; auto. }
  change (thin_grating (RectangularGroove h duty) i w c) with (order_power (fun t => half_delay h w c * rectangle_wave a t) i).
  set (phi := half_delay h w c). clearbody phi.
  destruct (Z.eqb_spec i 0) as [->|Hi].
  - rewrite rect_power_0 by auto. f_equal. assert (T := trig1 phi). unfold square.
    replace (cos phi * cos phi) with (1 - sin phi * sin phi) by lra. field. lra.
  - rewrite rect_power by auto. assert (Hz : IZR i <> 0) by (apply not_0_IZR; auto).
    rewrite odiv_nz. 2: { unfold square. nzm. }
    cbn [obind]. reflexivity.
Qed.

(** ** Square grooves *)
Lemma square_eff p h i w c : w <> 0 -> c <> 0 -> p = Square h ->
  profile_efficiency p i w c = Some (thin_grating p i w c).
Proof.
  intros Hw Hc ->. assert (P := PI_RGT_0). cbn [profile_efficiency].
  rewrite odiv_nz by lra. cbn [obind]. rewrite odiv_nz by nzm. cbn [obind].
  replace (PI * (PI * (h / (PI / 4)) / (w * c)) / 2) with (half_delay h w c).
  2: { unfold half_delay. field. repeat split; try lra; auto. }
  change (thin_grating (Square h) i w c) with (order_power (fun t => half_delay h w c * rectangle_wave PI t) i).
  set (phi := half_delay h w c). clearbody phi.
  destruct (Z.eqb_spec i 0) as [->|Hi].
  - rewrite rect_power_0 by lra. f_equal. unfold square. field. lra.
  - rewrite rect_power by (auto; lra). assert (Hz : IZR i <> 0) by (apply not_0_IZR; auto).
    destruct (Z.eqb_spec (i mod 2) 0).
    + rewrite cos_pi_even by auto. f_equal. unfold Rdiv. ring.
    + rewrite cos_pi_odd by auto. rewrite odiv_nz by nzm.
      cbn [obind]. f_equal. unfold square. field. lra.
Qed.

(** ** Sawtooth grooves *)
Lemma saw_power phi i : phi / PI + IZR i <> 0 ->
  order_power (fun t => phi * falling_ramp t) i = square (sin phi / (PI * (phi / PI + IZR i))).
Proof.
  intros Hp. assert (P := PI_RGT_0). unfold order_power.
  set (p := - (phi / PI + IZR i)). assert (Hn : p <> 0) by (unfold p; lra).
  rewrite (RInt_ext _ (fun t => cos (p * t + phi))).
  2: { intros t _. f_equal. unfold falling_ramp, p. field. lra. }
  rewrite (RInt_ext (fun t => sin _) (fun t => sin (p * t + phi))).
  2: { intros t _. f_equal. unfold falling_ramp, p. field. lra. }
  rewrite (is_RInt_unique _ _ _ _ (lin_cos p phi 0 (2 * PI) Hn)), (is_RInt_unique _ _ _ _ (lin_sin p phi 0 (2 * PI) Hn)).
  replace (p * (2 * PI) + phi) with (- phi - IZR i * (2 * PI)) by (unfold p; field; lra).
  rewrite sin_m2pi, cos_m2pi, sin_neg, cos_neg. rewrite !Rmult_0_r, !Rplus_0_l.
  replace (phi / PI + IZR i) with (- p) by (unfold p; ring). clearbody p. unfold square. field. lra.
Qed.
Lemma saw_power_blaze phi i : phi / PI + IZR i = 0 -> order_power (fun t => phi * falling_ramp t) i = 1.
Proof.
  intros Hp. assert (P := PI_RGT_0). unfold order_power.
  assert (E : forall t, phi * falling_ramp t - IZR i * t = phi).
  { intros t. unfold falling_ramp. transitivity (phi - (phi / PI + IZR i) * t); [field; lra|]. rewrite Hp. ring. }
  rewrite (RInt_ext _ (fun t => cos phi)) by (intros t _; rewrite E; auto).
  rewrite (RInt_ext (fun t => sin _) (fun t => sin phi)) by (intros t _; rewrite E; auto).
  rewrite (is_RInt_unique _ _ _ _ (const_int (cos phi) 0 (2 * PI))), (is_RInt_unique _ _ _ _ (const_int (sin phi) 0 (2 * PI))).
  rewrite <- (trig1 phi). unfold square. field. lra.
Qed.
Lemma saw_eff_gen h i w c : w <> 0 -> c <> 0 ->
  profile_efficiency (Sawtooth h) i w c =
  obind (odiv (sin (half_delay h w c)) (PI * (half_delay h w c / PI + IZR i))) (fun q => Some (square q)).
Proof.
  intros Hw Hc. assert (P := PI_RGT_0). cbn [profile_efficiency].
  rewrite odiv_nz by lra. cbn [obind]. rewrite odiv_nz by nzm. cbn [obind].
  replace (PI * (h / (PI / 2)) / (w * c)) with (half_delay h w c / PI).
  2: { unfold half_delay. field. repeat split; try lra; auto. }
  replace (PI * (half_delay h w c / PI)) with (half_delay h w c) by (field; lra). reflexivity.
Qed.
Lemma saw_eff p h i w c : w <> 0 -> c <> 0 -> p = Sawtooth h -> half_delay h w c / PI + IZR i <> 0 ->
  profile_efficiency p i w c = Some (thin_grating p i w c).
Proof.
  intros Hw Hc -> Hb. assert (P := PI_RGT_0). rewrite saw_eff_gen by auto.
  rewrite odiv_nz by nzm. cbn [obind]. f_equal.
  symmetry. apply saw_power. exact Hb.
Qed.
Lemma saw_blaze p h i w c : w <> 0 -> c <> 0 -> p = Sawtooth h -> half_delay h w c / PI + IZR i = 0 ->
  profile_efficiency p i w c = None /\ thin_grating p i w c = 1.
Proof.
  intros Hw Hc -> Hb. split.
  - rewrite saw_eff_gen by auto. rewrite Hb, Rmult_0_r, odiv_0. reflexivity.
  - apply saw_power_blaze. exact Hb.
Qed.

(** ** Triangular grooves *)
Lemma tri_low t : t < PI -> triangle_wave t = 2 * t / PI - 1.
Proof. intros. unfold triangle_wave. destruct (Rlt_dec t PI); lra. Qed.
Lemma tri_high t : PI < t -> triangle_wave t = 3 - 2 * t / PI.
Proof. intros. unfold triangle_wave. destruct (Rlt_dec t PI); lra. Qed.

Lemma tri_power_0 phi : phi <> 0 -> order_power (fun t => phi * triangle_wave t) 0 = square (sin phi / phi).
Proof.
  intros Hp. assert (P := PI_RGT_0). unfold order_power.
  set (p := 2 * phi / PI). assert (Hn : p <> 0).
  { unfold p. nzm. }
  assert (Hn' : - p <> 0) by lra.
  erewrite (pieces _ (fun t => cos (p * t + - phi)) (fun t => cos (- p * t + 3 * phi)) 0 PI (2 * PI) _ _ ltac:(lra)); cycle 1.
  { intros t Ht. f_equal. rewrite tri_low by lra. unfold p. field. lra. }
  { intros t Ht. f_equal. rewrite tri_high by lra. unfold p. field. lra. }
  { apply lin_cos; auto. }
  { apply lin_cos; auto. }
  erewrite (pieces _ (fun t => sin (p * t + - phi)) (fun t => sin (- p * t + 3 * phi)) 0 PI (2 * PI) _ _ ltac:(lra)); cycle 1.
  { intros t Ht. f_equal. rewrite tri_low by lra. unfold p. field. lra. }
  { intros t Ht. f_equal. rewrite tri_high by lra. unfold p. field. lra. }
  { apply lin_sin; auto. }
  { apply lin_sin; auto. }
  replace (p * PI + - phi) with phi by (unfold p; field; lra). replace (p * 0 + - phi) with (- phi) by ring.
  replace (- p * (2 * PI) + 3 * phi) with (- phi) by (unfold p; field; lra).
  replace (- p * PI + 3 * phi) with phi by (unfold p; field; lra).
  rewrite sin_neg, cos_neg. unfold square, p. field. split; auto; lra.
Qed.
Lemma tri_eff_0 p h w c : w <> 0 -> c <> 0 -> p = Triangular h -> half_delay h w c <> 0 ->
  profile_efficiency p 0 w c = Some (thin_grating p 0 w c).
Proof.
  intros Hw Hc -> Hh. assert (P := PI_RGT_0). cbn [profile_efficiency].
  assert (Hsq : square PI / 8 <> 0) by (unfold square; apply Rgt_not_eq, Rdiv_lt_0_compat; nra).
  rewrite odiv_nz by auto. cbn [obind]. rewrite odiv_nz by nzm. cbn [obind].
  replace (PI * (h / (square PI / 8)) / (w * c)) with (4 * half_delay h w c / square PI).
  2: { unfold half_delay, square. field. repeat split; try lra; auto. }
  change (thin_grating (Triangular h) 0 w c) with (order_power (fun t => half_delay h w c * triangle_wave t) 0).
  set (phi := half_delay h w c) in *. rewrite tri_power_0 by auto.
  replace (square PI * (4 * phi / square PI) / 4) with phi by (unfold square; field; lra).
  rewrite odiv_nz.
  - cbn [obind]. rewrite Z.mod_0_l by lia. cbn [Z.eqb]. f_equal. unfold square. field. split; auto; lra.
  - unfold square. replace (PI * (4 * phi / (PI * PI)) / 2 * (PI * (4 * phi / (PI * PI)) / 2) + 0 * 0) with ((2 * phi / PI) * (2 * phi / PI)) by (field; lra).
    nzm.
Qed.
(** Order one, delay pi: the code has 4 / (5 pi), theory 4 / (3 pi). *)
Lemma tri_power_witness : order_power (fun t => PI * triangle_wave t) 1 = square (4 / (3 * PI)).
Proof.
  assert (P := PI_RGT_0). unfold order_power. assert (Z1 : 1 <> 0) by lra. assert (Z3 : -3 <> 0) by lra.
  erewrite (pieces _ (fun t => cos (1 * t + - PI)) (fun t => cos (-3 * t + 3 * PI)) 0 PI (2 * PI) _ _ ltac:(lra)); cycle 1.
  { intros t Ht. f_equal. rewrite tri_low by lra. field. lra. }
  { intros t Ht. f_equal. rewrite tri_high by lra. field. lra. }
  { apply lin_cos; auto. }
  { apply lin_cos; auto. }
  erewrite (pieces _ (fun t => sin (1 * t + - PI)) (fun t => sin (-3 * t + 3 * PI)) 0 PI (2 * PI) _ _ ltac:(lra)); cycle 1.
  { intros t Ht. f_equal. rewrite tri_low by lra. field. lra. }
  { intros t Ht. f_equal. rewrite tri_high by lra. field. lra. }
  { apply lin_sin; auto. }
  { apply lin_sin; auto. }
  replace (1 * PI + - PI) with 0 by ring. replace (1 * 0 + - PI) with (- PI) by ring.
  replace (-3 * (2 * PI) + 3 * PI) with (- PI - IZR 1 * (2 * PI)) by ring.
  replace (-3 * PI + 3 * PI) with 0 by ring. rewrite sin_m2pi, cos_m2pi, sin_neg, cos_neg, sin_0, cos_0, sin_PI, cos_PI.
  unfold square. field. lra.
Qed.
Lemma tri_witness : exists h w c, 0 < h /\ 0 < w /\ 0 < c <= 1 /\
  profile_efficiency (Triangular h) 1 w c = Some (square (4 / (5 * PI))) /\
  thin_grating (Triangular h) 1 w c = square (4 / (3 * PI)) /\ square (4 / (5 * PI)) < square (4 / (3 * PI)).
Proof.
  exists (1 / 2), 1, 1. assert (P := PI_RGT_0). split; [lra|]. split; [lra|]. split; [lra|]. split.
  - cbn [profile_efficiency]. assert (Hsq : square PI / 8 <> 0) by (unfold square; apply Rgt_not_eq, Rdiv_lt_0_compat; nra).
    rewrite odiv_nz by auto. cbn [obind]. rewrite odiv_nz by lra. cbn [obind].
    replace (PI * (1 / 2 / (square PI / 8)) / (1 * 1)) with (4 / PI) by (unfold square; field; lra).
    replace (square PI * (4 / PI) / 4) with PI by (unfold square; field; lra).
    replace (square (PI * (4 / PI) / 2) + square 1) with 5 by (unfold square; field; lra).
    rewrite odiv_nz by lra. cbn [obind]. cbn [Z.modulo Z.eqb]. change ((1 mod 2 =? 0)%Z) with false. cbv iota.
    rewrite cos_PI. f_equal. unfold square. field. lra.
  - change (thin_grating (Triangular (1 / 2)) 1 1 1) with (order_power (fun t => half_delay (1 / 2) 1 1 * triangle_wave t) 1).
    replace (half_delay (1 / 2) 1 1) with PI by (unfold half_delay; field). split; [apply tri_power_witness|].
    unfold square. assert (0 < / PI) by (apply Rinv_0_lt_compat; auto).
    replace (4 / (5 * PI)) with (4 / 5 * / PI) by (field; lra). replace (4 / (3 * PI)) with (4 / 3 * / PI) by (field; lra). nra.
Qed.

(** ** Sinusoidal grooves *)
Lemma bessel_cont n x t : continuous (fun t => cos (IZR n * t - x * sin t)) t.
Proof. apply (ex_derive_continuous (fun t => cos (IZR n * t - x * sin t))). auto_derive. auto. Qed.
Lemma fold_cos (f : R -> R) : (forall t, continuous f t) -> (forall t, f (2 * PI - t) = f t) ->
  RInt f 0 (2 * PI) = 2 * RInt f 0 PI.
Proof.
  intros Hc Hs. assert (P := PI_RGT_0).
  assert (E : forall a b, ex_RInt f a b) by (intros; apply (ex_RInt_continuous (V := R_CompleteNormedModule)); auto).
  rewrite <- (RInt_Chasles f 0 PI (2 * PI)) by auto.
  assert (G := RInt_comp_lin f (-1) (2 * PI) PI 0 ltac:(apply E)).
  replace (-1 * PI + 2 * PI) with PI in G by ring. replace (-1 * 0 + 2 * PI) with (2 * PI) in G by ring.
  rewrite <- G. rewrite (RInt_ext (fun y => scal (-1) (f (-1 * y + 2 * PI))) (fun t => opp (f t))).
  2: { intros t _. cbv beta. replace (-1 * t + 2 * PI) with (2 * PI - t) by ring. rewrite Hs.
       unfold scal, opp; cbn. unfold mult; cbn. ring. }
  assert (O : RInt (fun t => opp (f t)) PI 0 = opp (RInt f PI 0)) by (apply (RInt_opp (V := R_CompleteNormedModule)); auto).
  rewrite O. rewrite <- (opp_RInt_swap f 0 PI) by auto.
  unfold plus, opp; cbn. ring.
Qed.
Lemma fold_sin (f : R -> R) : (forall t, continuous f t) -> (forall t, f (2 * PI - t) = - f t) -> RInt f 0 (2 * PI) = 0.
Proof.
  intros Hc Hs. assert (P := PI_RGT_0).
  assert (E : forall a b, ex_RInt f a b) by (intros; apply (ex_RInt_continuous (V := R_CompleteNormedModule)); auto).
  rewrite <- (RInt_Chasles f 0 PI (2 * PI)) by auto.
  assert (G := RInt_comp_lin f (-1) (2 * PI) PI 0 ltac:(apply E)).
  replace (-1 * PI + 2 * PI) with PI in G by ring. replace (-1 * 0 + 2 * PI) with (2 * PI) in G by ring.
  rewrite <- G. rewrite (RInt_ext (fun y => scal (-1) (f (-1 * y + 2 * PI))) f).
  2: { intros t _. replace (-1 * t + 2 * PI) with (2 * PI - t) by ring. rewrite Hs. unfold scal; cbn. unfold mult; cbn. ring. }
  rewrite <- (opp_RInt_swap f 0 PI) by auto. unfold plus, opp; cbn. ring.
Qed.
Lemma sin_power phi i : order_power (fun t => phi * sin t) i = square (bessel i phi).
Proof.
  assert (P := PI_RGT_0). unfold order_power.
  assert (A : forall t, sin (2 * PI - t) = - sin t) by (intro t; replace (2 * PI - t) with (- t + 2 * PI) by ring; rewrite sin_p2pi; apply sin_neg).
  assert (B : forall t, phi * sin (2 * PI - t) - IZR i * (2 * PI - t) = - (phi * sin t - IZR i * t) - IZR i * (2 * PI)) by (intro t; rewrite A; ring).
  rewrite fold_cos.
  - rewrite fold_sin.
    + rewrite (RInt_ext _ (fun t => cos (IZR i * t - phi * sin t))).
      2: { intros t _. rewrite <- cos_neg. f_equal. ring. }
      unfold bessel, square. field. lra.
    + intro t. apply (ex_derive_continuous (fun t => sin (phi * sin t - IZR i * t))). auto_derive. auto.
    + intro t. rewrite B, sin_m2pi, sin_neg. reflexivity.
  - intro t. apply (ex_derive_continuous (fun t => cos (phi * sin t - IZR i * t))). auto_derive. auto.
  - intro t. rewrite B, cos_m2pi, cos_neg. reflexivity.
Qed.
Lemma sin_eff h i w c : w <> 0 -> c <> 0 ->
  profile_efficiency (Sinusoidal h) i w c = Some (bessel i (half_delay h w c)).
Proof.
  intros Hw Hc. cbn [profile_efficiency]. rewrite odiv_nz by nzm. cbn [obind].
  do 2 f_equal. unfold half_delay. field. auto.
Qed.
(** The code returns the amplitude of the order, not its power. *)
Lemma sin_eff_squared p h i w c : w <> 0 -> c <> 0 -> p = Sinusoidal h ->
  exists e, profile_efficiency p i w c = Some e /\ thin_grating p i w c = e * e.
Proof.
  intros Hw Hc ->. exists (bessel i (half_delay h w c)). split; [apply sin_eff; auto|].
  apply (sin_power (half_delay h w c) i).
Qed.
Lemma bessel_bound n x : -1 <= bessel n x <= 1.
Proof.
  assert (P := PI_RGT_0). unfold bessel. assert (C := bessel_cont n x).
  assert (E : ex_RInt (fun t => cos (IZR n * t - x * sin t)) 0 PI) by (apply (ex_RInt_continuous (V := R_CompleteNormedModule)); auto).
  assert (K : forall k : R, ex_RInt (fun _ => k) 0 PI) by (intro k; exists ((PI - 0) * k); apply const_int).
  assert (V : forall k : R, @eq R (RInt (fun _ => k) 0 PI) (k * PI)) by (intro k; rewrite (is_RInt_unique _ _ _ _ (const_int k 0 PI)); ring).
  assert (H : -1 * PI <= RInt (fun t => cos (IZR n * t - x * sin t)) 0 PI <= 1 * PI).
  { split.
    - rewrite <- (V (-1)). apply RInt_le; auto; [lra|]. intros t _. apply COS_bound.
    - rewrite <- (V 1). apply RInt_le; auto; [lra|]. intros t _. apply COS_bound. }
  split; apply (Rmult_le_reg_r PI); auto; unfold Rdiv; rewrite Rmult_assoc, Rinv_l; lra.
Qed.
Lemma bessel_m1_neg x : 0 < x < PI -> bessel (-1) x < 0.
Proof.
  intros Hx. assert (P := PI_RGT_0). unfold bessel.
  assert (I1 : is_RInt (fun t => cos t * cos (x * sin t)) 0 PI 0).
  { replace 0 with (minus (sin (x * sin PI) / x) (sin (x * sin 0) / x)) at 2.
    2: { rewrite sin_PI, sin_0, Rmult_0_r, sin_0. unfold minus, plus, opp; cbn. field. lra. }
    apply (is_RInt_derive (fun t => sin (x * sin t) / x)).
    - intros t _. auto_derive; auto. field. lra.
    - intros t _. apply (ex_derive_continuous (fun t => cos t * cos (x * sin t))). auto_derive. auto. }
  assert (C2 : forall t, continuous (fun t => sin t * sin (x * sin t)) t).
  { intro t. apply (ex_derive_continuous (fun t => sin t * sin (x * sin t))). auto_derive. auto. }
  assert (I2 : 0 < RInt (fun t => sin t * sin (x * sin t)) 0 PI).
  { apply RInt_gt_0; [lra| |auto]. intros t Ht. assert (S : 0 < sin t) by (apply sin_gt_0; lra).
    apply Rmult_lt_0_compat; auto. assert (B := SIN_bound t). apply sin_gt_0; nra. }
  assert (E2 : ex_RInt (fun t => sin t * sin (x * sin t)) 0 PI) by (apply (ex_RInt_continuous (V := R_CompleteNormedModule)); auto).
  assert (I3 := is_RInt_minus _ _ _ _ _ _ I1 (RInt_correct _ _ _ E2)).
  set (I := RInt (fun t => sin t * sin (x * sin t)) 0 PI) in *.
  assert (R0 : @eq R (RInt (fun t => cos (IZR (-1) * t - x * sin t)) 0 PI) (0 - I)).
  { apply is_RInt_unique. eapply is_RInt_ext; [|exact I3]. intros t _.
    replace (IZR (-1) * t - x * sin t) with (- (t + x * sin t)) by ring. rewrite cos_neg, cos_plus. reflexivity. }
  rewrite R0. clearbody I. apply (Rmult_lt_reg_r PI); auto. unfold Rdiv. rewrite Rmult_assoc, Rinv_l; lra.
Qed.
Lemma sin_eff_negative h w c : 0 < w -> 0 < c -> 0 < h -> 2 * h < w * c ->
  exists e, profile_efficiency (Sinusoidal h) (-1) w c = Some e /\ e < 0.
Proof.
  intros Hw Hc Hh Hs. eexists. split; [apply sin_eff; lra|]. apply bessel_m1_neg. assert (P := PI_RGT_0).
  assert (Hwc : 0 < w * c) by nra. unfold half_delay. split.
  - apply Rdiv_lt_0_compat; auto. nra.
  - apply (Rmult_lt_reg_r (w * c)); auto. unfold Rdiv. rewrite Rmult_assoc, Rinv_l; nra.
Qed.

(** ** Bounds *)
Lemma square_nonneg x : 0 <= square x.
Proof. unfold square. apply Rle_0_sqr. Qed.
Lemma square_div_le a b : b <> 0 -> a * a <= b * b -> square (a / b) <= 1.
Proof.
  intros Hb H. unfold square. replace (a / b * (a / b)) with (a * a / (b * b)) by (field; auto).
  assert (0 < b * b) by nra. apply (Rmult_le_reg_r (b * b)); auto. unfold Rdiv. rewrite Rmult_assoc, Rinv_l by lra. lra.
Qed.
Lemma prod_unit a b : 0 <= a <= 1 -> 0 <= b <= 1 -> 0 <= a * b <= 1.
Proof. intros. split; nra. Qed.
Lemma izr_sq_ge_1 i : i <> 0%Z -> 1 <= IZR i * IZR i.
Proof. intros H. rewrite <- mult_IZR. apply IZR_le. nia. Qed.

Lemma square_physical h i w c : w <> 0 -> c <> 0 -> physical (profile_efficiency (Square h) i w c).
Proof.
  intros Hw Hc. assert (P := PI_RGT_0). assert (P2 := PI2_1). unfold PI2 in P2. cbn [profile_efficiency].
  rewrite odiv_nz by lra. cbn [obind]. rewrite odiv_nz by nzm. cbn [obind].
  set (y := PI * _ / 2). destruct (Z.eqb_spec i 0) as [->|Hi].
  - eexists. split; [reflexivity|]. unfold square. apply cos_sq_1.
  - destruct (Z.eqb (i mod 2) 0); [eexists; split; [reflexivity|lra]|].
    assert (Hz : IZR i <> 0) by (apply not_0_IZR; auto). assert (Hk := izr_sq_ge_1 i Hi).
    assert (Hn : IZR i * PI <> 0) by nzm.
    rewrite odiv_nz by auto. eexists. split; [reflexivity|]. split; [apply square_nonneg|].
    apply square_div_le; auto. assert (S := sin_sq_1 y). assert (4 <= PI * PI) by nra. nra.
Qed.
Lemma rect_physical h duty i w c : 0 < duty < 1 -> w <> 0 -> c <> 0 ->
  physical (profile_efficiency (RectangularGroove h duty) i w c).
Proof.
  intros Hd Hw Hc. assert (P := PI_RGT_0). assert (P2 := PI2_1). unfold PI2 in P2.
  rewrite (rect_eff _ h duty) by auto. eexists. split; [reflexivity|].
  change (thin_grating (RectangularGroove h duty) i w c) with (order_power (fun t => half_delay h w c * rectangle_wave (2 * PI * duty) t) i).
  set (phi := half_delay h w c). clearbody phi. assert (S := sin_sq_1 phi). assert (T := trig1 phi).
  destruct (Z.eq_dec i 0) as [->|Hi].
  - rewrite rect_power_0 by nra. replace (2 * PI * duty / PI - 1) with (2 * duty - 1) by (field; lra).
    set (ss := sin phi * sin phi) in *. replace (cos phi * cos phi) with (1 - ss) by lra.
    assert (Hdd : 0 <= duty * (1 - duty)) by (apply Rmult_le_pos; lra).
    assert (Hz : 0 <= (2 * duty - 1) * (2 * duty - 1) <= 1) by (split; [apply Rle_0_sqr|lra]).
    set (z := (2 * duty - 1) * (2 * duty - 1)) in *. clearbody z ss. split; nra.
  - rewrite rect_power by (auto; nra). assert (Hk := izr_sq_ge_1 i Hi).
    assert (B := COS_bound (IZR i * (2 * PI * duty))). set (cc := cos (IZR i * (2 * PI * duty))) in *. set (ss := sin phi * sin phi) in *.
    unfold square. assert (4 <= PI * PI) by nra.
    assert (Hq : 4 <= IZR i * PI * (IZR i * PI)) by (replace (IZR i * PI * (IZR i * PI)) with (IZR i * IZR i * (PI * PI)) by ring; nra).
    set (q := IZR i * PI * (IZR i * PI)) in *.
    clearbody q. assert (0 <= 2 / q <= 1 / 2).
    { split; [apply Rlt_le, Rdiv_lt_0_compat; lra|]. apply (Rmult_le_reg_r q); [lra|]. replace (2 / q * q) with 2 by (field; lra). lra. }
    set (z := 2 / q) in *. clearbody z cc ss.
    apply prod_unit; auto. replace (z * (1 - cc)) with ((2 * z) * ((1 - cc) / 2)) by field. apply prod_unit; lra.
Qed.
Lemma saw_physical h i w c : w <> 0 -> c <> 0 -> half_delay h w c / PI + IZR i <> 0 ->
  physical (profile_efficiency (Sawtooth h) i w c).
Proof.
  intros Hw Hc Hb. assert (P := PI_RGT_0). rewrite saw_eff_gen by auto.
  assert (Hn : PI * (half_delay h w c / PI + IZR i) <> 0) by nzm.
  rewrite odiv_nz by auto. eexists. split; [reflexivity|]. split; [apply square_nonneg|].
  apply square_div_le; auto. replace (PI * (half_delay h w c / PI + IZR i)) with (half_delay h w c + IZR i * PI) by (field; lra).
  rewrite <- (sin_sq_shift i). apply sin_sq_le.
Qed.
Lemma tri_physical h i w c : w <> 0 -> c <> 0 -> h <> 0 ->
  physical (profile_efficiency (Triangular h) i w c).
Proof.
  intros Hw Hc Hh. assert (P := PI_RGT_0). assert (P2 := PI2_1). unfold PI2 in P2. cbn [profile_efficiency].
  assert (Hsq : square PI / 8 <> 0) by (unfold square; apply Rgt_not_eq, Rdiv_lt_0_compat; nra).
  rewrite odiv_nz by auto. cbn [obind]. rewrite odiv_nz by nzm. cbn [obind].
  set (g := PI * (h / (square PI / 8)) / (w * c)).
  assert (Hg : g <> 0).
  { unfold g. nzm. }
  clearbody g. set (phi := square PI * g / 4). set (k := square (PI * g / 2)).
  assert (Hk : 0 < k).
  { unfold k, square. assert (PI * g / 2 <> 0); [|nra].
    unfold Rdiv. nzm. }
  assert (Hi := square_nonneg (IZR i)). set (m := square (IZR i)) in *.
  rewrite odiv_nz by lra. cbn [obind].
  assert (Hphi : g = 4 * phi / square PI) by (unfold phi, square; field; lra).
  assert (Hkp : k = 4 * (phi * phi) / square PI) by (unfold k, phi, square; field; lra).
  assert (HP : 4 <= square PI) by (unfold square; nra).
  assert (F : forall t, (g / (k + m) * t) = (g * t) / (k + m)) by (intro t; unfold Rdiv; ring).
  rewrite !F.
  destruct (Z.eqb_spec (i mod 2) 0) as [E|E].
  - eexists. split; [reflexivity|]. split; [apply square_nonneg|]. apply square_div_le; [lra|].
    assert (S := sin_sq_le phi). apply (Rle_trans _ (k * k)); [|nra].
    replace (k * k) with (g * g * (phi * phi)) by (rewrite Hkp, Hphi; unfold square; field; lra). 
    replace (g * sin phi * (g * sin phi)) with (g * g * (sin phi * sin phi)) by ring.
    apply Rmult_le_compat_l; [apply Rle_0_sqr|auto].
  - assert (Hi0 : i <> 0%Z) by (intros ->; apply E; reflexivity).
    assert (Hm : 1 <= m) by (apply izr_sq_ge_1; auto).
    eexists. split; [reflexivity|]. split; [apply square_nonneg|]. apply square_div_le; [lra|].
    assert (S := cos_sq_1 phi). replace (g * cos phi * (g * cos phi)) with (g * g * (cos phi * cos phi)) by ring.
    assert (Hgk : g * g <= k) by (unfold k, square; replace (PI * g / 2 * (PI * g / 2)) with (PI * PI / 4 * (g * g)) by field; unfold square in HP; assert (0 <= g * g) by apply Rle_0_sqr; nra).
    assert (0 <= g * g) by apply Rle_0_sqr. assert (1 * k <= m * k) by nra. nra.
Qed.
Lemma tri_flat w c : w <> 0 -> c <> 0 -> profile_efficiency (Triangular 0) 0 w c = None.
Proof.
  intros Hw Hc. assert (P := PI_RGT_0). cbn [profile_efficiency].
  assert (Hsq : square PI / 8 <> 0) by (unfold square; apply Rgt_not_eq, Rdiv_lt_0_compat; nra).
  rewrite odiv_nz by auto. cbn [obind]. rewrite odiv_nz by nzm. cbn [obind].
  replace (square (PI * (PI * (0 / (square PI / 8)) / (w * c)) / 2) + square 0) with 0; [rewrite odiv_0; reflexivity|].
  unfold square, Rdiv. ring.
Qed.
Lemma interp_from_between (lo hi x x0 y0 : R) nodes : x0 < x -> lo <= y0 <= hi -> increasing x0 nodes ->
  (forall p, In p nodes -> lo <= snd p <= hi) -> exists e, interp_from x x0 y0 nodes = Some e /\ lo <= e <= hi.
Proof.
  revert x0 y0. induction nodes as [|[x1 y1] l IH]; intros x0 y0 Hx Hy Hs Hn; cbn.
  - eauto.
  - destruct Hs as [H1 H2]. assert (N := Hn (x1, y1) (or_introl eq_refl)). cbn in N.
    destruct (Rle_dec x x1).
    + rewrite odiv_nz by lra. eexists. split; [reflexivity|].
      assert (0 <= (x - x0) / (x1 - x0) <= 1).
      { split; [apply Rdiv_le_0_compat; lra|]. apply (Rmult_le_reg_r (x1 - x0)); [lra|]. unfold Rdiv. rewrite Rmult_assoc, Rinv_l; lra. }
      set (q := (x - x0) / (x1 - x0)) in *. clearbody q.
      replace (y0 + (y1 - y0) * q) with ((1 - q) * y0 + q * y1) by ring. nra.
    + apply IH; auto; [lra|]. intros p Hp. apply Hn. right. auto.
Qed.
Lemma interp_between lo hi x nodes : sorted_nodes nodes -> (forall p, In p nodes -> lo <= snd p <= hi) ->
  exists e, interp x nodes = Some e /\ lo <= e <= hi.
Proof.
  destruct nodes as [|[x0 y0] l]; [intros []|]. cbn [sorted_nodes]. intros Hs Hn. cbn.
  assert (N := Hn (x0, y0) (or_introl eq_refl)). cbn in N.
  destruct (Rle_dec x x0); [eauto|]. apply interp_from_between; auto; [lra|]. intros p Hp. apply Hn. right. auto.
Qed.
(** The interpolation passes through its nodes. *)
Lemma increasing_lt x0 nodes p : increasing x0 nodes -> In p nodes -> x0 < fst p.
Proof.
  revert x0. induction nodes as [|[x1 y1] l IH]; intros x0 Hs Hp; [destruct Hp|]. destruct Hs as [H1 H2].
  destruct Hp as [<-|Hp]; [exact H1|]. specialize (IH _ H2 Hp). lra.
Qed.
Lemma interp_from_node x0 y0 nodes x y : increasing x0 nodes -> In (x, y) nodes -> interp_from x x0 y0 nodes = Some y.
Proof.
  revert x0 y0. induction nodes as [|[x1 y1] l IH]; intros x0 y0 Hs Hp; [destruct Hp|]. destruct Hs as [H1 H2]. cbn.
  destruct Hp as [E|Hp].
  - injection E as -> ->. destruct (Rle_dec x x); [|lra]. rewrite odiv_nz by lra. cbn [obind]. f_equal. field. lra.
  - assert (L := increasing_lt _ _ _ H2 Hp). cbn in L. destruct (Rle_dec x x1); [lra|]. apply IH; auto.
Qed.
Lemma interp_node nodes x y : sorted_nodes nodes -> In (x, y) nodes -> interp x nodes = Some y.
Proof.
  destruct nodes as [|[x0 y0] l]; [intros []|]. cbn [sorted_nodes]. intros Hs Hp. cbn.
  destruct Hp as [E|Hp].
  - injection E as -> ->. destruct (Rle_dec x x); [auto|lra].
  - assert (L := increasing_lt _ _ _ Hs Hp). cbn in L. destruct (Rle_dec x x0); [lra|]. apply interp_from_node; auto.
Qed.

(** ** Duty cycle one half *)
Lemma duty_half h i w c : w <> 0 -> c <> 0 ->
  profile_efficiency (RectangularGroove h (1 / 2)) i w c = profile_efficiency (Square h) i w c.
Proof.
  intros Hw Hc. rewrite (rect_eff _ h (1 / 2)), (square_eff _ h) by (auto; lra). f_equal.
  change (order_power (fun t => half_delay h w c * rectangle_wave (2 * PI * (1 / 2)) t) i =
          order_power (fun t => half_delay h w c * rectangle_wave PI t) i).
  replace (2 * PI * (1 / 2)) with PI by field. reflexivity.
Qed.
Lemma duty_half_degenerate h i w c : w = 0 \/ c = 0 ->
  profile_efficiency (RectangularGroove h (1 / 2)) i w c = profile_efficiency (Square h) i w c.
Proof.
  intros H. assert (P := PI_RGT_0). cbn [profile_efficiency].
  assert (Z : w * c = 0) by (destruct H as [-> | ->]; ring). rewrite Z.
  replace (2 * PI * (1 / 2)) with PI by field. rewrite cos_PI.
  set (s := sqrt (2 * (1 - -1))). assert (Hs : 0 < s) by (apply sqrt_lt_R0; lra).
  rewrite odiv_nz by lra. cbn [obind]. rewrite odiv_nz by (apply Rgt_not_eq, Rdiv_lt_0_compat; lra). cbn [obind].
  rewrite odiv_0. cbn [obind]. rewrite odiv_nz by lra. cbn [obind]. rewrite odiv_0. reflexivity.
Qed.
Lemma duty_half_ray h i sp r n :
  rulings_efficiency (RectangularGroove h (1 / 2)) i sp r n = rulings_efficiency (Square h) i sp r n.
Proof.
  unfold rulings_efficiency; cbn [uses_angle]. destruct (r_position r), (r_direction r), n; cbn [obind]; auto.
  destruct (sp _ _); cbn [obind]; auto. destruct (groove_cosine _ _ _) as [c|]; cbn [obind]; auto.
  destruct (Req_dec (r_wavelength r) 0); [apply duty_half_degenerate; auto|].
  destruct (Req_dec c 0); [apply duty_half_degenerate; auto|]. apply duty_half; auto.
Qed.

(** ** The incidence cosine *)
Lemma normalized_scale k v : 0 < k -> normalized (vscale k v) = normalized v.
Proof.
  intros Hk. unfold normalized. rewrite vlen_scale by lra. destruct (Req_dec (vlen v) 0) as [E|E].
  - rewrite E, Rmult_0_r, !odiv_0. reflexivity.
  - rewrite !odiv_nz by nzm. cbn [obind]. f_equal. apply vec_eq; cbn; field; lra.
Qed.
Lemma groove_cosine_eq kappa u d : vlen kappa <> 0 ->
  groove_cosine kappa u d =
  obind (normalized (cross u kappa)) (fun p => Some (- dot d u + dot d p * (vx u + vy u + vz u))).
Proof.
  intros Hk. unfold groove_cosine. rewrite normalized_nz by auto. cbn [obind].
  assert (Hp : 0 < vlen kappa) by (assert (0 <= vlen kappa) by apply sqrt_pos; lra).
  replace (cross u (vscale (1 / vlen kappa) kappa)) with (vscale (1 / vlen kappa) (cross u kappa)) by (apply vec_eq; tv; ring).
  rewrite normalized_scale by (apply Rdiv_lt_0_compat; lra).
  destruct (normalized (cross u kappa)) as [p|]; cbn [obind]; auto. f_equal. tv. ring.
Qed.
Lemma normalized_dot_0 v p d : normalized v = Some p -> dot d v = 0 -> dot d p = 0.
Proof.
  intros H E. destruct (normalized_some _ _ H) as (_ & k & _ & -> & _). rewrite dot_scale_r, E. ring.
Qed.
Lemma vlen_pos v : v <> vzero -> 0 < vlen v.
Proof.
  intros H. apply sqrt_lt_R0. assert (N := norm2_nonneg v). destruct N as [N|N]; auto. exfalso. apply H, norm2_zero. auto.
Qed.
Lemma cross_tangent_nz u kappa : is_unit u -> dot kappa u = 0 -> kappa <> vzero -> vlen (cross u kappa) = vlen kappa.
Proof.
  intros Hu Ht Hk. unfold vlen. rewrite cross_norm by auto. f_equal. unfold tangential. rewrite Ht.
  tv. ring.
Qed.
Lemma in_plane_cosine kappa u d : is_unit u -> kappa <> vzero -> dot kappa u = 0 -> dot d (cross u kappa) = 0 ->
  groove_cosine kappa u d = Some (- dot d u).
Proof.
  intros Hu Hk Ht Hd. assert (L := vlen_pos _ Hk). rewrite groove_cosine_eq by lra.
  rewrite normalized_nz by (rewrite cross_tangent_nz by auto; lra). cbn [obind]. f_equal.
  rewrite dot_scale_r, Hd. ring.
Qed.
Lemma efficiency_no_angle p i w c c' : uses_angle p = false -> profile_efficiency p i w c = profile_efficiency p i w c'.
Proof. destruct p; try discriminate; reflexivity. Qed.
Lemma in_plane_efficiency p i sp r x d u kappa : r_position r = Some x -> r_direction r = Some d ->
  is_unit u -> sp x u = Some kappa -> kappa <> vzero -> dot kappa u = 0 -> dot d (cross u kappa) = 0 ->
  rulings_efficiency p i sp r (Some u) = profile_efficiency p i (r_wavelength r) (- dot d u).
Proof.
  intros Hx Hd Hu Hs Hk Ht Hp. unfold rulings_efficiency. destruct (uses_angle p) eqn:E.
  - rewrite Hx, Hd. cbn [obind]. rewrite Hs. cbn [obind]. rewrite in_plane_cosine by auto. reflexivity.
  - apply efficiency_no_angle; auto.
Qed.
Lemma vlen_1 v : norm2 v = 1 -> vlen v = 1.
Proof. intros H. unfold vlen. rewrite H. apply sqrt_1. Qed.

Lemma square_order_0 h w c : w <> 0 -> c <> 0 ->
  profile_efficiency (Square h) 0 w c = Some (cos (half_delay h w c) * cos (half_delay h w c)).
Proof.
  intros Hw Hc. assert (P := PI_RGT_0). rewrite (square_eff _ h) by auto. f_equal.
  change (thin_grating (Square h) 0 w c) with (order_power (fun t => half_delay h w c * rectangle_wave PI t) 0).
  rewrite rect_power_0 by lra. field. lra.
Qed.
Lemma skew_witness : exists sp h d d' u kappa e e', is_unit u /\ is_unit d /\ is_unit d' /\
  (forall x, sp x u = Some kappa) /\ kappa <> vzero /\ dot kappa u = 0 /\ dot d u = dot d' u /\ dot d u < 0 /\
  rulings_efficiency (Square h) 0 sp (test_ray d) (Some u) = Some e /\
  rulings_efficiency (Square h) 0 sp (test_ray d') (Some u) = Some e' /\ e <> e'.
Proof.
  assert (P := PI_RGT_0).
  set (u := V3 0 0 (-1)). set (k := V3 1 0 0).
  exists (constant_spacing 1 k), (1 / 5), (V3 (3/5) 0 (4/5)), (V3 0 (3/5) (4/5)), u, k,
    (cos (PI / 2) * cos (PI / 2)), (cos (2 * PI / 7) * cos (2 * PI / 7)).
  assert (Hu : is_unit u) by (unfold is_unit; unfold u; tv; lra).
  assert (Hk : k <> vzero) by (unfold k, vzero; intro H; injection H; lra).
  assert (Lk : vlen k = 1) by (apply vlen_1; unfold k; tv; ring).
  assert (Hx : cross u k = V3 0 (-1) 0) by (apply vec_eq; unfold u, k; tv; ring).
  assert (Hs : forall x, constant_spacing 1 k x u = Some k).
  { intro x. unfold constant_spacing. f_equal. apply vec_eq; unfold k; tv; ring. }
  split; [auto|]. split; [unfold is_unit; tv; lra|]. split; [unfold is_unit; tv; lra|].
  split; [auto|]. split; [auto|]. split; [unfold k, u; tv; ring|]. split; [unfold u; tv; ring|].
  split; [unfold u; tv; lra|].
  unfold rulings_efficiency, test_ray; cbn [uses_angle r_position r_direction r_wavelength obind].
  rewrite Hs. cbn [obind]. rewrite !groove_cosine_eq by lra. rewrite Hx.
  rewrite normalized_nz by (rewrite vlen_1; [lra|tv; ring]). rewrite (vlen_1 (V3 0 (-1) 0)) by (tv; ring). cbn [obind].
  match goal with |- profile_efficiency _ _ _ ?c = _ /\ _ => replace c with (4 / 5) by (unfold u; tv; lra) end.
  match goal with |- _ /\ profile_efficiency _ _ _ ?c = _ /\ _ => replace c with (7 / 5) by (unfold u; tv; lra) end.
  rewrite !square_order_0 by lra.
  replace (half_delay (1 / 5) 1 (4 / 5)) with (PI / 2) by (unfold half_delay; field).
  replace (half_delay (1 / 5) 1 (7 / 5)) with (2 * PI / 7) by (unfold half_delay; field).
  split; [reflexivity|]. split; [reflexivity|]. rewrite cos_PI2.
  assert (0 < cos (2 * PI / 7)) by (apply cos_gt_0; lra). nra.
Qed.
(** The cosine can even exceed one. *)
Lemma cosine_above_1 : exists kappa u d c, is_unit u /\ is_unit d /\ kappa <> vzero /\ dot kappa u = 0 /\
  groove_cosine kappa u d = Some c /\ 1 < c.
Proof.
  set (u := V3 0 0 (-1)). set (k := V3 1 0 0). exists k, u, (V3 0 (3/5) (4/5)), (7/5).
  assert (Lk : vlen k = 1) by (apply vlen_1; unfold k; tv; ring).
  assert (Hx : cross u k = V3 0 (-1) 0) by (apply vec_eq; unfold u, k; tv; ring).
  split; [unfold is_unit, u; tv; lra|]. split; [unfold is_unit; tv; lra|].
  split; [unfold k, vzero; intro H; injection H; lra|]. split; [unfold k, u; tv; ring|].
  rewrite groove_cosine_eq by lra. rewrite Hx.
  rewrite normalized_nz by (rewrite vlen_1; [lra|tv; ring]). rewrite (vlen_1 (V3 0 (-1) 0)) by (tv; ring). cbn [obind].
  split; [f_equal; unfold u; tv; lra|lra].
Qed.

(** ** The efficiency is computed from the effective direction *)
Lemma effective_same_efficiency p i sp r x d u kappa : r_position r = Some x -> r_direction r = Some d ->
  r_index r <> 0 -> is_unit u -> sp x u = Some kappa -> kappa <> vzero -> dot kappa u = 0 ->
  rulings_efficiency p i sp (rulings_effective (make_rulings p i sp) r (Some u)) (Some u) =
  rulings_efficiency p i sp r (Some u).
Proof.
  intros Hx Hd Hn Hu Hs Hk Ht. assert (L := vlen_pos _ Hk). unfold rulings_efficiency.
  assert (R1 : exists t, r_direction (rulings_effective (make_rulings p i sp) r (Some u)) = Some (vadd d (vscale t kappa)) /\
     r_position (rulings_effective (make_rulings p i sp) r (Some u)) = Some x /\
     r_wavelength (rulings_effective (make_rulings p i sp) r (Some u)) = r_wavelength r).
  { unfold rulings_effective. rewrite Hx, Hd. cbn [obind rul_spacing make_rulings]. rewrite Hs. cbn [obind].
    rewrite odiv_nz by lra. cbn [obind]. unfold incident_effective. rewrite odiv_nz by nzm. cbn [obind].
    eexists. split; [|split; [auto|reflexivity]]. cbn [set_direction r_direction]. f_equal.
    set (q := _ * _ * _ * _). replace (vscale q (vscale (1 / vlen kappa) kappa)) with (vscale (q * (1 / vlen kappa)) kappa).
    - reflexivity.
    - apply vec_eq; tv; ring. }
  destruct R1 as (t & R1 & R2 & R3). rewrite R1, R2, R3, Hx, Hd. destruct (uses_angle p); auto.
  cbn [obind]. rewrite Hs. cbn [obind]. rewrite !groove_cosine_eq by lra.
  destruct (normalized (cross u kappa)) as [q|] eqn:E; cbn [obind]; auto.
  assert (Z : dot kappa q = 0) by (apply (normalized_dot_0 _ _ _ E); tv; ring).
  f_equal. rewrite !dot_add_l, !dot_scale_l, Z, Ht. ring.
Qed.
Lemma effective_witness : exists h sp d u e e', is_unit u /\ is_unit d /\ dot d u < 0 /\
  rulings_efficiency (Square h) 1 sp (test_ray d) (Some u) = Some e /\
  rulings_efficiency (Square h) 1 sp (rulings_effective (make_rulings (Square h) 1 sp) (test_ray d) (Some u)) (Some u) = Some e' /\
  e <> e'.
Proof.
  assert (P := PI_RGT_0).
  set (u := V3 (3/5) 0 (-4/5)). set (k := V3 3 0 0). set (d := V3 0 0 1). set (h := 2 / 5).
  set (sp := constant_spacing 3 (V3 1 0 0)).
  set (sq := fun phi => 2 / square (1 * PI) * (1 - cos (1 * PI)) * (sin phi * sin phi)).
  exists h, sp, d, u, (sq PI), (sq (4 * PI / 5)).
  assert (Lk : vlen k = 3).
  { unfold vlen, k. replace (norm2 (V3 3 0 0)) with (3 * 3) by (tv; ring). apply sqrt_square. lra. }
  assert (Hx : cross u k = vscale (12/5) (V3 0 (-1) 0)) by (apply vec_eq; unfold u, k; tv; lra).
  assert (Hs : forall x, sp x u = Some k).
  { intro x. unfold sp, constant_spacing. f_equal. apply vec_eq; unfold k; tv; ring. }
  split; [unfold is_unit, u; tv; lra|]. split; [unfold is_unit, d; tv; lra|]. split; [unfold d, u; tv; lra|].
  assert (F : forall d c, - dot d u + dot d (V3 0 (-1) 0) * (vx u + vy u + vz u) = c -> groove_cosine k u d = Some c).
  { intros d0 c <-. rewrite groove_cosine_eq by lra. rewrite Hx, normalized_scale by lra.
    rewrite normalized_nz by (rewrite vlen_1; [lra|tv; ring]). rewrite (vlen_1 (V3 0 (-1) 0)) by (tv; ring). cbn [obind].
    f_equal. tv. field. }
  assert (G : forall c phi, c <> 0 -> half_delay h 1 c = phi -> profile_efficiency (Square h) 1 1 c = Some (sq phi)).
  { intros c phi Hc <-. rewrite (square_eff _ h) by (auto; lra). f_equal.
    apply (rect_power (half_delay h 1 c) PI 1); [lra|lia]. }
  split; [|split].
  - unfold rulings_efficiency, test_ray; cbn [uses_angle r_position r_direction r_wavelength obind]. rewrite Hs. cbn [obind].
    rewrite (F d (4/5)) by (unfold d, u; tv; lra). cbn [obind]. apply G; [lra|unfold half_delay, h; field].
  - unfold rulings_effective, test_ray. cbn [r_position r_direction obind make_rulings rul_spacing]. rewrite Hs. cbn [obind].
    rewrite odiv_nz by lra. unfold incident_effective. cbn [obind r_index r_wavelength rul_order]. rewrite Lk.
    rewrite odiv_nz by lra. cbn [obind]. rewrite rsign_neg by (unfold d, u; tv; lra).
    unfold rulings_efficiency; cbn [uses_angle r_position r_direction r_wavelength obind set_direction]. rewrite Hs. cbn [obind].
    rewrite (F _ 1) by (unfold d, u, k; tv; cbn; field). cbn [obind]. apply G; [lra|unfold half_delay, h; field].
  - unfold sq. rewrite sin_PI, Rmult_1_l, cos_PI. unfold square.
    assert (S : 0 < sin (4 * PI / 5)) by (apply sin_gt_0; lra).
    assert (Q : 0 < 2 / (1 * PI * (1 * PI))) by (apply Rdiv_lt_0_compat; nra).
    rewrite Rmult_1_l in Q. intro X. assert (0 < 2 / (PI * PI) * (1 - -1) * (sin (4 * PI / 5) * sin (4 * PI / 5))).
    { repeat apply Rmult_lt_0_compat; auto; lra. }
    lra.
Qed.
