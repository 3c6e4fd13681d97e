(** Sums of efficiencies over orders. *)
From Coq Require Import Reals Lra Psatz List Bool ZArith Lia.
From Coquelicot Require Import Coquelicot.
From Verif Require Import Vec VecLemmas Num NumLemmas RayModel SurfaceModel SnellSpec MaterialModel
  RulingModel RulingSpec RulingProofs GrooveProofs OrderProofs OrderSpec.
Import ListNotations.
Open Scope R_scope.

Lemma order_power_pos phase i : 0 <= order_power phase i.
Proof. unfold order_power. assert (A := square_nonneg). apply Rplus_le_le_0_compat; apply A. Qed.

(** ** Triangular grooves, every order *)
Lemma tri_power phi i : 2 * phi / PI - IZR i <> 0 -> 2 * phi / PI + IZR i <> 0 ->
  order_power (fun t => phi * triangle_wave t) i =
  square (4 * phi / (PI * PI) / (2 * phi / PI * (2 * phi / PI) - IZR i * IZR i) *
          (if Z.eqb (i mod 2) 0 then sin phi else cos phi)).
Proof.
  intros N1 N2. assert (P := PI_RGT_0). unfold order_power.
  set (g := 2 * phi / PI) in *. set (k := IZR i) in *.
  assert (Gp : g * PI = 2 * phi) by (unfold g; field; lra).
  assert (N2' : - (g + k) <> 0) by lra.
  erewrite (pieces _ (fun t => cos ((g - k) * t + - phi)) (fun t => cos (- (g + k) * t + 3 * phi)) 0 PI (2 * PI) _ _ ltac:(lra)); cycle 1.
  { intros t Ht. f_equal. rewrite tri_low by lra. unfold g. field. lra. }
  { intros t Ht. f_equal. rewrite tri_high by lra. unfold g. field. lra. }
  { apply lin_cos; auto. }
  { apply lin_cos; auto. }
  erewrite (pieces _ (fun t => sin ((g - k) * t + - phi)) (fun t => sin (- (g + k) * t + 3 * phi)) 0 PI (2 * PI) _ _ ltac:(lra)); cycle 1.
  { intros t Ht. f_equal. rewrite tri_low by lra. unfold g. field. lra. }
  { intros t Ht. f_equal. rewrite tri_high by lra. unfold g. field. lra. }
  { apply lin_sin; auto. }
  { apply lin_sin; auto. }
  assert (E : 4 * phi / (PI * PI) = 2 * g / PI) by (unfold g; field; lra).
  rewrite E. replace ((g - k) * PI + - phi) with (phi - k * PI) by lra. replace ((g - k) * 0 + - phi) with (- phi) by ring.
  replace (- (g + k) * (2 * PI) + 3 * phi) with (- phi - IZR i * (2 * PI)) by (fold k; lra).
  replace (- (g + k) * PI + 3 * phi) with (phi - k * PI) by lra.
  rewrite sin_m2pi, cos_m2pi, sin_neg, cos_neg, sin_minus, cos_minus.
  assert (D : (i mod 2 = 0 \/ i mod 2 <> 0)%Z) by lia.
  assert (S : sin (k * PI) = 0).
  { apply sin_eq_0_1. exists i. reflexivity. }
  rewrite S. assert (N : g * g - k * k <> 0) by (replace (g * g - k * k) with ((g - k) * (g + k)) by ring; nzm).
  destruct D as [D|D].
  - rewrite D. cbn [Z.eqb]. unfold k at 1 3 5 7. rewrite (cos_pi_even i D). unfold square. field. repeat split; auto; lra.
  - apply Z.eqb_neq in D as Db. rewrite Db. unfold k at 1 3 5 7. rewrite (cos_pi_odd i D). unfold square. field. repeat split; auto; lra.
Qed.

Definition parity (i : Z) (phi : R) : R := if Z.eqb (i mod 2) 0 then sin phi else cos phi.

Lemma tri_eff_gen h i w c : w <> 0 -> c <> 0 ->
  let phi := half_delay h w c in
  profile_efficiency (Triangular h) i w c =
  obind (odiv (4 * phi / (PI * PI)) (2 * phi / PI * (2 * phi / PI) + IZR i * IZR i)) (fun a => Some (square (a * parity i phi))).
Proof.
  intros Hw Hc phi. assert (P := PI_RGT_0). cbn [profile_efficiency].
  assert (Hsq : square PI / 8 <> 0) by (unfold square; apply Rgt_not_eq, Rdiv_lt_0_compat; nra).
  rewrite odiv_nz by auto. cbn [obind]. rewrite odiv_nz by nzm. cbn [obind].
  replace (PI * (h / (square PI / 8)) / (w * c)) with (4 * phi / (PI * PI)).
  2: { unfold phi, half_delay, square. field. repeat split; try lra; auto. }
  replace (square PI * (4 * phi / (PI * PI)) / 4) with phi by (unfold square; field; lra).
  replace (square (PI * (4 * phi / (PI * PI)) / 2)) with (2 * phi / PI * (2 * phi / PI)) by (unfold square; field; lra).
  replace (square (IZR i)) with (IZR i * IZR i) by reflexivity. unfold parity.
  destruct (odiv _ _); [|reflexivity]. cbn [obind]. destruct (i mod 2 =? 0)%Z; reflexivity.
Qed.

Lemma parity_zero i phi : 2 * phi / PI = IZR i \/ 2 * phi / PI = - IZR i -> parity i phi = 0.
Proof.
  intros H. assert (P := PI_RGT_0).
  assert (E : phi = IZR i * PI / 2 \/ phi = - (IZR i * PI / 2)).
  { destruct H as [H|H]; [left|right]; replace phi with (2 * phi / PI * PI / 2) by (field; lra); rewrite H; field. }
  unfold parity. destruct (i mod 2 =? 0)%Z eqn:M.
  - apply Z.eqb_eq in M. assert (K := Z.div_mod i 2 ltac:(lia)). rewrite M, Z.add_0_r in K.
    assert (S : sin (IZR i * PI / 2) = 0).
    { rewrite K, mult_IZR. apply sin_eq_0_1. exists (i / 2)%Z. field. }
    destruct E as [-> | ->]; [exact S|rewrite sin_neg, S; ring].
  - apply Z.eqb_neq in M. assert (M1 : (i mod 2 = 1)%Z) by (assert (B := Z.mod_pos_bound i 2 ltac:(lia)); lia).
    assert (K := Z.div_mod i 2 ltac:(lia)). rewrite M1 in K.
    assert (S : cos (IZR i * PI / 2) = 0).
    { apply cos_eq_0_1. exists (i / 2)%Z. rewrite K at 1. rewrite plus_IZR, mult_IZR. field. }
    destruct E as [-> | ->]; [exact S|rewrite cos_neg, S; ring].
Qed.

Lemma tri_below h i w c e : w <> 0 -> c <> 0 -> profile_efficiency (Triangular h) i w c = Some e ->
  e <= thin_grating (Triangular h) i w c.
Proof.
  intros Hw Hc. rewrite tri_eff_gen by assumption.
  change (thin_grating (Triangular h) i w c) with (order_power (fun t => half_delay h w c * triangle_wave t) i).
  set (phi := half_delay h w c). assert (Pp := order_power_pos (fun t => phi * triangle_wave t) i).
  set (g := 2 * phi / PI). set (k := IZR i). intros H.
  destruct (odiv _ _) as [a|] eqn:Ha in H; [|discriminate]. cbn [obind] in H. injection H as <-.
  apply odiv_some in Ha. destruct Ha as (N & -> & _).
  destruct (Req_dec (g - k) 0) as [E1|N1].
  { rewrite parity_zero by (left; fold g k; lra). unfold square. rewrite Rmult_0_r, Rmult_0_l. exact Pp. }
  destruct (Req_dec (g + k) 0) as [E2|N2].
  { rewrite parity_zero by (right; fold g k; lra). unfold square. rewrite Rmult_0_r, Rmult_0_l. exact Pp. }
  rewrite tri_power by assumption. fold (parity i phi) g k.
  assert (M : g * g - k * k <> 0) by (replace (g * g - k * k) with ((g - k) * (g + k)) by ring; nzm).
  set (s := parity i phi). set (q := 4 * phi / (PI * PI)). clearbody s q g k.
  assert (Gs := Rle_0_sqr g). assert (Ks := Rle_0_sqr k). unfold Rsqr in *.
  assert (D : 0 < (g * g - k * k) * (g * g - k * k)) by (destruct (Rdichotomy _ _ M); nra).
  assert (L : (g * g - k * k) * (g * g - k * k) <= (g * g + k * k) * (g * g + k * k)) by nra.
  assert (I := Rinv_le_contravar _ _ D L).
  replace (square (q / (g * g + k * k) * s)) with (q * s * (q * s) * / ((g * g + k * k) * (g * g + k * k))) by (unfold square; field; exact N).
  replace (square (q / (g * g - k * k) * s)) with (q * s * (q * s) * / ((g * g - k * k) * (g * g - k * k))) by (unfold square; field; exact M).
  apply Rmult_le_compat_l; [apply (Rle_0_sqr (q * s))|exact I].
Qed.

(** ** Sums *)
Lemma no_wave p i w c : power_profile p -> w * c = 0 -> profile_efficiency p i w c = None.
Proof.
  intros Pp Z. destruct p; cbn in Pp; try contradiction; cbn [profile_efficiency]; rewrite Z;
    repeat match goal with |- obind ?x _ = _ => first [rewrite odiv_0; reflexivity | destruct x as [?|]; [cbn [obind]|reflexivity]] end.
Qed.

Lemma power_below p i w c e : power_profile p -> profile_efficiency p i w c = Some e -> e <= thin_grating p i w c.
Proof.
  intros Pp H. destruct (Req_dec (w * c) 0) as [Z|Z].
  { rewrite no_wave in H by assumption. discriminate. }
  assert (Hw : w <> 0) by (intros ->; apply Z; ring). assert (Hc : c <> 0) by (intros ->; apply Z; ring).
  destruct p; cbn in Pp; try contradiction.
  - rewrite (square_eff _ depth) in H by auto. injection H as <-. lra.
  - destruct (Req_dec (half_delay depth w c / PI + IZR i) 0) as [B|B].
    + destruct (saw_blaze (Sawtooth depth) depth i w c Hw Hc eq_refl B) as [F _]. rewrite F in H. discriminate.
    + rewrite (saw_eff _ depth) in H by auto. injection H as <-. lra.
  - apply tri_below; assumption.
  - rewrite (rect_eff _ depth ratio_duty) in H by auto. injection H as <-. lra.
Qed.

Lemma thin_sum p w c orders : power_profile p \/ (exists h, p = Sinusoidal h) -> NoDup orders ->
  rsum (map (fun i => thin_grating p i w c) orders) <= 1.
Proof.
  intros Pp N. assert (P := PI_RGT_0).
  assert (M : measurable (fun t => half_delay (groove_depth p) w c * unit_shape p t)).
  { destruct Pp as [Pp|[h ->]]; [|apply sine_measurable].
    destruct p; cbn in Pp; try contradiction; cbn [unit_shape groove_depth].
    - apply rect_measurable. lra.
    - apply saw_measurable.
    - apply tri_measurable.
    - apply rect_measurable. nra. }
  destruct M as [A B]. exact (bessel_inequality _ A B orders N).
Qed.

Lemma shares_below (f : Z -> option R) (g : Z -> R) orders es :
  (forall i e, f i = Some e -> e <= g i) -> map f orders = map Some es -> rsum es <= rsum (map g orders).
Proof.
  intros H. revert es. induction orders as [|i l IH]; intros [|e es] E; try discriminate; [cbn; lra|].
  cbn [map] in E. injection E as E1 E2. specialize (IH es E2). apply H in E1. change (e + rsum es <= g i + rsum (map g l)). lra.
Qed.

Lemma orders_sum p w c orders es : power_profile p -> shares (fun i => profile_efficiency p i w c) orders es -> rsum es <= 1.
Proof.
  intros Pp [N E]. eapply Rle_trans; [|apply (thin_sum p w c orders); auto].
  apply (shares_below _ _ _ _ (fun i e => power_below p i w c e Pp) E).
Qed.

Lemma shares_nil (f : Z -> option R) orders es : (forall i, f i = None) -> shares f orders es -> es = [].
Proof.
  intros H [_ E]. destruct orders as [|i l], es as [|e es]; try reflexivity; try discriminate. cbn in E. rewrite H in E. discriminate.
Qed.

Lemma ray_orders_sum p sp r n orders es : power_profile p ->
  shares (fun i => rulings_efficiency p i sp r n) orders es -> rsum es <= 1.
Proof.
  intros Pp H. assert (U : uses_angle p = true) by (destruct p; cbn in Pp; try contradiction; reflexivity).
  unfold rulings_efficiency in H. rewrite U in H.
  assert (Nil : es = [] -> rsum es <= 1) by (intros ->; cbn; lra).
  destruct (r_position r) as [x|]; cbn [obind] in H; [|apply Nil; revert H; apply shares_nil; reflexivity].
  destruct (r_direction r) as [d|]; cbn [obind] in H; [|apply Nil; revert H; apply shares_nil; reflexivity].
  destruct n as [u|]; cbn [obind] in H; [|apply Nil; revert H; apply shares_nil; reflexivity].
  destruct (sp x u) as [kappa|]; cbn [obind] in H; [|apply Nil; revert H; apply shares_nil; reflexivity].
  destruct (groove_cosine kappa u d) as [c|]; cbn [obind] in H; [|apply Nil; revert H; apply shares_nil; reflexivity].
  exact (orders_sum p _ c orders es Pp H).
Qed.

(** ** Sinusoidal grooves: the squares *)
Lemma sine_squares h w c orders es : shares (fun i => profile_efficiency (Sinusoidal h) i w c) orders es ->
  rsum (map (fun e => e * e) es) <= 1.
Proof.
  intros H. destruct (Req_dec (w * c) 0) as [Z|Z].
  { replace es with (@nil R); [cbn; lra|]. symmetry. revert H. apply shares_nil. intros i. cbn. rewrite Z, odiv_0. reflexivity. }
  destruct H as [N E]. assert (Hw : w <> 0) by (intros ->; apply Z; ring). assert (Hc : c <> 0) by (intros ->; apply Z; ring).
  eapply Rle_trans; [|apply (thin_sum (Sinusoidal h) w c orders); [right; eauto|exact N]].
  apply Req_le. clear N. revert es E. induction orders as [|i l IH]; intros [|e es] E; try discriminate; [reflexivity|].
  cbn [map] in E. injection E as E1 E2. cbn. specialize (IH es E2). unfold rsum in IH. rewrite IH. f_equal.
  destruct (sin_eff_squared (Sinusoidal h) h i w c Hw Hc eq_refl) as (e' & F & G). assert (X : Some e = Some e') by (rewrite <- E1; exact F). injection X as <-. symmetry. exact G.
Qed.
