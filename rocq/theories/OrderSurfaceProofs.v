(** Gratings as surfaces: the rays of all orders, and where they carry more than the light that
    arrives. *)
From Coq Require Import Reals Lra Psatz List Bool ZArith Lia.
From Coquelicot Require Import Coquelicot.
From Verif Require Import Vec VecLemmas Num NumLemmas RayModel SurfaceModel SagModel SnellSpec MaterialModel
  RulingModel RulingSpec RulingProofs GrooveProofs OrderProofs OrderSpec OrderSumProofs SequenceExamples CurvedExamples CurvedSagProofs.
Import ListNotations.
Open Scope R_scope.
Open Scope opt_scope.

Lemma power_uses p : power_profile p -> uses_angle p = true.
Proof. destruct p; cbn; intros H; try contradiction; reflexivity. Qed.

Lemma effective_implies p i sp r u e : uses_angle p = true -> is_unit u ->
  (forall x kappa, r_position r = Some x -> sp x u = Some kappa -> dot kappa u = 0) ->
  rulings_efficiency p i sp (rulings_effective (make_rulings p i sp) r (Some u)) (Some u) = Some e ->
  rulings_efficiency p i sp r (Some u) = Some e.
Proof.
  intros Ua Uu T H. destruct (r_position r) as [x|] eqn:Hx.
  2: { unfold rulings_efficiency in H. rewrite Ua in H. unfold rulings_effective in H. cbn [set_direction r_position] in H. rewrite Hx in H. discriminate. }
  destruct (r_direction r) as [d|] eqn:Hd.
  2: { unfold rulings_efficiency in H. rewrite Ua in H. unfold rulings_effective in H. cbn [set_direction r_position r_direction] in H. rewrite Hx, Hd in H. discriminate. }
  destruct (sp x u) as [kappa|] eqn:Hs.
  2: { unfold rulings_efficiency in H. rewrite Ua in H. unfold rulings_effective in H. cbn [set_direction r_position r_direction make_rulings rul_spacing] in H. rewrite Hx, Hd in H. cbn [obind] in H. rewrite Hs in H. discriminate. }
  assert (Z : r_index r * vlen kappa <> 0 /\ vlen kappa <> 0).
  { unfold rulings_efficiency in H. rewrite Ua in H. unfold rulings_effective in H.
    cbn [set_direction r_position r_direction make_rulings rul_spacing] in H. rewrite Hx, Hd in H. cbn [obind] in H. rewrite Hs in H. cbn [obind] in H.
    destruct (Req_dec (vlen kappa) 0) as [E|E]; [rewrite E, odiv_0 in H; discriminate|]. split; [|exact E].
    rewrite odiv_nz in H by exact E. cbn [obind] in H. unfold incident_effective in H.
    intros F. rewrite F, odiv_0 in H. discriminate. }
  destruct Z as [Z1 Z2].
  rewrite <- H. symmetry. apply (effective_same_efficiency p i sp r x d u kappa); auto.
  - intros E. apply Z1. rewrite E. ring.
  - intros ->. apply Z2. unfold vlen, norm2, dot. cbn. replace (0 * 0 + 0 * 0 + 0 * 0) with 0 by ring. apply sqrt_0.
  - exact (T x kappa eq_refl Hs).
Qed.

Lemma shares_factor (f g : Z -> option R) (k : R) orders es :
  (forall i e, f i = Some e -> exists e', g i = Some e' /\ e = k * e') -> shares f orders es ->
  exists es', shares g orders es' /\ rsum es = k * rsum es'.
Proof.
  intros H [N E]. assert (A : exists es', map g orders = map Some es' /\ rsum es = k * rsum es').
  { clear N. revert es E. induction orders as [|i l IH]; intros [|e es] E; try discriminate.
    - exists []. split; [reflexivity|cbn; ring].
    - cbn [map] in E. injection E as E1 E2. destruct (H _ _ E1) as (e' & G & ->). destruct (IH es E2) as (es' & A & B).
      exists (e' :: es'). cbn [map]. rewrite G, A. split; [reflexivity|].
      change (k * e' + rsum es = k * (e' + rsum es')). rewrite B. ring. }
  destruct A as (es' & A & B). exists es'. split; [split; assumption|exact B].
Qed.

Lemma transformed_intensity t r : r_intensity (apply_transformation t r) = r_intensity r.
Proof. destruct t; reflexivity. Qed.
Lemma clipped_intensity ap r : r_intensity (match ap with None => r | Some ap => clip_rays ap r end) = r_intensity r.
Proof. destruct ap; reflexivity. Qed.

Lemma grating_intensity sg m ap t p sp i r : perfect m ->
  let r1 := sag_propagate sg (apply_inverse t r) in
  r_intensity (surface_propagate (grating sg m ap t p sp i) r) =
  let* i1 := r_intensity r1 in
  let* e := rulings_efficiency p i sp (rulings_effective (make_rulings p i sp) r1 (surface_normal (grating sg m ap t p sp i) r1))
              (surface_normal (grating sg m ap t p sp i) r1) in Some (i1 * (1 * e)).
Proof.
  intros Pm r1. unfold surface_propagate. rewrite transformed_intensity. unfold surface_local.
  cbn [grating sf_aperture sf_transformation]. rewrite clipped_intensity. cbn [r_intensity].
  unfold surface_incident, surface_efficiency. cbn [grating sf_sag sf_rulings sf_material]. fold r1. rewrite Pm. cbn [obind].
  change (r_intensity (rulings_effective (make_rulings p i sp) r1 (surface_normal (grating sg m ap t p sp i) r1))) with (r_intensity r1).
  destruct (r_intensity r1) as [i1|]; [|reflexivity]. cbn [obind].
  change (rul_efficiency (make_rulings p i sp)) with (rulings_efficiency p i sp).
  change (surface_normal (grating sg m ap t p sp i) (rulings_effective (make_rulings p i sp) r1 (surface_normal (grating sg m ap t p sp i) r1)))
    with (surface_normal (grating sg m ap t p sp i) r1).
  destruct (rulings_efficiency _ _ _ _ _); reflexivity.
Qed.

Lemma surface_orders_sum sg m ap t p sp r intensity orders es : perfect m -> power_profile p -> tangent_grooves sg sp ->
  0 <= r_attenuation r -> r_intensity r = Some intensity -> 0 <= intensity ->
  shares (fun i => r_intensity (surface_propagate (grating sg m ap t p sp i) r)) orders es -> rsum es <= intensity.
Proof.
  intros Pm Pp T Ha Hi Pi H. set (r1 := sag_propagate sg (apply_inverse t r)) in *.
  assert (Nil : es = [] -> rsum es <= intensity) by (intros ->; cbn; exact Pi).
  assert (I1 : exists x, forall i1, r_intensity r1 = Some i1 -> i1 = exp (- r_attenuation r * x) * intensity /\ 0 <= x).
  { unfold r1, sag_propagate. cbn [set_intensity r_intensity].
    assert (A : r_attenuation (apply_inverse t r) = r_attenuation r) by (destruct t; reflexivity).
    assert (B : r_intensity (apply_inverse t r) = Some intensity) by (destruct t; exact Hi). rewrite A, B.
    destruct (let* x := r_position (apply_inverse t r) in let* d := r_direction (apply_inverse t r) in sag_intercept sg x d) as [q|]; cbn [obind].
    2: { exists 0. intros i1 E. discriminate. }
    destruct (r_position (apply_inverse t r)) as [x|]; cbn [obind]; [|exists 0; intros i1 E; discriminate].
    exists (vlen (vsub q x)). intros i1 E. injection E as <-. split; [reflexivity|apply sqrt_pos]. }
  destruct I1 as (len & I1).
  destruct (r_intensity r1) as [i1|] eqn:E1.
  2: { apply Nil. revert H. apply shares_nil. intros i. rewrite grating_intensity by exact Pm. fold r1. rewrite E1. reflexivity. }
  destruct (I1 i1 eq_refl) as [-> Pl]. clear I1. set (f := exp (- r_attenuation r * len)) in *.
  assert (Pf : 0 <= f <= 1).
  { unfold f. split; [left; apply exp_pos|]. rewrite <- exp_0.
    assert (N : - r_attenuation r * len <= 0) by nra. destruct N as [N|N]; [left; apply exp_increasing; exact N|right; f_equal; exact N]. }
  destruct (surface_normal (grating sg m ap t p sp 0) r1) as [u|] eqn:En.
  2: { apply Nil. revert H. apply shares_nil. intros i. rewrite grating_intensity by exact Pm. fold r1. rewrite E1. cbn [obind].
       change (surface_normal (grating sg m ap t p sp i) r1) with (surface_normal (grating sg m ap t p sp 0) r1). rewrite En.
       unfold rulings_efficiency. rewrite (power_uses p Pp). destruct (r_position _); [|reflexivity]. cbn [obind]. destruct (r_direction _); reflexivity. }
  unfold surface_normal in En. cbn [grating sf_sag] in En. destruct (r_position r1) as [x|] eqn:Ex; [|discriminate]. cbn [obind] in En.
  assert (Fa : forall i e, r_intensity (surface_propagate (grating sg m ap t p sp i) r) = Some e ->
    exists e', rulings_efficiency p i sp r1 (Some u) = Some e' /\ e = f * intensity * e').
  { intros i e F. rewrite grating_intensity in F by exact Pm. fold r1 in F. rewrite E1 in F. cbn [obind] in F.
    change (surface_normal (grating sg m ap t p sp i) r1) with (let* x := r_position r1 in sag_normal sg x) in F. rewrite Ex in F. cbn [obind] in F. rewrite En in F.
    destruct (rulings_efficiency p i sp (rulings_effective (make_rulings p i sp) r1 (Some u)) (Some u)) as [e'|] eqn:Ee; [|discriminate].
    cbn [obind] in F. injection F as <-. exists e'. split; [|ring].
    destruct (sp x u) as [kappa|] eqn:Es.
    - destruct (T x u kappa En Es) as [Uu Tk]. apply (effective_implies p i sp r1 u e' (power_uses p Pp)); [exact Uu| |exact Ee].
      intros y k' Ey Ek. rewrite Ex in Ey. injection Ey as <-. rewrite Es in Ek. injection Ek as <-. exact Tk.
    - exfalso. unfold rulings_efficiency in Ee. rewrite (power_uses p Pp) in Ee. unfold rulings_effective in Ee.
      cbn [set_direction r_position r_direction make_rulings rul_spacing] in Ee. rewrite Ex in Ee. cbn [obind] in Ee. rewrite Es in Ee.
      destruct (r_direction r1); discriminate. }
  destruct (shares_factor _ _ (f * intensity) orders es Fa H) as (es' & S & ->).
  assert (L := ray_orders_sum p sp r1 (Some u) orders es' Pp S).
  assert (0 <= f * intensity <= intensity) by nra. nra.
Qed.

(** ** Sinusoidal grooves *)
Lemma cos_below u : 1 - u * u / 2 <= cos u.
Proof.
  assert (A := sin_sq_le (u / 2)). assert (B := trig1 (u / 2)). replace u with (2 * (u / 2)) at 3 by field.
  rewrite cos_2a. lra.
Qed.
Lemma sin_below u : 0 <= u <= 1 -> 3 / 4 * u <= sin u.
Proof.
  intros H. assert (P := PI2_1). assert (B := sin_bound u 0 (proj1 H) ltac:(lra)). destruct B as [B _].
  unfold sin_approx, sin_term in B. cbn in B. nra.
Qed.
Lemma sine_square : is_RInt (fun t => sin t * sin t) 0 PI (PI / 2).
Proof.
  replace (PI / 2) with (minus ((PI - sin PI * cos PI) / 2) ((0 - sin 0 * cos 0) / 2)).
  2: { rewrite sin_PI, sin_0. unfold minus, plus, opp; cbn. field. }
  apply (is_RInt_derive (fun t => (t - sin t * cos t) / 2)).
  - intros t _. auto_derive; auto. assert (T := trig1 t). cbn. lra.
  - intros t _. apply (ex_derive_continuous (fun t => sin t * sin t)). auto_derive. auto.
Qed.

Lemma bessel_0_below x : 1 - x * x / 4 <= bessel 0 x.
Proof.
  assert (P := PI_RGT_0). unfold bessel.
  assert (I := rint_minus _ _ _ _ _ _ (const_int 1 0 PI) (rint_scal _ (x * x / 2) _ _ _ sine_square)). cbn beta in I.
  assert (L : (PI - 0) * 1 - x * x / 2 * (PI / 2) <= RInt (fun t => cos (IZR 0 * t - x * sin t)) 0 PI).
  { rewrite <- (is_RInt_unique _ _ _ _ I). apply RInt_le; [lra|eexists; exact I| |].
    - apply (ex_RInt_continuous (V := R_CompleteNormedModule)). intros t _. apply bessel_cont.
    - intros t _. replace (IZR 0 * t - x * sin t) with (- (x * sin t)) by (cbn; ring). rewrite cos_neg.
      assert (C := cos_below (x * sin t)). lra. }
  set (v := RInt _ 0 PI : R) in *. clearbody v. apply (Rmult_le_reg_r PI); auto. replace (v / PI * PI) with v by (field; lra). lra.
Qed.

Lemma bessel_1_below x : 0 < x <= 1 -> 3 / 8 * x <= bessel 1 x.
Proof.
  intros Hx. assert (P := PI_RGT_0). unfold bessel.
  assert (I1 : is_RInt (fun t => cos t * cos (x * sin t)) 0 PI 0).
  { replace 0 with (minus (sin (x * sin PI) / x) (sin (x * sin 0) / x)) at 2.
    2: { rewrite sin_PI, sin_0, Rmult_0_r, sin_0. unfold minus, plus, opp; cbn. field. lra. }
    apply (is_RInt_derive (fun t => sin (x * sin t) / x)).
    - intros t _. auto_derive; auto. field. lra.
    - intros t _. apply (ex_derive_continuous (fun t => cos t * cos (x * sin t))). auto_derive. auto. }
  assert (I := rint_plus _ _ _ _ _ _ I1 (rint_scal _ (3 / 4 * x) _ _ _ sine_square)). cbn beta in I.
  assert (L : 0 + 3 / 4 * x * (PI / 2) <= RInt (fun t => cos (IZR 1 * t - x * sin t)) 0 PI).
  { rewrite <- (is_RInt_unique _ _ _ _ I). apply RInt_le; [lra|eexists; exact I| |].
    - apply (ex_RInt_continuous (V := R_CompleteNormedModule)). intros t _. apply bessel_cont.
    - intros t Ht. replace (IZR 1 * t) with t by (cbn; ring). rewrite cos_minus.
      assert (S : 0 < sin t) by (apply sin_gt_0; lra). assert (B := SIN_bound t).
      assert (C : 3 / 4 * (x * sin t) <= sin (x * sin t)) by (apply sin_below; nra). nra. }
  set (v := RInt _ 0 PI : R) in *. clearbody v. apply (Rmult_le_reg_r PI); auto. replace (v / PI * PI) with v by (field; lra). lra.
Qed.

Lemma sine_over h w c : w <> 0 -> c <> 0 -> 0 < half_delay h w c <= 1 ->
  exists e0 e1, shares (fun i => profile_efficiency (Sinusoidal h) i w c) [0; 1]%Z [e0; e1] /\ 1 < rsum [e0; e1].
Proof.
  intros Hw Hc H. exists (bessel 0 (half_delay h w c)), (bessel 1 (half_delay h w c)). split; [split|].
  - apply NoDup_cons; [intros [E|[]]; discriminate E|]. apply NoDup_cons; [intros []|apply NoDup_nil].
  - cbn [map]. rewrite !sin_eff by assumption. reflexivity.
  - assert (A := bessel_0_below (half_delay h w c)). assert (B := bessel_1_below _ H). unfold rsum. cbn [fold_right]. nra.
Qed.

(** ** A spherical grating *)
Definition spherical (i : Z) : surface :=
  grating (make_sag no_solver (SphericalSag 5) None) mirror None None (Square (2 / 5)) (default_spacing 3) i.
Definition offside : ray := mkRay 1 (Some (V3 3 0 0)) (Some (V3 0 0 1)) (Some 1) 0 1 true.

Lemma spherical_hit : sag_intercept (make_sag no_solver (SphericalSag 5) None) (V3 3 0 0) (V3 0 0 1) = Some (V3 3 0 1).
Proof.
  assert (U : is_unit (V3 0 0 1)) by (unfold is_unit, norm2, dot; cbn; ring).
  change (sphere_intercept 5 (V3 3 0 0) (V3 0 0 1) = Some (V3 3 0 1)).
  rewrite <- (sphere_determined 5 (V3 3 0 0) (V3 0 0 1) 1 1 U) by (left; reflexivity).
  replace (vadd (V3 3 0 0) (vscale 1 (V3 0 0 1))) with (V3 3 0 1) by (apply vec_eq; cbn; ring).
  replace (vscale 1 (V3 0 0 1)) with (V3 0 0 1) by (apply vec_eq; cbn; ring).
  apply sphere_struck; [exact U|cbn; lra|cbn; lra].
Qed.
Lemma spherical_normal : sag_normal (make_sag no_solver (SphericalSag 5) None) (V3 3 0 1) = Some (V3 (3/5) 0 (-4/5)).
Proof.
  change (sphere_normal 5 (V3 3 0 1) = Some (V3 (3/5) 0 (-4/5))). unfold sphere_normal. rewrite odiv_nz by lra. cbn [obind vx vy].
  replace (1 - 1 / 5 * 3 * (1 / 5 * 3) - 1 / 5 * 0 * (1 / 5 * 0)) with (4 / 5 * (4 / 5)) by field.
  unfold osqrt. destruct (Rle_dec 0 _) as [H|H]; [|exfalso; lra]. cbn [obind]. rewrite sqrt_square by lra.
  f_equal. apply vec_eq; cbn; field.
Qed.

Lemma spherical_cosine d c : - dot d (V3 (3/5) 0 (-4/5)) + dot d (V3 0 (-1) 0) * (3/5 + 0 + -4/5) = c ->
  groove_cosine (V3 3 0 0) (V3 (3/5) 0 (-4/5)) d = Some c.
Proof.
  intros <-. assert (Lk : vlen (V3 3 0 0) = 3).
  { unfold vlen. replace (norm2 (V3 3 0 0)) with (3 * 3) by (unfold norm2, dot; cbn; ring). apply sqrt_square. lra. }
  rewrite groove_cosine_eq by lra.
  replace (cross (V3 (3/5) 0 (-4/5)) (V3 3 0 0)) with (vscale (12/5) (V3 0 (-1) 0)) by (apply vec_eq; cbn; field).
  rewrite normalized_scale by lra. assert (L1 : vlen (V3 0 (-1) 0) = 1) by (apply vlen_1; unfold norm2, dot; cbn; ring).
  rewrite normalized_nz by lra. rewrite L1. cbn [obind].
  f_equal. unfold dot. cbn. field.
Qed.

Lemma offside_hit : sag_propagate (make_sag no_solver (SphericalSag 5) None) offside =
  mkRay 1 (Some (V3 3 0 1)) (Some (V3 0 0 1)) (Some (exp (- 0 * vlen (vsub (V3 3 0 1) (V3 3 0 0))) * 1)) 0 1 true.
Proof. unfold sag_propagate, offside. cbn [r_position r_direction r_intensity r_attenuation obind]. rewrite spherical_hit. reflexivity. Qed.

Lemma spherical_intensity i c e : c = 4 / 5 + IZR i / 5 -> profile_efficiency (Square (2 / 5)) i 1 c = Some e ->
  r_intensity (surface_propagate (spherical i) offside) = Some e.
Proof.
  intros Ec Ee. unfold spherical. rewrite grating_intensity by (intros r n; reflexivity).
  change (apply_inverse None offside) with offside. rewrite offside_hit. cbn [r_intensity obind].
  unfold surface_normal. cbn [r_position obind grating sf_sag]. rewrite spherical_normal.
  unfold rulings_effective. cbn [r_position r_direction r_wavelength r_index make_rulings rul_spacing rul_order obind].
  unfold default_spacing, constant_spacing. cbn [obind].
  replace (vscale 3 (V3 1 0 0)) with (V3 3 0 0) by (apply vec_eq; cbn; ring).
  assert (Lk : vlen (V3 3 0 0) = 3).
  { unfold vlen. replace (norm2 (V3 3 0 0)) with (3 * 3) by (unfold norm2, dot; cbn; ring). apply sqrt_square. lra. }
  rewrite Lk, odiv_nz by lra. cbn [obind]. unfold incident_effective. rewrite odiv_nz by lra. cbn [obind].
  replace (rsign (dot (V3 0 0 1) (V3 (3 / 5) 0 (-4 / 5)))) with (-1) by (symmetry; apply rsign_neg; unfold dot; cbn; lra).
  unfold rulings_efficiency. cbn [uses_angle r_position r_direction set_direction obind].
  replace (vscale 3 (V3 1 0 0)) with (V3 3 0 0) by (apply vec_eq; cbn; ring).
  rewrite (spherical_cosine _ c) by (rewrite Ec; unfold dot; cbn; field). cbn [obind r_wavelength set_direction]. rewrite Ee. cbn [obind].
  f_equal. replace (- 0 * vlen (vsub (V3 3 0 1) (V3 3 0 0))) with 0 by ring. rewrite exp_0. ring.
Qed.

Lemma spherical_over : exists e0 e1,
  shares (fun i => r_intensity (surface_propagate (spherical i) offside)) [0; 1]%Z [e0; e1] /\ 1 < rsum [e0; e1].
Proof.
  assert (P := PI_RGT_0).
  assert (E0 : profile_efficiency (Square (2 / 5)) 0 1 (4 / 5) = Some 1).
  { rewrite square_order_0 by lra. replace (half_delay (2 / 5) 1 (4 / 5)) with PI by (unfold half_delay; field). rewrite cos_PI. f_equal. ring. }
  set (e1 := 2 / square (IZR 1 * PI) * (1 - cos (IZR 1 * PI)) * (sin (4 * PI / 5) * sin (4 * PI / 5))).
  assert (E1 : profile_efficiency (Square (2 / 5)) 1 1 1 = Some e1).
  { rewrite (square_eff _ (2 / 5)) by (auto; lra). f_equal. unfold e1.
    replace (4 * PI / 5) with (half_delay (2 / 5) 1 1) by (unfold half_delay; field).
    apply (rect_power (half_delay (2 / 5) 1 1) PI 1); [lra|lia]. }
  exists 1, e1. split; [split|].
  - apply NoDup_cons; [intros [E|[]]; discriminate E|]. apply NoDup_cons; [intros []|apply NoDup_nil].
  - cbn [map]. rewrite (spherical_intensity 0 (4 / 5) 1) by (auto; cbn; field). rewrite (spherical_intensity 1 1 e1) by (auto; cbn; field). reflexivity.
  - unfold rsum. cbn [fold_right]. assert (0 < e1); [|lra].
    unfold e1. rewrite Rmult_1_l, cos_PI. unfold square. assert (S : 0 < sin (4 * PI / 5)) by (apply sin_gt_0; lra).
    assert (Q : 0 < 2 / (PI * PI)) by (apply Rdiv_lt_0_compat; nra).
    repeat apply Rmult_lt_0_compat; auto; lra.
Qed.
