(** C98: the orders of a grating. *)
From Coq Require Import Reals List Bool ZArith Lra Lia.
From Verif Require Import Vec VecLemmas Num NumLemmas RayModel SurfaceModel SagModel SnellSpec MaterialModel
  RulingModel RulingSpec GrooveProofs OrderProofs OrderSpec OrderSumProofs OrderSurfaceProofs SequenceExamples CurvedExamples.
Import ListNotations.
Open Scope R_scope.

(** Together the orders of a grating get no more than the light that arrives.  Missing for the full
    claim: sinusoidal grooves, for which it is false. *)
Theorem C98_ray_partial : forall p sp r n orders es, power_profile p ->
  shares (fun i => rulings_efficiency p i sp r n) orders es -> rsum es <= 1.
Proof. exact ray_orders_sum. Qed.
Print Assumptions C98_ray_partial.

(** The rays that leave a perfect mirror or window carry no more than the ray that arrives, if the
    grooves lie in the surface.  Missing: grooves that do not, for which it is false. *)
Theorem C98_surface_partial : forall sg m ap t p sp r intensity orders es,
  perfect m -> power_profile p -> tangent_grooves sg sp ->
  0 <= r_attenuation r -> r_intensity r = Some intensity -> 0 <= intensity ->
  shares (fun i => r_intensity (surface_propagate (grating sg m ap t p sp i) r)) orders es -> rsum es <= intensity.
Proof. exact surface_orders_sum. Qed.
Print Assumptions C98_surface_partial.

(** Of sinusoidal grooves only the squares of what the code returns have the property. *)
Theorem C98_squares_partial : forall h w c orders es,
  shares (fun i => profile_efficiency (Sinusoidal h) i w c) orders es -> rsum (map (fun e => e * e) es) <= 1.
Proof. exact sine_squares. Qed.
Print Assumptions C98_squares_partial.

(** Orders 0 and 1 of every shallow sinusoidal groove exceed the light that arrives. *)
Theorem C98_shallow : forall h w c, w <> 0 -> c <> 0 -> 0 < half_delay h w c <= 1 ->
  exists e0 e1, shares (fun i => profile_efficiency (Sinusoidal h) i w c) [0; 1]%Z [e0; e1] /\ 1 < rsum [e0; e1].
Proof. exact sine_over. Qed.
Print Assumptions C98_shallow.

Theorem C98_sinusoidal_refuted : exists h w c e0 e1, 0 < h /\ 0 < w /\ 0 < c <= 1 /\
  shares (fun i => profile_efficiency (Sinusoidal h) i w c) [0; 1]%Z [e0; e1] /\ 1 < rsum [e0; e1].
Proof.
  exists (1 / 100), 1, 1. assert (P := PI_RGT_0). assert (P4 := PI_4).
  destruct (C98_shallow (1 / 100) 1 1) as (e0 & e1 & S & L); [lra|lra|unfold half_delay; split; lra|].
  exists e0, e1. repeat split; try lra; try apply S; exact L.
Qed.
Print Assumptions C98_sinusoidal_refuted.

(** A spherical mirror with square grooves of constant spacing: orders 0 and 1 carry more than the
    ray of intensity 1 that arrives. *)
Theorem C98_spherical_refuted : exists h d radius r e0 e1,
  r_intensity r = Some 1 /\ r_attenuation r = 0 /\ 0 < h /\ 0 < d /\ 0 < radius /\
  shares (fun i => r_intensity (surface_propagate
    (grating (make_sag no_solver (SphericalSag radius) None) mirror None None (Square h) (default_spacing d) i) r)) [0; 1]%Z [e0; e1] /\
  1 < rsum [e0; e1].
Proof.
  destruct spherical_over as (e0 & e1 & S & L). exists (2 / 5), 3, 5, offside, e0, e1.
  repeat split; try lra; try apply S; exact L.
Qed.
Print Assumptions C98_spherical_refuted.

(** The triangular grooves of the code get less than thin-grating theory in every order. *)
Theorem C68_triangular_below_partial : forall p h i w c e, p = Triangular h -> profile_efficiency p i w c = Some e ->
  e <= thin_grating p i w c.
Proof. intros p h i w c e ->. apply power_below. exact I. Qed.
Print Assumptions C68_triangular_below_partial.

Example C98_nonvacuous : exists e0 e1,
  shares (fun i => rulings_efficiency (Square (1/8)) i (default_spacing 2) (test_ray (V3 0 0 1)) (Some (V3 0 0 (-1)))) [0; 1]%Z [e0; e1] /\
  perfect mirror /\ tangent_grooves plane (default_spacing 2) /\
  (exists e, shares (fun i => r_intensity (surface_propagate (grating plane mirror None None (Square (1/8)) (default_spacing 2) i) (test_ray (V3 0 0 1)))) [0%Z] [e]) /\
  0 < half_delay (1/100) 1 1 <= 1.
Proof.
  assert (P := PI_RGT_0). assert (P4 := PI_4). assert (U : is_unit (V3 0 0 (-1))) by (unfold is_unit, norm2, dot; cbn; ring).
  assert (K : V3 2 0 0 <> vzero) by (intros E; injection E; lra).
  assert (F : forall i, rulings_efficiency (Square (1/8)) i (default_spacing 2) (test_ray (V3 0 0 1)) (Some (V3 0 0 (-1)))
    = Some (thin_grating (Square (1/8)) i 1 1)).
  { intros i. rewrite (in_plane_efficiency _ i _ (test_ray (V3 0 0 1)) vzero (V3 0 0 1) _ (V3 2 0 0) eq_refl eq_refl U).
    - replace (- dot (V3 0 0 1) (V3 0 0 (-1))) with 1 by (unfold dot; cbn; ring). apply (square_eff _ (1/8)); auto; lra.
    - unfold default_spacing, constant_spacing. f_equal. apply vec_eq; cbn; ring.
    - exact K.
    - unfold dot; cbn; ring.
    - unfold dot; cbn; ring. }
  eexists _, _. split; [split|].
  - apply NoDup_cons; [intros [E|[]]; discriminate E|]. apply NoDup_cons; [intros []|apply NoDup_nil].
  - cbn [map]. rewrite !F. reflexivity.
  - split; [intros r n; reflexivity|]. split.
    + intros x u kappa En Ek. injection En as <-. injection Ek as <-. split; [exact U|unfold dot; cbn; ring].
    + split; [|unfold half_delay; split; [lra|lra]].
      eexists. split; [apply NoDup_cons; [intros []|apply NoDup_nil]|]. cbn [map]. f_equal.
      rewrite grating_intensity by (intros r n; reflexivity).
      assert (H : sag_propagate plane (apply_inverse None (test_ray (V3 0 0 1))) = test_ray (V3 0 0 1)).
      { unfold sag_propagate, test_ray. cbn [apply_inverse r_position r_direction r_intensity r_attenuation obind].
        replace (sag_intercept plane vzero (V3 0 0 1)) with (Some vzero).
        - cbn [obind]. unfold set_intensity, set_position. cbn. f_equal. f_equal. rewrite Ropp_0, Rmult_0_l, exp_0. ring.
        - symmetry. change (flat_intercept vzero (V3 0 0 1) = Some vzero). unfold flat_intercept. rewrite odiv_nz by (cbn; lra). cbn [obind]. f_equal. apply vec_eq; cbn; field. }
      rewrite H. cbn [r_intensity test_ray obind]. unfold surface_normal. cbn [r_position obind grating sf_sag].
      change (sag_normal plane vzero) with (Some (V3 0 0 (-1))).
      rewrite (effective_same_efficiency _ 0 _ _ vzero (V3 0 0 1) (V3 0 0 (-1)) (V3 2 0 0)); auto; try reflexivity.
      * rewrite F. cbn [obind]. reflexivity.
      * cbn. lra.
      * unfold default_spacing, constant_spacing. f_equal. apply vec_eq; cbn; ring.
      * unfold dot; cbn; ring.
Qed.
