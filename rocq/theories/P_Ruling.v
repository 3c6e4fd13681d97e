(** C26-C31, C68, C69: rulings. *)
From Coq Require Import Reals Lra Psatz List ZArith Lia.
From Verif Require Import Vec VecLemmas Num NumLemmas RayModel SurfaceModel SnellModel SnellSpec MaterialModel
  RulingModel RulingSpec RulingProofs GrooveProofs.
Import ListNotations.
Open Scope R_scope.

(** ** C26 *)
Theorem C26_grating_equation : forall w a n1 n2 u m d g mirror e b,
  0 < n1 -> 0 < n2 -> is_unit u -> d <> 0 ->
  incident_effective w a n1 u m d g = Some e -> snells_law e n1 n2 mirror u = Some b ->
  vscale n2 (tangential u b) =
  vadd (vscale n1 (tangential u a)) (vscale (rsign (dot a u) * m * w / d) (tangential u g)).
Proof. exact grating_equation. Qed.
Print Assumptions C26_grating_equation.

(** The same for the whole surface; [kappa / norm2 kappa] is the groove direction divided
    by the groove spacing. *)
Theorem C26_surface : forall s g r x a u kappa b,
  sf_rulings s = Some g ->
  let r1 := sag_propagate (sf_sag s) r in
  r_position r1 = Some x -> r_direction r1 = Some a -> sag_normal (sf_sag s) x = Some u ->
  rul_spacing g x u = Some kappa -> kappa <> vzero -> is_unit u ->
  0 < r_index r -> 0 < mat_index (sf_material s) (surface_incident s r) ->
  r_direction (surface_local s r) = Some b ->
  vscale (mat_index (sf_material s) (surface_incident s r)) (tangential u b) =
  vadd (vscale (r_index r) (tangential u a))
       (vscale (rsign (dot a u) * rul_order g * r_wavelength r / norm2 kappa) (tangential u kappa)).
Proof. exact surface_grating. Qed.
Print Assumptions C26_surface.

(** Rulings given by a number [d]: grooves [d] apart along x. *)
Theorem C26_number : forall s g r x a u d b,
  sf_rulings s = Some g -> rul_spacing g = default_spacing d -> d <> 0 ->
  let r1 := sag_propagate (sf_sag s) r in
  r_position r1 = Some x -> r_direction r1 = Some a -> sag_normal (sf_sag s) x = Some u -> is_unit u ->
  0 < r_index r -> 0 < mat_index (sf_material s) (surface_incident s r) ->
  r_direction (surface_local s r) = Some b ->
  vscale (mat_index (sf_material s) (surface_incident s r)) (tangential u b) =
  vadd (vscale (r_index r) (tangential u a))
       (vscale (rsign (dot a u) * rul_order g * r_wavelength r / d) (tangential u (V3 1 0 0))).
Proof. exact surface_number. Qed.
Print Assumptions C26_number.

Theorem C26_order_zero : forall g r normal x u kappa d,
  rul_order g = 0 -> r_position r = Some x -> normal = Some u -> rul_spacing g x u = Some kappa ->
  vlen kappa <> 0 -> r_index r <> 0 -> r_direction r = Some d ->
  rulings_effective g r normal = r.
Proof. exact order_zero. Qed.
Print Assumptions C26_order_zero.

Theorem C26_order_zero_normal : forall w a n1 n2 u d g mirror, n1 <> 0 -> d <> 0 -> dot a u <> 0 ->
  obind (incident_effective w a n1 u 0 d g) (fun e => snells_law e n1 n2 mirror u) =
  obind (incident_effective w a n1 (vopp u) 0 d g) (fun e => snells_law e n1 n2 mirror (vopp u)).
Proof. exact order_zero_normal. Qed.
Print Assumptions C26_order_zero_normal.

(** For any order: reversing the normal is reversing the order. *)
Theorem C26_flip_normal : forall w a n1 n2 u m d g mirror e b,
  0 < n1 -> 0 < n2 -> is_unit u -> d <> 0 -> dot a u <> 0 -> dot g u = 0 ->
  incident_effective w a n1 (vopp u) m d g = Some e -> snells_law e n1 n2 mirror (vopp u) = Some b ->
  exists e', incident_effective w a n1 u (- m) d g = Some e' /\ snells_law e' n1 n2 mirror u = Some b.
Proof. exact grating_flip. Qed.
Print Assumptions C26_flip_normal.

Example C26_nonvacuous : exists e b, incident_effective 1 (V3 0 0 1) 1 (V3 0 0 (-1)) 1 2 (V3 1 0 0) = Some e /\
  snells_law e 1 1 true (V3 0 0 (-1)) = Some b /\ dot (V3 1 0 0) (V3 0 0 (-1)) = 0.
Proof.
  assert (E : incident_effective 1 (V3 0 0 1) 1 (V3 0 0 (-1)) 1 2 (V3 1 0 0) = Some (V3 (-1/2) 0 1)).
  { unfold incident_effective. rewrite odiv_nz by lra. cbn [obind]. rewrite rsign_neg by (unfold dot; cbn; lra).
    f_equal. apply vec_eq; cbn; lra. }
  assert (N : norm2 (tangential (V3 0 0 (-1)) (V3 (-1/2) 0 1)) = 1 / 4) by (tv; field).
  destruct (proj1 (SnellProofs.snells_law_unit_iff (V3 (-1/2) 0 1) 1 1 true (V3 0 0 (-1)) ltac:(lra) ltac:(lra) ltac:(unfold is_unit, norm2, dot; cbn; ring))) as (b & Hb & _).
  - rewrite N. lra.
  - exists (V3 (-1/2) 0 1), b. split; [auto|]. split; [auto|]. unfold dot; cbn; ring.
Qed.

(** ** C27 *)
Theorem C27_ideal : forall i sp r n, rulings_efficiency Ideal i sp r n = Some 1.
Proof. reflexivity. Qed.
Print Assumptions C27_ideal.

(** Measured efficiencies: the interpolation passes through the measurements and never
    leaves their range. *)
Theorem C27_measured : forall nodes i sp r n, sorted_nodes nodes ->
  (forall p, In p nodes -> 0 <= snd p <= 1) -> physical (rulings_efficiency (Measured nodes) i sp r n).
Proof. exact (fun nodes i sp r n => interp_between 0 1 (r_wavelength r) nodes). Qed.
Print Assumptions C27_measured.
Theorem C27_measured_nodes : forall nodes i sp r n y, sorted_nodes nodes -> In (r_wavelength r, y) nodes ->
  rulings_efficiency (Measured nodes) i sp r n = Some y.
Proof. exact (fun nodes i sp r n y => interp_node nodes (r_wavelength r) y). Qed.
Print Assumptions C27_measured_nodes.

Theorem C27_square : forall h i w c, w <> 0 -> c <> 0 -> physical (profile_efficiency (Square h) i w c).
Proof. exact square_physical. Qed.
Print Assumptions C27_square.

Theorem C27_rectangular : forall h duty i w c, 0 < duty < 1 -> w <> 0 -> c <> 0 ->
  physical (profile_efficiency (RectangularGroove h duty) i w c).
Proof. exact rect_physical. Qed.
Print Assumptions C27_rectangular.

Theorem C27_triangular : forall h i w c, w <> 0 -> c <> 0 -> h <> 0 ->
  physical (profile_efficiency (Triangular h) i w c).
Proof. exact tri_physical. Qed.
Print Assumptions C27_triangular.

(** Missing: at the blaze condition the code divides zero by zero. *)
Theorem C27_sawtooth_partial : forall h i w c, w <> 0 -> c <> 0 -> half_delay h w c / PI + IZR i <> 0 ->
  physical (profile_efficiency (Sawtooth h) i w c).
Proof. exact saw_physical. Qed.
Print Assumptions C27_sawtooth_partial.
Theorem C27_sawtooth_refuted : exists h i w c, 0 < h /\ 0 < w /\ 0 < c <= 1 /\
  ~ physical (profile_efficiency (Sawtooth h) i w c) /\ thin_grating (Sawtooth h) i w c = 1.
Proof.
  exists 1, (-2)%Z, 1, 1.
  destruct (saw_blaze (Sawtooth 1) 1 (-2) 1 1 ltac:(lra) ltac:(lra) eq_refl) as [A B].
  - assert (P := PI_RGT_0). unfold half_delay. field. lra.
  - split; [lra|]. split; [lra|]. split; [lra|]. split; [|exact B].
    rewrite A. intros (e & E & _). discriminate.
Qed.
Print Assumptions C27_sawtooth_refuted.

(** Missing: the sign.  The value is the amplitude of the order, within [-1, 1]. *)
Theorem C27_sinusoidal_partial : forall h i w c, w <> 0 -> c <> 0 ->
  exists e, profile_efficiency (Sinusoidal h) i w c = Some e /\ -1 <= e <= 1.
Proof.
  exact (fun h i w c Hw Hc => ex_intro _ _ (conj (sin_eff h i w c Hw Hc) (bessel_bound i (half_delay h w c)))).
Qed.
Print Assumptions C27_sinusoidal_partial.
(** Every shallow sinusoidal grating has a negative efficiency in order -1. *)
Theorem C27_sinusoidal_refuted : forall h w c, 0 < w -> 0 < c -> 0 < h -> 2 * h < w * c ->
  exists e, profile_efficiency (Sinusoidal h) (-1) w c = Some e /\ e < 0.
Proof. exact sin_eff_negative. Qed.
Print Assumptions C27_sinusoidal_refuted.

Example C27_nonvacuous : sorted_nodes [(1, 1/2); (2, 1/4); (3, 0)] /\
  (forall p, In p [(1, 1/2); (2, 1/4); (3, 0)] -> 0 <= snd p <= 1) /\
  half_delay (1 / 8) 1 1 / PI + IZR (-1) <> 0 /\ 2 * (1 / 8) < 1 * 1.
Proof.
  split; [cbn; lra|]. split; [intros p [<-|[<-|[<-|[]]]]; cbn; lra|]. split; [|lra].
  assert (P := PI_RGT_0). unfold half_delay. replace (2 * PI * (1 / 8) / (1 * 1) / PI) with (1 / 4) by (field; lra). lra.
Qed.

(** ** C28 *)
(** Rays in the plane of the normal and the dispersion direction. *)
Theorem C28_in_plane_partial : forall p i sp r x d u kappa,
  r_position r = Some x -> r_direction r = Some d -> is_unit u -> sp x u = Some kappa ->
  kappa <> vzero -> dot kappa u = 0 -> dot d (cross u kappa) = 0 ->
  rulings_efficiency p i sp r (Some u) = profile_efficiency p i (r_wavelength r) (- dot d u).
Proof. exact in_plane_efficiency. Qed.
Print Assumptions C28_in_plane_partial.

(** Two rays with the same angle of incidence and different efficiencies. *)
Theorem C28_refuted : exists sp h d d' u kappa e e', is_unit u /\ is_unit d /\ is_unit d' /\
  (forall x, sp x u = Some kappa) /\ kappa <> vzero /\ dot kappa u = 0 /\ dot d u = dot d' u /\ dot d u < 0 /\
  rulings_efficiency (Square h) 0 sp (test_ray d) (Some u) = Some e /\
  rulings_efficiency (Square h) 0 sp (test_ray d') (Some u) = Some e' /\ e <> e'.
Proof. exact skew_witness. Qed.
Print Assumptions C28_refuted.
Theorem C28_cosine_refuted : exists kappa u d c, is_unit u /\ is_unit d /\ kappa <> vzero /\ dot kappa u = 0 /\
  groove_cosine kappa u d = Some c /\ 1 < c.
Proof. exact cosine_above_1. Qed.
Print Assumptions C28_cosine_refuted.

Example C28_nonvacuous : is_unit (V3 0 0 (-1)) /\ V3 1 0 0 <> vzero /\ dot (V3 1 0 0) (V3 0 0 (-1)) = 0 /\
  dot (V3 (3/5) 0 (4/5)) (cross (V3 0 0 (-1)) (V3 1 0 0)) = 0.
Proof.
  split; [unfold is_unit; tv; ring|]. split; [unfold vzero; intro H; injection H; lra|]. split; tv; ring.
Qed.

(** ** C29 *)
Theorem C29_duty_half : forall h i sp r n,
  rulings_efficiency (RectangularGroove h (1 / 2)) i sp r n = rulings_efficiency (Square h) i sp r n.
Proof. exact duty_half_ray. Qed.
Print Assumptions C29_duty_half.

Example C29_nonvacuous : exists e, rulings_efficiency (RectangularGroove (1/8) (1 / 2)) 3
  (default_spacing 1) (test_ray (V3 (3/5) 0 (4/5))) (Some (V3 0 0 (-1))) = Some e /\ 0 <= e <= 1.
Proof.
  rewrite (in_plane_efficiency _ 3 (default_spacing 1) _ vzero (V3 (3/5) 0 (4/5)) (V3 0 0 (-1)) (V3 1 0 0)); try reflexivity.
  - cbn [r_wavelength test_ray]. apply rect_physical; try lra. tv. lra.
  - unfold is_unit; tv; ring.
  - unfold default_spacing, constant_spacing. f_equal. apply vec_eq; cbn; ring.
  - unfold vzero. intro H. injection H. lra.
  - tv; ring.
  - tv; ring.
Qed.

(** ** C30 *)
(** [beam dv source p e]: [e] is the direction at [p] of the recording beam of [source].
    With the incident beam travelling against the normal and the second beam along it
    (a reflection), order 1 at the recording wavelength. *)
Theorem C30_image_partial : forall x1 x2 w d1 d2 t p u e1 e2 n, 0 < w -> 0 < n -> is_unit u ->
  beam d1 x1 p e1 -> beam d2 x2 p e2 -> tangential u e1 <> tangential u e2 ->
  dot e1 u < 0 -> 0 < dot e2 u ->
  exists kappa e, holographic_spacing x1 x2 w d1 d2 t p u = Some kappa /\
    (exists q, odiv 1 (vlen kappa) = Some q /\
      incident_effective w e1 1 u 1 (vlen kappa) (vscale q kappa) = Some e) /\
    snells_law e n n true u = Some e2.
Proof. exact holographic_image. Qed.
Print Assumptions C30_image_partial.

(** The normal may point the other way: then order 1 is lost. *)
Theorem C30_normal_refuted : exists x1 x2 w p u e1 e2, 0 < w /\ is_unit u /\
  beam true x1 p e1 /\ beam false x2 p e2 /\ tangential u e1 <> tangential u e2 /\
  0 < dot e1 u /\ dot e2 u < 0 /\
  forall kappa q e, holographic_spacing x1 x2 w true false None p u = Some kappa ->
    odiv 1 (vlen kappa) = Some q ->
    incident_effective w e1 1 u 1 (vlen kappa) (vscale q kappa) = Some e ->
    snells_law e 1 1 true u = None.
Proof. exact holographic_back. Qed.
Print Assumptions C30_normal_refuted.

(** Where the mirror alone already images one source onto the other the spacing is NaN. *)
Theorem C30_specular_refuted : exists x1 x2 w p u e1 e2, 0 < w /\ is_unit u /\
  beam true x1 p e1 /\ beam false x2 p e2 /\ dot e1 u < 0 /\ 0 < dot e2 u /\
  e2 = mirror_image u e1 /\ holographic_spacing x1 x2 w true false None p u = None.
Proof. exact holographic_specular. Qed.
Print Assumptions C30_specular_refuted.

Example C30_nonvacuous : let u := V3 0 0 (-1) in let e1 := V3 (3/5) 0 (4/5) in let e2 := V3 0 0 (-1) in
  is_unit u /\ beam true (V3 (-3) 0 (-4)) vzero e1 /\ beam false (V3 0 0 (-2)) vzero e2 /\
  tangential u e1 <> tangential u e2 /\ dot e1 u < 0 /\ 0 < dot e2 u.
Proof.
  cbv zeta. split; [unfold is_unit; tv; ring|].
  split; [split; [unfold is_unit; tv; lra|exists 5; split; [lra|apply vec_eq; cbn; lra]]|].
  split; [split; [unfold is_unit; tv; lra|exists 2; split; [lra|apply vec_eq; cbn; lra]]|].
  split; [tv; intro H; injection H; lra|]. split; tv; lra.
Qed.

(** ** C31 *)
Theorem C31_constant : forall c g p p' n n', constant_spacing c g p n = constant_spacing c g p' n'.
Proof. reflexivity. Qed.
Print Assumptions C31_constant.
Theorem C31_polynomial : forall coefficients g t p n,
  polynomial_spacing coefficients g (Some t) p n =
  Some (vscale (rsum (map (fun it => snd it * dot (rigid_point t p) g ^ fst it) coefficients)) g).
Proof. exact (fun coefficients g t p n => f_equal (fun k => Some (vscale k g)) (polynomial_sum coefficients (dot (rigid_point t p) g))). Qed.
Print Assumptions C31_polynomial.
Theorem C31_polynomial_constant : forall c g t p n, polynomial_spacing [(0%nat, c)] g t p n = constant_spacing c g p n.
Proof. exact polynomial_degree_0. Qed.
Print Assumptions C31_polynomial_constant.
(** The transformation of the holographic model has no effect at all. *)
Theorem C31_holographic_refuted : exists x1 x2 w t p u, 0 < w /\ is_unit u /\ is_rigid t /\
  holographic_spacing x1 x2 w true false (Some t) p u <>
  in_ruling_frame t (holographic_spacing x1 x2 w true false None) p u.
Proof. exact holographic_frame. Qed.
Print Assumptions C31_holographic_refuted.

Example C31_nonvacuous : polynomial_spacing [(0%nat, 1); (2%nat, 3)] (V3 1 0 0) (Some (mkRigid mid (V3 1 0 0))) (V3 1 5 5) vzero
  = Some (V3 13 0 0).
Proof.
  rewrite C31_polynomial. f_equal. unfold rsum. cbn [map fold_right fst snd].
  replace (dot (rigid_point (mkRigid mid (V3 1 0 0)) (V3 1 5 5)) (V3 1 0 0)) with 2.
  - apply vec_eq; cbn; ring.
  - cbv [rigid_point rg_mat rg_shift mapply mid mr1 mr2 mr3 dot vadd vx vy vz]. ring.
Qed.

(** ** C68: thin-grating theory *)
Theorem C68_square : forall p h i w c, w <> 0 -> c <> 0 -> p = Square h ->
  profile_efficiency p i w c = Some (thin_grating p i w c).
Proof. exact square_eff. Qed.
Print Assumptions C68_square.
Theorem C68_rectangular : forall p h duty i w c, 0 < duty < 1 -> w <> 0 -> c <> 0 -> p = RectangularGroove h duty ->
  profile_efficiency p i w c = Some (thin_grating p i w c).
Proof. exact rect_eff. Qed.
Print Assumptions C68_rectangular.
(** Missing: the blaze condition, see [C27_sawtooth_refuted]. *)
Theorem C68_sawtooth_partial : forall p h i w c, w <> 0 -> c <> 0 -> p = Sawtooth h ->
  half_delay h w c / PI + IZR i <> 0 ->
  profile_efficiency p i w c = Some (thin_grating p i w c).
Proof. exact saw_eff. Qed.
Print Assumptions C68_sawtooth_partial.
(** Missing: every order but zero. *)
Theorem C68_triangular_partial : forall p h w c, w <> 0 -> c <> 0 -> p = Triangular h -> half_delay h w c <> 0 ->
  profile_efficiency p 0 w c = Some (thin_grating p 0 w c).
Proof. exact tri_eff_0. Qed.
Print Assumptions C68_triangular_partial.
Theorem C68_triangular_refuted : exists h w c, 0 < h /\ 0 < w /\ 0 < c <= 1 /\
  profile_efficiency (Triangular h) 1 w c = Some (square (4 / (5 * PI))) /\
  thin_grating (Triangular h) 1 w c = square (4 / (3 * PI)) /\ square (4 / (5 * PI)) < square (4 / (3 * PI)).
Proof. exact tri_witness. Qed.
Print Assumptions C68_triangular_refuted.
(** The power is the square of what the code returns. *)
Theorem C68_sinusoidal_partial : forall p h i w c, w <> 0 -> c <> 0 -> p = Sinusoidal h ->
  exists e, profile_efficiency p i w c = Some e /\ thin_grating p i w c = e * e.
Proof. exact sin_eff_squared. Qed.
Print Assumptions C68_sinusoidal_partial.

(** ** C69 *)
(** The efficiency asked for by a surface is that of the ray as it arrives, when the
    grooves are tangent to the surface. *)
Theorem C69_tangent_partial : forall p i sp r x d u kappa, r_position r = Some x -> r_direction r = Some d ->
  r_index r <> 0 -> is_unit u -> sp x u = Some kappa -> kappa <> vzero -> dot kappa u = 0 ->
  rulings_efficiency p i sp (rulings_effective (make_rulings p i sp) r (Some u)) (Some u) =
  rulings_efficiency p i sp r (Some u).
Proof. exact effective_same_efficiency. Qed.
Print Assumptions C69_tangent_partial.
Theorem C69_refuted : exists h sp d u e e', is_unit u /\ is_unit d /\ dot d u < 0 /\
  rulings_efficiency (Square h) 1 sp (test_ray d) (Some u) = Some e /\
  rulings_efficiency (Square h) 1 sp (rulings_effective (make_rulings (Square h) 1 sp) (test_ray d) (Some u)) (Some u) = Some e' /\
  e <> e'.
Proof. exact effective_witness. Qed.
Print Assumptions C69_refuted.
