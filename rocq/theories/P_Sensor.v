(** C47-C52, C59: imaging sensors and detector statistics. *)
From Coq Require Import Reals List Bool Lra Lia.
From Coquelicot Require Import Coquelicot.
From Verif Require Import Vec Num NumLemmas RayModel ComplexModel LayerModel LayerProofs RamanathanModel SensorModel SensorSpec SensorCollectProofs
  DistSpec DistProofs SensorProofs SensorStatProofs SensorExamples.
Import ListNotations.
Open Scope R_scope.

(** ** C47 *)

(** Missing for the full claim: masked rays whose intensity is not a number. *)
Theorem C47_conserved_partial : forall s wl rays, good_grid s wl ->
  (forall rw, In rw rays -> inside s wl (fst rw) -> r_intensity (fst rw) <> None) ->
  forall b, (forall rw, b rw = true <-> counted rw /\ inside s wl (fst rw)) ->
  osum (map (collect_image s wl rays) (grid_cells s wl)) =
  Some (rsum (map (fun rw => intensity_of (fst rw)) (filter b rays))).
Proof. exact flux_conserved. Qed.
Print Assumptions C47_conserved_partial.

Theorem C47_one_pixel_partial : forall s wl r i, good_grid s wl -> r_intensity r = Some i -> r_unvignetted r = true ->
  inside s wl r -> exists c, In c (grid_cells s wl) /\ covers s wl c r /\
    collect_image s wl [(r, true)] c = Some i /\
    (forall c', In c' (grid_cells s wl) -> c' <> c -> collect_image s wl [(r, true)] c' = Some 0).
Proof. exact one_ray. Qed.
Print Assumptions C47_one_pixel_partial.

Theorem C47_no_other_partial : forall s wl r w c, good_grid s wl -> r_intensity r <> None ->
  ~ (counted (r, w) /\ inside s wl r) -> collect_image s wl [(r, w)] c = Some 0.
Proof. exact outside_ray. Qed.
Print Assumptions C47_no_other_partial.

(** A ray that is masked and vignetted or not, but whose intensity is NaN, erases its pixel. *)
Theorem C47_refuted : exists s wl r r' c i, good_grid s wl /\ In c (grid_cells s wl) /\ ~ counted r' /\
  collect_image s wl [(r, true)] c = Some i /\ collect_image s wl [(r, true); r'] c = None.
Proof.
  destruct (masked_flux sensor_a bins_a ray_a 7 grid_a eq_refl eq_refl inside_a) as (c & C1 & C2 & C3).
  exists sensor_a, bins_a, ray_a, (lost ray_a), c, 7. split; [exact grid_a|]. split; [exact C1|].
  split; [intros [_ H]; discriminate H|]. split; assumption.
Qed.
Print Assumptions C47_refuted.

Example C47_nonvacuous : good_grid sensor_a bins_a /\ inside sensor_a bins_a ray_a /\ inside sensor_a bins_a ray_b /\
  ~ inside sensor_a bins_a ray_c /\
  exists b, forall rw, b rw = true <-> counted rw /\ inside sensor_a bins_a (fst rw).
Proof.
  split; [exact grid_a|]. split; [exact inside_a|]. split; [exact inside_b|]. split; [exact outside_c|].
  exists (fun rw => ray_where rw && match ray_cell sensor_a bins_a (fst rw) with Some _ => true | None => false end).
  intros rw. rewrite andb_true_iff, where_iff. split; intros [W X]; (split; [exact W|]).
  - destruct (ray_cell sensor_a bins_a (fst rw)) as [c|] eqn:E; [|discriminate]. apply (cell_some _ _ _ _ grid_a E).
  - destruct (cell_exists _ _ _ grid_a X) as [c ->]. reflexivity.
Qed.

(** ** C48 *)

(** Missing for the full claim: masked rays without a direction or an intensity. *)
Theorem C48_mean_partial : forall s wl rays c, (forall rw, In rw rays -> numeric s rw) ->
  forall b, (forall rw, b rw = true <-> hits s wl c rw) ->
  0 < rsum (map (fun rw => intensity_of (fst rw)) (filter b rays)) ->
  exists d, collect_direction s wl rays c = Some d /\
    is_weighted_mean (fun rw => intensity_of (fst rw)) (fun rw => Re (cosine_of s rw)) (filter b rays) (Re d) /\
    is_weighted_mean (fun rw => intensity_of (fst rw)) (fun rw => Im (cosine_of s rw)) (filter b rays) (Im d).
Proof. exact direction_mean. Qed.
Print Assumptions C48_mean_partial.

Theorem C48_hull_partial : forall s wl rays c, (forall rw, In rw rays -> numeric s rw) ->
  (forall rw, In rw rays -> 0 <= intensity_of (fst rw)) ->
  (exists rw, In rw rays /\ hits s wl c rw /\ 0 < intensity_of (fst rw)) ->
  exists d, collect_direction s wl rays c = Some d /\
    forall u v k, (forall rw, In rw rays -> hits s wl c rw -> u * Re (cosine_of s rw) + v * Im (cosine_of s rw) <= k) ->
      u * Re d + v * Im d <= k.
Proof. exact direction_hull. Qed.
Print Assumptions C48_hull_partial.

Theorem C48_empty_partial : forall s wl rays c, (forall rw, In rw rays -> numeric s rw) ->
  forall b, (forall rw, b rw = true <-> hits s wl c rw) ->
  rsum (map (fun rw => intensity_of (fst rw)) (filter b rays)) = 0 ->
  collect_direction s wl rays c = Some (RtoC 1).
Proof. exact direction_empty. Qed.
Print Assumptions C48_empty_partial.

Theorem C48_scale : forall s wl rays c k, 0 < k ->
  collect_direction s wl (map (scale_intensity k) rays) c = collect_direction s wl rays c.
Proof. exact direction_scale. Qed.
Print Assumptions C48_scale.

(** The cosine of a ray is the component of its direction along the axis of the sensor; ... *)
Theorem C48_ideal : forall s r b d, sn_material s = Ideal -> r_direction r = Some d -> ray_cosine s (r, b) = Some (RtoC (vz d)).
Proof. exact ideal_cosine. Qed.
Print Assumptions C48_ideal.

(** ... in silicon it follows from that by Snell's law, [n] being the complex index of the medium the ray
    arrives in: the energy of a wave with this index is attenuated as the ray. *)
Theorem C48_silicon : forall s r b d m c, sn_material s = Silicon m -> 0 < r_wavelength r -> r_direction r = Some d ->
  ray_cosine s (r, b) = Some c ->
  exists n : C, Re n = r_index r /\
    (forall x, (Cmod (cexp (Ci * (n * RtoC (2 * PI / r_wavelength r * x)%R))%C)) ^ 2 = exp (- (r_attenuation r * x))) /\
    ((si_n m (r_wavelength r) * si_n m (r_wavelength r)) * (1 - c * c) = (n * n) * (1 - RtoC (vz d) * RtoC (vz d)))%C /\ 0 <= Re c.
Proof. exact silicon_cosine. Qed.
Print Assumptions C48_silicon.

(** A masked ray without a direction (its flux is zero) makes the cosine of its pixel NaN. *)
Theorem C48_refuted : exists s wl r r' c i, good_grid s wl /\ In c (grid_cells s wl) /\ ~ counted r' /\ 0 < i /\
  collect_image s wl [(r, true); r'] c = Some i /\ collect_direction s wl [(r, true)] c <> None /\
  collect_direction s wl [(r, true); r'] c = None.
Proof.
  destruct (masked_cosine sensor_a bins_a ray_a 7 grid_a eq_refl ltac:(lra) eq_refl inside_a ltac:(discriminate)) as (c & C1 & C2 & C3 & C4).
  exists sensor_a, bins_a, ray_a, (blind ray_a), c, 7. split; [exact grid_a|]. split; [exact C1|].
  split; [intros [_ H]; discriminate H|]. split; [lra|]. split; [exact C3|]. split; [rewrite C2; discriminate | exact C4].
Qed.
Print Assumptions C48_refuted.

Example C48_nonvacuous : exists c, (forall rw, In rw [(ray_a, true); (ray_b, true)] -> numeric sensor_a rw) /\
  hits sensor_a bins_a c (ray_a, true) /\ 0 < intensity_of ray_a /\
  Re (cosine_of sensor_a (ray_a, true)) = 4 / 5 /\ Re (cosine_of sensor_a (ray_b, true)) = 1.
Proof.
  destruct (cell_exists _ _ _ grid_a inside_a) as [c E]. exists c.
  split; [intros rw [<-|[<-|[]]]; split; discriminate|].
  split; [split; [split; reflexivity | exact E]|].
  unfold intensity_of, cosine_of, ray_cosine, direction_refracted, dot, vopp. cbn [ray_a ray_b fst snd r_intensity r_direction sn_material sensor_a obind vx vy vz RtoC Re].
  split; [lra|]. split; field.
Qed.

(** A ray in an absorbing medium on a sensor made of glass. *)
Example C48_silicon_nonvacuous : exists s r d m c, sn_material s = Silicon m /\ 0 < r_wavelength r /\ r_direction r = Some d /\
  0 < r_attenuation r /\ ray_cosine s (r, true) = Some c.
Proof.
  exists (mkSensor 2 1 2 3 5 4 (Silicon (mkSilicon (fun _ => RtoC (3 / 2)) 0 1 300))),
    (mkRay 3 (Some (V3 (-1) 1 0)) (Some (V3 0 (3/5) (4/5))) (Some 7) 1 2 true), (V3 0 (3/5) (4/5)), (mkSilicon (fun _ => RtoC (3 / 2)) 0 1 300).
  eexists. split; [reflexivity|]. split; [cbn; lra|]. split; [reflexivity|]. split; [cbn; lra|].
  unfold ray_cosine. cbn [fst r_direction obind sn_material direction_refracted si_n]. apply snell_value.
  intros E. apply (f_equal fst) in E. cbn in E. lra.
Qed.

(** ** C49 *)

(** Missing for the full claim: sensors without an implant layer (the default), for which the
    exposure is NaN. *)
Theorem C49_inverse_partial : forall tb s t flux w d,
  working tb (sn_material s) w d -> match t with Some t => t | None => sn_exposure s end <> 0 ->
  exists e, expose tb s t flux w d = Some e /\ sensor_photons_absorbed tb s t e w d = Some flux.
Proof. exact expose_inverse. Qed.
Print Assumptions C49_inverse_partial.

(** The default thickness of the implant layer is zero: every exposure is NaN. *)
Theorem C49_default_refuted : exists tb s m w d, sn_material s = Silicon m /\ si_implant m = 0 /\
  0 < w /\ 0 < Re d /\ 0 < Im (si_n m w * d)%C /\ 0 <= si_eta0 m <= 1 /\
  (exists q, quantum_yield_ideal tb w (si_temperature m) = Some q /\ 0 < q) /\
  forall t flux, expose tb s t flux w d = None.
Proof.
  exists table_a, (sensor_si 0), (silicon_a 0), 1, (RtoC 1). split; [reflexivity|]. split; [reflexivity|].
  split; [lra|]. split; [cbn; lra|]. split; [cbn [silicon_a si_n]; rewrite n_a_im; apply n_a_pos|]. split; [cbn; lra|].
  split; [exists 2; split; [apply yield_a | lra]|].
  intros t flux. apply (no_implant _ _ (silicon_a 0)); reflexivity.
Qed.
Print Assumptions C49_default_refuted.

Example C49_nonvacuous : working table_a (sn_material (sensor_si 1)) 1 1 /\ sn_exposure (sensor_si 1) <> 0 /\
  exists e, expose table_a (sensor_si 1) None 3 1 1 = Some e /\ e = 2 * (1 - exp (-1)) * 15.
Proof.
  split; [exact working_a|]. split; [cbn; lra|]. eexists. split.
  - unfold expose. cbn [sn_material sensor_si material_signal silicon_a si_n si_implant si_eta0 si_temperature sn_exposure]. unfold signal_expected.
    rewrite snell_a. cbn [obind]. rewrite absorption_a. cbn [obind]. rewrite yield_a. cbn [obind]. rewrite cce_value by lra. reflexivity.
  - unfold cce, phi. replace (- (1 * 1)) with (-1) by ring. field.
Qed.

(** ** C50 *)

Theorem C50_quadrature : forall tb s e w d u, material_uncertainty tb (sn_material s) e w d = Some u ->
  exists t, sensor_uncertainty tb s e w d = Some t /\ t ^ 2 = u ^ 2 + (sn_read_noise s) ^ 2 /\
    0 <= u <= t /\ Rabs (sn_read_noise s) <= t.
Proof. exact uncertainty_bounds. Qed.
Print Assumptions C50_quadrature.

Theorem C50_zero : forall tb s w d t, sensor_uncertainty tb s 0 w d = Some t -> t = Rabs (sn_read_noise s).
Proof. exact uncertainty_zero. Qed.
Print Assumptions C50_zero.

Theorem C50_monotone : forall tb s e e' w d t t', 0 <= e <= e' ->
  sensor_uncertainty tb s e w d = Some t -> sensor_uncertainty tb s e' w d = Some t' -> t <= t'.
Proof. exact uncertainty_monotone. Qed.
Print Assumptions C50_monotone.

(** The variance-to-mean ratio is not negative, so both are numbers. *)
Theorem C50_defined : forall tb s e w d, 0 <= e -> working tb (sn_material s) w d ->
  (sn_material s <> Ideal -> exists F, fano_factor tb w 300 = Some F /\ 0 <= F) ->
  exists u t, material_uncertainty tb (sn_material s) e w d = Some u /\ sensor_uncertainty tb s e w d = Some t.
Proof. exact uncertainty_defined. Qed.
Print Assumptions C50_defined.

Example C50_nonvacuous : working table_a (sn_material (sensor_si 1)) 1 1 /\ (exists F, fano_factor table_a 1 300 = Some F /\ 0 <= F) /\
  sensor_uncertainty table_a sensor_a 9 1 1 = Some 5.
Proof.
  split; [exact working_a|]. split; [exists 0; split; [apply fano_300 | lra]|].
  unfold sensor_uncertainty. cbn [sn_material sensor_a material_uncertainty sn_read_noise].
  replace 9 with (3 * 3) by ring. rewrite osqrt_sq by lra. cbn [obind]. replace (3 * 3 + 4 * 4) with (5 * 5) by ring. apply osqrt_sq. lra.
Qed.

(** ** C51 *)

(** Missing for the full claim: a sensor without an implant layer. *)
Theorem C51_mean_partial : forall a W eta0, 0 < a -> 0 < W ->
  exists c, charge_collection_efficiency a W eta0 = Some c /\ is_depth_mean a (differential_efficiency eta0 W) c.
Proof.
  intros a W eta0 A P. exists (cce (a * W) eta0). split; [apply cce_value; nra | apply cce_depth_mean; assumption].
Qed.
Print Assumptions C51_mean_partial.

Theorem C51_range_partial : forall a W eta0, 0 < a -> 0 < W -> 0 <= eta0 <= 1 ->
  exists c, charge_collection_efficiency a W eta0 = Some c /\ eta0 <= c <= 1.
Proof. exact cce_range. Qed.
Print Assumptions C51_range_partial.

Theorem C51_decreasing_partial : forall a b W eta0 ca cb, 0 < a -> a < b -> 0 < W -> 0 <= eta0 <= 1 ->
  charge_collection_efficiency a W eta0 = Some ca -> charge_collection_efficiency b W eta0 = Some cb ->
  cb <= ca /\ (eta0 < 1 -> cb < ca).
Proof. exact cce_monotone. Qed.
Print Assumptions C51_decreasing_partial.

Theorem C51_thin_partial : forall a eta0, 0 < a -> 0 <= eta0 <= 1 -> forall eps, 0 < eps -> exists delta, 0 < delta /\
  forall W, 0 < W < delta -> exists c, charge_collection_efficiency a W eta0 = Some c /\ 1 - eps < c <= 1.
Proof. exact cce_thin. Qed.
Print Assumptions C51_thin_partial.

(** The default of [BackIlluminatedSiliconSensorMaterial]. *)
Theorem C51_refuted : exists a eta0, 0 < a /\ 0 <= eta0 <= 1 /\ charge_collection_efficiency a 0 eta0 = None.
Proof. exists 1, (1 / 2). split; [lra|]. split; [lra|]. apply cce_none. ring. Qed.
Print Assumptions C51_refuted.

Example C51_nonvacuous : charge_collection_efficiency 1 1 (1 / 2) = Some (1 - exp (-1) / 2).
Proof. rewrite cce_value by lra. f_equal. unfold cce, phi. replace (- (1 * 1)) with (-1) by ring. field. Qed.

(** ** C52 *)

(** Missing for the full claim: the Fano factor is the one at 300 K, not at the temperature
    given. *)
Theorem C52_total_variance_partial : forall tb w d n ns W eta0 T d' a q F c V pairs eff, snells_law_scalar d n ns = Some d' ->
  absorption_effective w ns d' = Some a -> 0 < a -> 0 < W -> 0 <= eta0 <= 1 ->
  quantum_yield_ideal tb w T = Some q -> 0 < q -> fano_factor tb w 300 = Some F ->
  is_depth_mean a (differential_efficiency eta0 W) c ->
  is_depth_mean a (fun z => (differential_efficiency eta0 W z - c) ^ 2) V ->
  is_dist (counts pairs) -> mean (counts pairs) = q -> variance (counts pairs) = F * q ->
  is_dist eff -> mean eff = c -> variance eff = V ->
  exists v, vmr_signal tb w d n ns W eta0 T true true true = Some v /\
    forall l, 0 < l -> is_compound_vmr l (thinned pairs eff) v.
Proof. exact vmr_total. Qed.
Print Assumptions C52_total_variance_partial.

Theorem C52_temperature_refuted : exists tb w d n ns W eta0 T d' a q F c V pairs eff v, snells_law_scalar d n ns = Some d' /\
  absorption_effective w ns d' = Some a /\ 0 < a /\ 0 < W /\ 0 <= eta0 <= 1 /\
  quantum_yield_ideal tb w T = Some q /\ 0 < q /\ fano_factor tb w T = Some F /\
  is_depth_mean a (differential_efficiency eta0 W) c /\
  is_depth_mean a (fun z => (differential_efficiency eta0 W z - c) ^ 2) V /\
  is_dist (counts pairs) /\ mean (counts pairs) = q /\ variance (counts pairs) = F * q /\
  is_dist eff /\ mean eff = c /\ variance eff = V /\
  vmr_signal tb w d n ns W eta0 T true true true = Some v /\
  forall l, 0 < l -> ~ is_compound_vmr l (thinned pairs eff) v.
Proof. exact wrong_temperature. Qed.
Print Assumptions C52_temperature_refuted.

Example C52_nonvacuous : exists c V eff, snells_law_scalar 1 n_a n_a = Some (RtoC 1) /\ absorption_effective 1 n_a 1 = Some 1 /\
  quantum_yield_ideal table_a 1 0 = Some 2 /\ fano_factor table_a 1 300 = Some 0 /\
  is_depth_mean 1 (differential_efficiency 0 1) c /\ is_depth_mean 1 (fun z => (differential_efficiency 0 1 z - c) ^ 2) V /\
  is_dist (counts pairs_b) /\ mean (counts pairs_b) = 2 /\ variance (counts pairs_b) = 0 * 2 /\
  is_dist eff /\ List.Forall (fun pv => 0 <= snd pv <= 1) eff /\ mean eff = c /\ variance eff = V.
Proof.
  destruct (efficiency_exists (1 * 1) 0 ltac:(lra) ltac:(lra)) as (eff & D & I & M & V). destruct pairs_b_dist as (PD & PM & PV).
  exists (cce (1 * 1) 0), (var_cce (1 * 1) 0), eff.
  split; [apply snell_a|]. split; [apply absorption_a|]. split; [apply yield_a|]. split; [apply fano_300|].
  split; [apply cce_depth_mean; lra|]. split; [apply variance_depth_mean; lra|]. tauto.
Qed.

(** ** C59 *)

Theorem C59_range : forall q c, 0 <= q -> 0 <= c <= 1 -> exists p, probability_measurement q c = Some p /\ 0 <= p <= 1.
Proof. exact measurement_range. Qed.
Print Assumptions C59_range.

Theorem C59_monotone : forall q q' c c' p p', 0 <= q <= q' -> 0 <= c <= c' -> c' <= 1 ->
  probability_measurement q c = Some p -> probability_measurement q' c' = Some p' -> p <= p'.
Proof. exact measurement_monotone. Qed.
Print Assumptions C59_monotone.

Theorem C59_one : forall c, 0 <= c <= 1 -> probability_measurement 1 c = Some c.
Proof. exact measurement_one. Qed.
Print Assumptions C59_one.

Theorem C59_above : forall q c p, 1 <= q -> 0 <= c <= 1 -> probability_measurement q c = Some p -> c <= p.
Proof. exact measurement_above. Qed.
Print Assumptions C59_above.

(** For a whole number of pairs it is the probability that at least one is collected. *)
Theorem C59_binomial : forall n c, 0 <= c <= 1 ->
  probability_measurement (INR n) c = Some (1 - expect (fun k => if Req_EM_T k 0 then 1 else 0) (binomial n c)).
Proof. exact measurement_integer. Qed.
Print Assumptions C59_binomial.

Example C59_nonvacuous : probability_measurement 2 (1 / 2) = Some (3 / 4) /\ probability_measurement 1 1 = Some 1.
Proof.
  split; [|apply measurement_one; lra]. rewrite (measurement_value 2 (1 / 2)) by lra. f_equal. unfold pw.
  destruct (Req_EM_T (1 - 1 / 2) 0); [lra|]. replace 2 with (INR 2) at 2 by (cbn; lra). rewrite Rpower_pow by lra. cbn. lra.
Qed.
