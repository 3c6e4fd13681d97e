(** C85: transmittance, absorbance and quantum efficiency of a sensor. *)
From Coq Require Import Reals List Bool Lra.
From Coquelicot Require Import Coquelicot.
From Verif Require Import Vec Num RayModel ComplexModel LayerModel LayerSpec RamanathanModel SensorModel SensorSpec QuantumModel QuantumSpec
  QuantumProofs QuantumMethodProofs QuantumCaseProofs SensorExamples QuantumExamples.
Import ListNotations.
Open Scope R_scope.

(** The light that enters the substrate of a smooth sensor and the light that the sensor reflects
    are together at most the incident light. *)
Theorem C85_transmittance_partial : forall q w n0 c0 s, smooth_sensor q w n0 c0 ->
  exists r t, fst (multilayer_efficiency w (RtoC c0) (RtoC n0) (ASequence [ALayer (oxide_layer q)]) (Some (silicon_layer q)) s) = Some r /\
    transmittance q w (RtoC c0) (RtoC n0) s = Some t /\ 0 <= r /\ 0 <= t /\ r + t <= 1.
Proof. exact transmittance_energy. Qed.
Print Assumptions C85_transmittance_partial.

(** The absorbance is the transmittance times the probability to be absorbed within the thickness
    of the substrate, at the attenuation of the refracted wave. *)
Theorem C85_absorbance_partial : forall q w n0 c0 s, smooth_sensor q w n0 c0 ->
  exists t a p, transmittance q w (RtoC c0) (RtoC n0) s = Some t /\ is_attenuation (dt_n_substrate q w) w n0 c0 a /\
    is_absorbed a (dt_substrate q) p /\ 0 <= p < 1 /\ absorbance BeerLambert q w (RtoC c0) (RtoC n0) s = Some (t * p) /\
    0 <= t * p <= t /\ t <= 1.
Proof. exact beer_lambert. Qed.
Print Assumptions C85_absorbance_partial.

(** The attenuation is determined by its description. *)
Theorem C85_attenuation_partial : forall n w n0 c0 a b, is_attenuation n w n0 c0 a -> is_attenuation n w n0 c0 b -> a = b.
Proof. exact attenuation_unique. Qed.
Print Assumptions C85_attenuation_partial.

(** A thicker substrate absorbs at least as much, ... *)
Theorem C85_thicker_partial : forall q w n0 c0 s h1 h2, smooth_sensor q w n0 c0 -> 0 <= h1 <= h2 ->
  exists a1 a2, absorbance BeerLambert (with_substrate q h1) w (RtoC c0) (RtoC n0) s = Some a1 /\
    absorbance BeerLambert (with_substrate q h2) w (RtoC c0) (RtoC n0) s = Some a2 /\ a1 <= a2.
Proof. exact thickness_grows. Qed.
Print Assumptions C85_thicker_partial.

(** ... and a thick one everything that is transmitted. *)
Theorem C85_thick_partial : forall q w n0 c0 s a t, smooth_sensor q w n0 c0 -> is_attenuation (dt_n_substrate q w) w n0 c0 a -> 0 < a ->
  transmittance q w (RtoC c0) (RtoC n0) s = Some t -> forall eps, 0 < eps -> exists H, 0 <= H /\ forall h, H <= h ->
  exists x, absorbance BeerLambert (with_substrate q h) w (RtoC c0) (RtoC n0) s = Some x /\ t - eps < x <= t.
Proof. exact thickness_limit. Qed.
Print Assumptions C85_thick_partial.

(** The effective quantum efficiency is the unpolarized absorbance times the mean over the depth
    of absorption of the differential efficiency; it is never more than the absorbance, and equal
    to it if the back surface loses nothing. *)
Theorem C85_eqe_partial : forall q w n0 c0 a, smooth_sensor q w n0 c0 -> is_attenuation (dt_n_substrate q w) w n0 c0 a -> 0 < a -> 0 < dt_implant q ->
  0 <= dt_eta0 q <= 1 ->
  exists xs xp c, absorbance BeerLambert q w (RtoC c0) (RtoC n0) true = Some xs /\ absorbance BeerLambert q w (RtoC c0) (RtoC n0) false = Some xp /\
    is_depth_mean a (differential_efficiency (dt_eta0 q) (dt_implant q)) c /\
    quantum_efficiency_effective q w (RtoC c0) (RtoC n0) = Some ((xs + xp) / 2 * c) /\
    dt_eta0 q <= c <= 1 /\ (dt_eta0 q = 1 -> c = 1) /\ 0 <= (xs + xp) / 2 * c <= (xs + xp) / 2.
Proof. exact eqe_value. Qed.
Print Assumptions C85_eqe_partial.

(** Behind an oxide that is not opaque, with a substrate that is: the exact method is the
    transmittance, and the default method agrees with it. *)
Theorem C85_methods_partial : forall q w n0 c0 s, smooth_sensor q w n0 c0 -> clear_oxide q w n0 c0 -> opaque_substrate q w n0 c0 ->
  exists t b, transmittance q w (RtoC c0) (RtoC n0) s = Some t /\ absorbance Exact q w (RtoC c0) (RtoC n0) s = Some t /\
    absorbance BeerLambert q w (RtoC c0) (RtoC n0) s = Some b /\ t * (1 - / 10 ^ 20) <= b <= t.
Proof. exact methods_agree. Qed.
Print Assumptions C85_methods_partial.

(** The sensor multiplies the intensity of a ray by a number between zero and one, which is at
    most the unpolarized transmittance. *)
Theorem C85_ray_partial : forall q r d normal, r_direction r = Some d -> r_attenuation r = 0 ->
  smooth_sensor q (r_wavelength r) (r_index r) (- dot d normal) ->
  exists e xs xp, sensor_efficiency q r normal = Some e /\ 0 <= e <= 1 /\
    transmittance q (r_wavelength r) (RtoC (- dot d normal)) (RtoC (r_index r)) true = Some xs /\
    transmittance q (r_wavelength r) (RtoC (- dot d normal)) (RtoC (r_index r)) false = Some xp /\ e <= (xs + xp) / 2.
Proof. exact ray_efficiency. Qed.
Print Assumptions C85_ray_partial.

(** The methods of the material take the cosine of incidence from the direction and the normal;
    by default the light arrives along the normal. *)
Theorem C85_arguments_partial : forall q w d u n c s, arrives d u c ->
  material_transmittance q w d n u s = transmittance q w (RtoC c) n s /\
  material_absorbance q w d n u s = absorbance BeerLambert q w (RtoC c) n s /\
  material_eqe q w d n u = quantum_efficiency_effective q w (RtoC c) n.
Proof. exact method_arguments. Qed.
Print Assumptions C85_arguments_partial.

Theorem C85_collection_partial : forall q w n0 c0 a d u, smooth_sensor q w n0 c0 -> is_attenuation (dt_n_substrate q w) w n0 c0 a ->
  0 < a -> 0 < dt_implant q -> 0 <= dt_eta0 q <= 1 -> arrives d u c0 ->
  exists c, material_cce q w d (RtoC n0) u = Some c /\
    is_depth_mean a (differential_efficiency (dt_eta0 q) (dt_implant q)) c /\ dt_eta0 q <= c <= 1.
Proof. exact method_cce. Qed.
Print Assumptions C85_collection_partial.

(** The quantum efficiency counts electrons: the effective one times the ideal yield. *)
Theorem C85_quantum_partial : forall q w n0 c0 a d u, smooth_sensor q w n0 c0 -> is_attenuation (dt_n_substrate q w) w n0 c0 a ->
  0 < a -> 0 < dt_implant q -> 0 <= dt_eta0 q <= 1 -> arrives d u c0 ->
  forall tb y, quantum_yield_ideal tb w (dt_temperature q) = Some y ->
  exists xs xp c, material_absorbance q w d (RtoC n0) u true = Some xs /\ material_absorbance q w d (RtoC n0) u false = Some xp /\
    is_depth_mean a (differential_efficiency (dt_eta0 q) (dt_implant q)) c /\
    quantum_efficiency tb q w d (RtoC n0) u = Some (y * ((xs + xp) / 2 * c)).
Proof. exact method_quantum. Qed.
Print Assumptions C85_quantum_partial.

(** In vacuum, the probability that an absorbed photon is noticed: that one of its electrons is
    collected. *)
Theorem C85_probability_partial : forall tb q w c0 a d u y, smooth_sensor q w 1 c0 -> is_attenuation (dt_n_substrate q w) w 1 c0 a -> 0 < a ->
  0 < dt_implant q -> 0 <= dt_eta0 q <= 1 -> arrives d u c0 -> quantum_yield_ideal tb w (dt_temperature q) = Some y -> 0 <= y ->
  exists c p, is_depth_mean a (differential_efficiency (dt_eta0 q) (dt_implant q)) c /\
    material_probability tb q w d u = Some p /\ 0 <= p <= 1 /\ (y = 1 -> p = c) /\ (1 <= y -> c <= p) /\
    (forall n, y = INR n -> p = 1 - (1 - c) ^ n).
Proof. exact method_probability. Qed.
Print Assumptions C85_probability_partial.

(** The function minimised by the fit is the root of the mean squared difference to the
    measured efficiencies; it is zero for an exact fit only. *)
Theorem C85_fit_partial : forall h no ns T measured oxide implant roughness eta0 x,
  eqe_rms_difference h no ns T measured oxide implant roughness eta0 = Some x ->
  exists es, List.Forall2 (fun m e => quantum_efficiency_effective (mkDetector oxide implant h eta0 no ns 0 roughness T) (fst m) (RtoC 1) (RtoC 1) = Some e) measured es /\
    0 <= x /\ x * x * INR (length measured) = rsum (map (fun me => (snd (fst me) - snd me) ^ 2) (combine measured es)) /\
    measured <> [] /\ (x = 0 <-> map snd measured = es).
Proof. exact fit_value. Qed.
Print Assumptions C85_fit_partial.

Theorem C85_fit_defined_partial : forall h no ns T measured oxide implant roughness eta0, measured <> [] ->
  (forall m, In m measured -> quantum_efficiency_effective (mkDetector oxide implant h eta0 no ns 0 roughness T) (fst m) (RtoC 1) (RtoC 1) <> None) ->
  exists x, eqe_rms_difference h no ns T measured oxide implant roughness eta0 = Some x.
Proof. exact fit_defined. Qed.
Print Assumptions C85_fit_defined_partial.

(** With a rough oxide, more light than arrives enters the substrate. *)
Theorem C85_rough_refuted : exists q w t, 0 < w /\ 0 < dt_rough_oxide q /\ dt_rough_substrate q = 0 /\ 0 <= dt_oxide q /\
  passive (dt_n_oxide q w) /\ passive (dt_n_substrate q w) /\
  (forall s, transmittance q w (RtoC 1) (RtoC 1) s = Some t) /\ 1 < t.
Proof. exact rough_gains. Qed.
Print Assumptions C85_rough_refuted.

(** Behind an opaque oxide, where no light is transmitted, the exact method finds that the
    substrate absorbs four fifths of the light. *)
Theorem C85_oxide_refuted : exists q w, smooth_sensor q w 1 1 /\ transmittance q w (RtoC 1) (RtoC 1) true = Some 0 /\
  absorbance BeerLambert q w (RtoC 1) (RtoC 1) true = Some 0 /\ absorbance Exact q w (RtoC 1) (RtoC 1) true = Some (4 / 5).
Proof. exact dark_disagrees. Qed.
Print Assumptions C85_oxide_refuted.

(** A sensor that meets all hypotheses. *)
Example C85_nonvacuous : smooth_sensor glassy_sensor (2 * PI) 1 1 /\ clear_oxide glassy_sensor (2 * PI) 1 1 /\ opaque_substrate glassy_sensor (2 * PI) 1 1 /\
  is_attenuation (dt_n_substrate glassy_sensor (2 * PI)) (2 * PI) 1 1 2 /\ 0 < dt_implant glassy_sensor /\ 0 <= dt_eta0 glassy_sensor <= 1 /\
  r_direction glassy_ray = Some (V3 0 0 1) /\ r_attenuation glassy_ray = 0 /\
  smooth_sensor glassy_sensor (r_wavelength glassy_ray) (r_index glassy_ray) (- dot (V3 0 0 1) (V3 0 0 (-1))).
Proof. exact glassy_meets. Qed.

(** The same sensor when cold, where a photon of wavelength one makes two electrons. *)
Example C85_nonvacuous_methods :
  smooth_sensor glassy_cold 1 1 1 /\ is_attenuation (dt_n_substrate glassy_cold 1) 1 1 1 (4 * PI) /\ 0 < dt_implant glassy_cold /\
  0 <= dt_eta0 glassy_cold <= 1 /\ arrives None None 1 /\ arrives (Some (V3 0 0 1)) (Some (V3 0 0 (-1))) 1 /\
  quantum_yield_ideal table_a 1 (dt_temperature glassy_cold) = Some (INR 2) /\
  quantum_efficiency_effective glassy_cold 1 (RtoC 1) (RtoC 1) <> None.
Proof. exact cold_meets. Qed.
