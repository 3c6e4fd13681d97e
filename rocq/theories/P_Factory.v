(** C107: sensor materials that are fitted, ready-made or made with the defaults of the class. *)
From Coq Require Import Reals Lra List String.
From Coquelicot Require Import Coquelicot.
From Verif Require Import Num Vec RamanathanModel PairTableModel SensorModel QuantumModel SensorSpec DiffusionModel DiffusionSpec TableModel ChemicalModel FactoryModel FactorySpec FactoryProofs FactoryExamples.
Import ListNotations.
Open Scope R_scope.

(** If the minimiser does what it is for, the fitted sensor is one that can exist, and no other sensor with this
    substrate agrees better with the measurements. *)
Theorem C107_best : forall minimize h d measured T, finds_best minimize h d T measured ->
  physical (sm_detector (fit_eqe minimize h d measured T)) /\
  forall m r, comparable h m -> is_residual m measured r ->
    exists s, is_residual (fit_eqe minimize h d measured T) measured s /\ s <= r /\ 0 < dt_implant (sm_detector (fit_eqe minimize h d measured T)).
Proof. exact fit_best. Qed.
Print Assumptions C107_best.

(** The charge of a fitted sensor spreads in the part of the substrate that is not in the depletion region: the square
    of the width is the mean over the depths of absorption. *)
Theorem C107_width : forall minimize h d measured T w, 0 < h -> 0 <= dm_thickness d <= h -> 0 < w -> w < 11199.6 ->
  exists a s, absorption silicon_table w = Some a /\ 0 < a /\
    sensor_width (fit_eqe minimize h d measured T) w = Returns (Some s) /\ 0 <= s /\
    is_truncated_mean a h (fun z => diffusion_width (h - dm_thickness d) z ^ 2) (s ^ 2).
Proof. exact fitted_width. Qed.
Print Assumptions C107_width.

Example C107_nonvacuous_width : 0 < 140000 /\ 0 <= dm_thickness thick <= 140000 /\ 0 < 304 /\ 304 < 11199.6.
Proof. cbn. lra. Qed.

(** The temperature of a sensor can be changed afterwards: it has no part in the fitted efficiency. *)
Theorem C107_temperature : forall T m, let m' := set_temperature T m in
  same_but_temperature m' m /\ dt_temperature (sm_detector m') = T /\
  (forall w direction n normal, material_eqe (sm_detector m') w direction n normal = material_eqe (sm_detector m) w direction n normal) /\
  (forall w direction n normal s, material_absorbance (sm_detector m') w direction n normal s = material_absorbance (sm_detector m) w direction n normal s) /\
  (forall w, sensor_width m' w = sensor_width m w) /\
  forall measured r, is_residual m' measured r <-> is_residual m measured r.
Proof.
  intros T m m'. destruct (temperature_same T m) as [S E]. destruct (same_eqe _ _ S) as (A & B & C).
  split; [exact S |]. split; [exact E |]. split; [exact A |]. split; [exact B |]. split; [exact C |]. split; intros H; exact H.
Qed.
Print Assumptions C107_temperature.

(** Whatever was called, changed and removed before, a ready-made sensor is a new object, it is what the function
    computes with the temperature that was asked for, all other objects stay as they are, and so does this one until it
    is changed itself.  The full claim does not assume that the program has been the same from the beginning. *)
Theorem C107_fresh_partial : forall p heap before T, let w := fold_left (happens p) before (mkWorld None heap) in
  let '(a, w') := factory p T w in
  nth_error (w_heap w) a = None /\ nth_error (w_heap w') a = Some (set_temperature T (p_result p)) /\
  (forall b m, nth_error (w_heap w) b = Some m -> nth_error (w_heap w') b = Some m) /\
  (forall later, List.Forall (leaves a) later -> nth_error (w_heap (fold_left (happens p) later w')) a = Some (set_temperature T (p_result p))).
Proof. exact factory_fresh. Qed.
Print Assumptions C107_fresh_partial.

(** A function whose text has changed is evaluated again, ... *)
Theorem C107_changed_partial : forall p text m heap T, text <> p_text p ->
  let '(a, w') := factory p T (mkWorld (Some (text, m)) heap) in nth_error (w_heap w') a = Some (set_temperature T (p_result p)).
Proof. exact factory_changed. Qed.
Print Assumptions C107_changed_partial.

(** ... but each of the ready-made sensors stays as it was if something that the function calls or reads has changed, as here the depletion model. *)
Theorem C107_stale_refuted : forall maker, In maker makers -> exists minimize measured T,
  let old := maker minimize thin measured in let new := maker minimize thick measured in
  let '(a, w) := factory new T (snd (factory old T (mkWorld None []))) in
  nth_error (w_heap w) a = Some (set_temperature T (p_result old)) /\ set_temperature T (p_result old) <> set_temperature T (p_result new).
Proof. exact stale_depletion. Qed.
Print Assumptions C107_stale_refuted.

(** The expected signal does not depend on the depletion region; but without a depletion model, which is the default, there
    is an exception instead of the signal. *)
Theorem C107_default_refuted : exists q photons w direction y, physical q /\ 0 < photons /\ 0 < w /\ 0 < y /\
  (forall d, sensor_signal shipped (mkSensorMaterial q (Some d)) photons w direction = Returns (Some y)) /\
  sensor_signal shipped (mkSensorMaterial q None) photons w direction = AttributeError.
Proof. exact default_fails. Qed.
Print Assumptions C107_default_refuted.

(** With all defaults but the substrate a sensor has no efficiency at any wavelength, as the implant has no thickness. *)
Theorem C107_implant_refuted : forall substrate, let m := default_sensor substrate in
  (forall tb photons w direction, sensor_signal tb m photons w direction = AttributeError) /\ (forall w, sensor_width m w = AttributeError) /\
  (forall w direction n normal, material_eqe (sm_detector m) w direction n normal = None).
Proof.
  intros substrate m. split; [intros tb; exact (proj1 (no_depletion tb m eq_refl)) |]. split; [exact (proj2 (no_depletion [] m eq_refl)) |].
  intros w direction n normal. apply no_implant. reflexivity.
Qed.
Print Assumptions C107_implant_refuted.

(** A minimiser that finds the parameters of the sensor with which the measurement was made. *)
Example C107_nonvacuous : exists e, finds_best (fun _ _ => known) 140000 thick 300 [(304, e)] /\
  is_residual (fit_eqe (fun _ _ => known) 140000 thick [(304, e)] 300) [(304, e)] 0.
Proof. exact known_best. Qed.

(** Two sensors of different temperature, one of which has been changed. *)
Example C107_nonvacuous_factory : exists a b, let p := e2v_ccd97 (fun _ _ => known) thick [(304, 0.5)] in
  let w := snd (factory p 300 (mkWorld None [])) in
  let w' := snd (factory p 200 (assign 0 (set_temperature 100) w)) in
  nth_error (w_heap w') 0 = Some a /\ nth_error (w_heap w') 1 = Some b /\ dt_temperature (sm_detector a) = 100 /\ dt_temperature (sm_detector b) = 200 /\
  dt_implant (sm_detector a) = 2317 /\ dt_substrate (sm_detector b) = 140000.
Proof. exact factory_example. Qed.
