(** Properties of interface profiles: C37, C71, C72. *)
From Coq Require Import Reals Lra.
From Coquelicot Require Import Coquelicot.
From Verif Require Import Num ComplexModel ProfileModel ProfileSpec ProfileProofs ProfileWidthProofs.
Open Scope R_scope.

(** C37: every profile of positive width is a transition function at every depth. *)
Theorem C37_transition : forall p, 0 < width_of p ->
  exists f, (forall z, profile_call p z = Some (f z)) /\ transition f.
Proof. exact profile_transition. Qed.
Print Assumptions C37_transition.

Example C37_transition_nonvacuous : 0 < width_of (Exponential 2) /\
  profile_call (Exponential 2) (sqrt 2) = Some (1 - exp (-1) / 2).
Proof.
  split; [cbn; lra|]. assert (S := sqrt2_pos). assert (Q := sqrt2_sq).
  cbn. rewrite rsign_pos by exact S. rewrite odiv_some by lra. cbn.
  replace (- (1) * sqrt 2 * sqrt 2 / 2) with (-1); [f_equal; lra|].
  replace (- (1) * sqrt 2 * sqrt 2) with (- (sqrt 2 * sqrt 2)) by ring. rewrite Q. field.
Qed.

(** C37: the factor of every profile is the Fourier transform of the derivative of that profile. *)
Theorem C37_transform : forall p f s v, 0 < width_of p ->
  (forall z, profile_call p z = Some (f z)) -> profile_dft p s = Some v ->
  fourier_of_derivative f s v.
Proof. exact profile_fourier. Qed.
Print Assumptions C37_transform.

Example C37_transform_nonvacuous : 0 < width_of (Exponential 2) /\
  (exists f, forall z, profile_call (Exponential 2) z = Some (f z)) /\ profile_dft (Exponential 2) 1 = Some (1 / 3).
Proof.
  split; [cbn; lra|]. split.
  - exists (curve (Exponential 2)). intros z. apply call_curve. cbn; lra.
  - cbn [profile_dft]. rewrite odiv_some by lra. f_equal. field.
Qed.

(** C37: no factor exceeds one in magnitude, in reflection or in transmission. *)
Theorem C37_reflectivity_bound : forall p wavelength d n v,
  profile_reflectivity p wavelength d n = Some v -> Rabs v <= 1.
Proof. exact reflectivity_bound. Qed.
Print Assumptions C37_reflectivity_bound.

Theorem C37_transmissivity_bound : forall p wavelength d1 d2 n1 n2 v,
  profile_transmissivity p wavelength d1 d2 n1 n2 = Some v -> Rabs v <= 1.
Proof. exact transmissivity_bound. Qed.
Print Assumptions C37_transmissivity_bound.

Example C37_bound_nonvacuous :
  profile_reflectivity (Exponential 2) (4 * PI) (RtoC 1) (RtoC 1) = Some (1 / 3).
Proof.
  assert (P := PI_RGT_0). rewrite reflectivity_frequency by lra.
  replace (4 * PI * 1 * 1 / (4 * PI)) with 1 by (field; lra).
  cbn [profile_dft]. rewrite odiv_some by lra. f_equal. field.
Qed.

(** C37: the factor is even in the frequency, and defined at one frequency if at the other. *)
Theorem C37_even : forall p s, profile_dft p (- s) = profile_dft p s.
Proof. exact dft_even. Qed.
Print Assumptions C37_even.

(** C37, no width or grazing incidence: the factor is one, except for the linear profile. *)
Theorem C37_one_partial : forall p wavelength d n, wavelength <> 0 -> (forall w, p <> Linear w) ->
  width_of p = 0 \/ d = RtoC 0 -> profile_reflectivity p wavelength d n = Some 1.
Proof. exact reflectivity_one. Qed.
Print Assumptions C37_one_partial.

Example C37_one_nonvacuous : (2 : R) <> 0 /\ (forall w, Sinus 0 <> Linear w) /\ width_of (Sinus 0) = 0.
Proof. split; [lra|]. split; [discriminate|reflexivity]. Qed.

(** C37 fails: the factor of a linear profile is NaN at zero width, which is the default
    width, and at grazing incidence, where it should be one. *)
Theorem C37_one_refuted : forall w wavelength d n, wavelength <> 0 -> w = 0 \/ d = RtoC 0 ->
  profile_reflectivity (Linear w) wavelength d n = None.
Proof. exact reflectivity_linear_none. Qed.
Print Assumptions C37_one_refuted.

(** C37: the factor of a reflection is that of the passage into the reversed wave. *)
Theorem C37_reversed : forall p wavelength d n,
  profile_transmissivity p wavelength d (- d)%C n n = profile_reflectivity p wavelength d n.
Proof. exact transmissivity_reversed. Qed.
Print Assumptions C37_reversed.

(** C37: an interface between equal media lets everything through, except with a linear profile, ... *)
Theorem C37_equal_partial : forall p wavelength d n, wavelength <> 0 -> (forall w, p <> Linear w) ->
  profile_transmissivity p wavelength d d n n = Some 1.
Proof. exact transmissivity_one. Qed.
Print Assumptions C37_equal_partial.

(** ... of which the factor is NaN between equal media. *)
Theorem C37_equal_refuted : forall w wavelength d n, wavelength <> 0 ->
  profile_transmissivity (Linear w) wavelength d d n n = None.
Proof. exact transmissivity_linear_none. Qed.
Print Assumptions C37_equal_refuted.

Example C37_equal_nonvacuous : (2 : R) <> 0 /\ (forall w, Erf 3 <> Linear w).
Proof. split; [lra|discriminate]. Qed.

(** C37 fails: there is a wavelength at which the factor of a sinusoidal profile is NaN. *)
Theorem C37_sinus_refuted :
  exists wavelength, 0 < wavelength /\ profile_reflectivity (Sinus 1) wavelength (RtoC 1) (RtoC 1) = None.
Proof. exact reflectivity_sinus_none. Qed.
Print Assumptions C37_sinus_refuted.

(** C37: those are the only two ways for a factor to be NaN. *)
Theorem C37_defined_partial : forall p s, profile_dft p s = None ->
  (exists w, p = Linear w /\ (w = 0 \/ s = 0)) \/ (exists w, p = Sinus w /\ Rabs (sinus_a * w * s) = PI / 2).
Proof. exact dft_defined. Qed.
Print Assumptions C37_defined_partial.

Example C37_defined_nonvacuous : profile_dft (Linear 0) 1 = None.
Proof. apply dft_linear_zero. left; reflexivity. Qed.

(** C71 fails: the factor of the linear profile of one nanometre is not that of ten angstrom,
    which is the right one, at some frequency per angstrom. *)
Theorem C71_units_refuted : exists s,
  linear_dft_units 10 1 s 1 <> linear_dft_units 1 10 s 1 /\
  linear_dft_units 10 1 s 1 = profile_dft (Linear 10) s.
Proof. exact linear_units_differ. Qed.
Print Assumptions C71_units_refuted.

(** C71, units whose product is one: the factor is that of the lengths themselves. *)
Theorem C71_units_partial : forall w unit_w s unit_s, unit_w * unit_s = 1 ->
  linear_dft_units w unit_w s unit_s = profile_dft (Linear (w * unit_w)) (s * unit_s).
Proof. exact linear_units. Qed.
Print Assumptions C71_units_partial.

Example C71_nonvacuous : (10 : R) * (1 / 10) = 1.
Proof. lra. Qed.

(** C72, all but the sinusoidal profile: the width is the standard deviation of the
    derivative of the profile. *)
Theorem C72_width_partial : forall p f, 0 < width_of p -> (forall w, p <> Sinus w) ->
  (forall z, profile_call p z = Some (f z)) -> variance_of_derivative f (width_of p ^ 2).
Proof. exact profile_variance. Qed.
Print Assumptions C72_width_partial.

Example C72_width_nonvacuous : 0 < width_of (Linear 3) /\ (forall w, Linear 3 <> Sinus w) /\
  exists f, forall z, profile_call (Linear 3) z = Some (f z).
Proof.
  split; [cbn; lra|]. split; [discriminate|].
  exists (curve (Linear 3)). intros z. apply call_curve. cbn; lra.
Qed.

(** C72: the variance of a profile is unique, so the two statements around exclude each other. *)
Theorem C72_variance_unique : forall f v1 v2,
  variance_of_derivative f v1 -> variance_of_derivative f v2 -> v1 = v2.
Proof. exact variance_unique. Qed.
Print Assumptions C72_variance_unique.

(** C72 fails: the sinusoidal profile is narrower than its width says at every width... *)
Theorem C72_width_refuted : forall w f, 0 < w -> (forall z, profile_call (Sinus w) z = Some (f z)) ->
  variance_of_derivative f (w ^ 2 / (PI ^ 2 - 8)) /\ ~ variance_of_derivative f (w ^ 2).
Proof. exact sinus_variance_wrong. Qed.
Print Assumptions C72_width_refuted.

Example C72_refuted_nonvacuous : exists f, forall z, profile_call (Sinus 1) z = Some (f z).
Proof. exists (curve (Sinus 1)). intros z. apply call_curve. cbn; lra. Qed.

(** ...while the documented formula has that width... *)
Theorem C72_documented : forall w, 0 < w -> variance_of_derivative (documented_sinus w) (w ^ 2).
Proof. exact documented_variance. Qed.
Print Assumptions C72_documented.

(** ...and differs from the code. *)
Theorem C72_formula_refuted : exists z f,
  (forall z, profile_call (Sinus 1) z = Some (f z)) /\ f z = 1 /\ documented_sinus 1 z < 1.
Proof. exact sinus_documented_differs. Qed.
Print Assumptions C72_formula_refuted.
