(** C11, C65: infinite radius, and floating point. *)
From Coq Require Import Reals Lra Floats.SpecFloat.
From Verif Require Import Vec Num ExtNum SagModel SagInfModel SagInfProofs
  SagFloatModel SagFloatSpec SagFloatProofs.
Open Scope R_scope.

(** C11.  The sag of every class of infinite radius is zero. *)
Theorem C11_sag : forall neg k x y, flat_z x y = Some 0 /\
  e_sphere_z (Inf neg) (Fin x) (Fin y) = Fin 0 /\
  e_conic_z (Inf neg) (Fin (1 + k)) (Fin x) (Fin y) = Fin 0 /\
  e_cylinder_z (Inf neg) (Fin x) (Fin y) = Fin 0.
Proof. exact all_z_inf. Qed.
Print Assumptions C11_sag.

(** C11.  The normal is that of the plane. *)
Theorem C11_normal : forall neg k p n, flat_normal p = Some n ->
  e_sphere_normal (Inf neg) (fin p) = fin n /\
  e_conic_normal (Inf neg) (Fin (1 + k)) (fin p) = fin n /\
  e_cylinder_normal (Inf neg) (fin p) = fin n.
Proof. exact all_normal_inf. Qed.
Print Assumptions C11_normal.

(** C11.  The intercept of the conic and of the cylinder is that of the plane, in exact
    arithmetic.  Missing: the sphere, and rounding. *)
Theorem C11_intercept_partial : forall neg k o u, vz u <> 0 ->
  exists q, flat_intercept o u = Some q /\
    e_conic_intercept (Inf neg) (Fin (1 + k)) (fin o) (fin u) = fin q /\
    e_cylinder_intercept (Inf neg) (fin o) (fin u) = fin q.
Proof. exact all_intercept_inf. Qed.
Print Assumptions C11_intercept_partial.

(** C11 is false: SphericalSag with its default radius gives NaN for every ray. *)
Theorem C11_sphere_refuted : exists o u q, flat_intercept o u = Some q /\
  forall neg o' u', e_sphere_intercept (Inf neg) (fin o') (fin u') = EV NaN NaN NaN /\
    e_sphere_intercept (Inf neg) (fin o) (fin u) <> fin q.
Proof. exact sphere_inf_nan. Qed.
Print Assumptions C11_sphere_refuted.

(** C11 is false: in binary64 arithmetic ConicSag with its default radius loses rays that
    are not parallel to the plane. *)
Theorem C11_conic_float_refuted : exists o u, vz (exact_vec u) <> 0 /\
  fz (f_conic_intercept (S754_infinity false) (fnat 0) o u) = S754_infinity false.
Proof. exact conic_float_flat_lost. Qed.
Print Assumptions C11_conic_float_refuted.

(** C11.  With a finite radius this model of the sphere is the one of [SagModel]. *)
Theorem C11_model_finite : forall r o u, e_sphere_intercept (Fin r) (fin o) (fin u) =
  match sphere_intercept r o u with Some q => fin q | None => EV NaN NaN NaN end.
Proof. exact e_sphere_intercept_fin. Qed.
Print Assumptions C11_model_finite.

Example C11_nonvacuous : vz (V3 (4/5) 0 (3/5)) <> 0 /\
  flat_intercept (V3 0 0 (-3)) (V3 (4/5) 0 (3/5)) = Some (V3 4 0 0).
Proof. exact ex_flat. Qed.

(** C65 is false in binary64 arithmetic: the ray along the axis of a sphere of radius 100
    is lost, although in exact arithmetic the code finds the vertex. *)
Theorem C65_float_refuted : exists r k o u,
  exact_vec o = V3 0 0 (-1) /\ exact_vec u = V3 0 0 1 /\
  conic_intercept (exact r) (exact k) (exact_vec o) (exact_vec u) = Some (V3 0 0 0) /\
  fz (f_conic_intercept r k o u) = S754_infinity false.
Proof. exact conic_float_lost. Qed.
Print Assumptions C65_float_refuted.
