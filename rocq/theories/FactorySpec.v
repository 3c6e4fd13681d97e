(** Vocabulary for fitted and ready-made sensors. *)
From Coq Require Import Reals List.
From Coquelicot Require Import Coquelicot.
From Verif Require Import Num QuantumModel ChemicalModel FactoryModel.
Import ListNotations.
Open Scope R_scope.

(** The root of the mean squared difference between measured efficiencies and those which the sensor
    reports for light that arrives perpendicularly from vacuum. *)
Definition is_residual (m : sensor) (measured : list (R * R)) (r : R) : Prop :=
  exists reported, List.Forall2 (fun p e => material_eqe (sm_detector m) (fst p) None (RtoC 1) None = Some e) measured reported /\
    measured <> [] /\ 0 <= r /\
    r ^ 2 * INR (length measured) = rsum (map (fun pe => (snd (fst pe) - snd pe) ^ 2) (combine measured reported)).

(** What a sensor can be made of: no negative lengths, and a fraction at the back surface. *)
Definition physical (q : detector) : Prop :=
  0 <= dt_oxide q /\ 0 <= dt_implant q /\ 0 <= dt_rough_oxide q /\ 0 <= dt_rough_substrate q /\ 0 <= dt_eta0 q <= 1.

(** The sensor with these four parameters on a substrate of thickness [h]. *)
Definition with_parameters (h : R) (d : depletion_model) (T : R) (x : parameters) : sensor :=
  let '(oxide, implant, roughness, eta0) := x in
  mkSensorMaterial (mkDetector oxide implant h eta0 (chemical_index oxide_table) (chemical_index silicon_table) 0 (roughness * nanometer) T) (Some d).
Definition within (x : parameters) : Prop :=
  let '(oxide, implant, roughness, eta0) := x in 0 <= oxide /\ 0 <= implant /\ 0 <= roughness /\ 0 <= eta0 <= 1.

(** A minimiser which, for a function that gives the residuals of these sensors, keeps to the bounds and
    finds a least value. *)
Definition finds_best (minimize : (parameters -> option R) -> parameters -> parameters)
    (h : R) (d : depletion_model) (T : R) (measured : list (R * R)) : Prop :=
  forall f guess, (forall x r, f x = Some r <-> is_residual (with_parameters h d T x) measured r) ->
  within (minimize f guess) /\
  forall y r, within y -> is_residual (with_parameters h d T y) measured r ->
    exists s, is_residual (with_parameters h d T (minimize f guess)) measured s /\ s <= r.

(** The sensors among which the fit chooses: this substrate, the optical constants of the package, a smooth oxide. *)
Definition comparable (h : R) (m : sensor) : Prop :=
  let q := sm_detector m in
  dt_substrate q = h /\ dt_n_oxide q = chemical_index oxide_table /\ dt_n_substrate q = chemical_index silicon_table /\
  dt_rough_oxide q = 0 /\ physical q.

(** Two sensors in which all but temperature and depletion are equal. *)
Definition same_but_temperature (a b : sensor) : Prop :=
  sm_depletion a = sm_depletion b /\
  let p := sm_detector a in let q := sm_detector b in
  dt_oxide p = dt_oxide q /\ dt_implant p = dt_implant q /\ dt_substrate p = dt_substrate q /\ dt_eta0 p = dt_eta0 q /\
  dt_n_oxide p = dt_n_oxide q /\ dt_n_substrate p = dt_n_substrate q /\
  dt_rough_oxide p = dt_rough_oxide q /\ dt_rough_substrate p = dt_rough_substrate q.

(** [e] does not change the object at this address. *)
Definition leaves (address : nat) (e : event) : Prop :=
  match e with Change a _ => a <> address | _ => True end.
