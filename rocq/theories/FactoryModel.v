(** optika/sensors/materials/_materials.py, the class [BackIlluminatedSiliconSensorMaterial] with its
    defaults and its fit, and the ready-made sensors, which are kept in a cache on disk. *)
From Coq Require Import Reals List Bool String.
From Coquelicot Require Import Coquelicot.
From Verif Require Import Num RamanathanModel SensorModel QuantumModel DiffusionModel TableModel ChemicalModel.
Import ListNotations.
Open Scope R_scope.
Open Scope opt_scope.

(** optika/sensors/materials/depletion/_depletion.py:36-58: the attributes of a depletion model that are
    used below. *)
Record depletion_model := mkDepletion { dm_thickness : R; dm_substrate : R; dm_pixel : R }.

(** _materials.py:2246-2278: the attributes of a sensor material.  Without a depletion model the
    attribute is [None]. *)
Record sensor := mkSensorMaterial { sm_detector : detector; sm_depletion : option depletion_model }.

(** The result of a method: a number (NaN is [None]) or the exception that is raised when an
    attribute of [None] is used. *)
Inductive outcome (A : Type) := Returns (x : A) | AttributeError.
Arguments Returns {A}.
Arguments AttributeError {A}.

(** The defaults of the class, lines 2255-2276; the default of the temperature is 300 K (1654).  *)
Definition default_sensor (substrate : R) : sensor :=
  mkSensorMaterial (shipped_detector 0 0 substrate 0 0 0 300) None.

(** Lines 1788, 2084 and 2131: [self.depletion.thickness], an argument of each of the calls. *)
Definition with_depletion {A} (m : sensor) (f : R -> A) : outcome A :=
  match sm_depletion m with Some d => Returns (f (dm_thickness d)) | None => AttributeError end.

(** Lines 1772-1789 *)
Definition sensor_width (m : sensor) (wavelength : R) : outcome (option R) :=
  with_depletion m (fun depletion => width_charge_diffusion (dt_substrate (sm_detector m)) depletion wavelength).

(** Lines 2093-2139 with [noise=False]: the depth of the depletion region is passed to [signal], which
    does not use it for the expected value (lines 1196-1207). *)
Definition sensor_signal (tb : pair_table) (m : sensor) (photons wavelength : R) (direction : C) : outcome (option R) :=
  let q := sm_detector m in
  with_depletion m (fun _ =>
    material_signal tb (Silicon (mkSilicon (dt_n_substrate q) (dt_implant q) (dt_eta0 q) (dt_temperature q)))
      photons wavelength direction).

(** ** The fit *)

(** Thickness of oxide and implant, roughness of the substrate, efficiency at the back surface. *)
Definition parameters : Type := R * R * R * R.
(** Lines 2333-2345, in Angstrom, Angstrom, nanometer and as a fraction. *)
Definition fit_guess : parameters := (50, 2317, 5, 0.21).
(** The unit of the roughness, one nanometer, in Angstrom. *)
Definition nanometer : R := 10.

(** Lines 2283-2377.  [minimize] is scipy.optimize.minimize: a function of the objective and of the
    guess; the bounds are those of lines 2346-2351.  The objective does not get the temperature. *)
Definition fit_eqe (minimize : (parameters -> option R) -> parameters -> parameters)
    (thickness_substrate : R) (depletion : depletion_model) (measured : list (R * R)) (temperature : R) : sensor :=
  let n_oxide := chemical_index oxide_table in
  let n_substrate := chemical_index silicon_table in
  let objective (x : parameters) :=
    let '(oxide, implant, roughness, eta0) := x in
    eqe_rms_difference thickness_substrate n_oxide n_substrate 300 measured oxide implant (roughness * nanometer) eta0 in
  let '(oxide, implant, roughness, eta0) := minimize objective fit_guess in
  mkSensorMaterial
    (mkDetector oxide implant thickness_substrate eta0 n_oxide n_substrate 0 (roughness * nanometer) temperature)
    (Some depletion).

(** ** Ready-made sensors *)

(** optika/_caching.py:8-11 and joblib.Memory.cache: for a function without arguments the cache on disk
    has at most one entry, the text of the function and the stored result.  The entry is used
    if the text is the same.  The result is read from the disk in either case ([mmap_mode] is
    not [None]), so that every call makes a new object: objects have addresses in a heap. *)
Record world := mkWorld { w_disk : option (string * sensor); w_heap : list sensor }.

Definition allocate (m : sensor) (w : world) : nat * world :=
  (List.length (w_heap w), mkWorld (w_disk w) (w_heap w ++ [m])).
(** [program]: the text of the function, and what it computes with everything it calls and reads. *)
Record program := mkProgram { p_text : string; p_result : sensor }.
Definition cached_call (p : program) (w : world) : nat * world :=
  match w_disk w with
  | Some (text, m) =>
      if String.eqb text (p_text p) then allocate m w
      else allocate (p_result p) (mkWorld (Some (p_text p, p_result p)) (w_heap w))
  | None => allocate (p_result p) (mkWorld (Some (p_text p, p_result p)) (w_heap w))
  end.

(** Assignment of an object, of which the assignment of an attribute is a case. *)
Fixpoint update {A} (n : nat) (f : A -> A) (l : list A) : list A :=
  match l, n with
  | [], _ => []
  | x :: l, O => f x :: l
  | x :: l, S n => x :: update n f l
  end.
Definition assign (address : nat) (f : sensor -> sensor) (w : world) : world :=
  mkWorld (w_disk w) (update address f (w_heap w)).
Definition set_temperature (temperature : R) (m : sensor) : sensor :=
  let q := sm_detector m in
  mkSensorMaterial (mkDetector (dt_oxide q) (dt_implant q) (dt_substrate q) (dt_eta0 q) (dt_n_oxide q) (dt_n_substrate q)
    (dt_rough_oxide q) (dt_rough_substrate q) temperature) (sm_depletion m).

(** _e2v_ccd97.py:219-221, _e2v_ccd203.py:170-172, _tektronix_tk512cb.py:183-185 *)
Definition factory (p : program) (temperature : R) (w : world) : nat * world :=
  let (result, w) := cached_call p w in
  (result, assign result (set_temperature temperature) w).

(** What can happen between two calls: other calls, changes of objects, removal of the cache. *)
Inductive event := Make (temperature : R) | Change (address : nat) (f : sensor -> sensor) | Clear.
Definition happens (p : program) (w : world) (e : event) : world :=
  match e with
  | Make temperature => snd (factory p temperature w)
  | Change address f => assign address f w
  | Clear => mkWorld None (w_heap w)
  end.

(** _e2v_ccd97.py:45-49, _e2v_ccd203.py:45-49, _tektronix_tk512cb.py:59-63: the bodies of the cached functions, with the
    substrate in Angstrom and [text] the text of the function; a depletion model and the measurements
    are the results of other functions. *)
Definition ready_made (text : string) (minimize : (parameters -> option R) -> parameters -> parameters)
    (substrate : R) (depletion : depletion_model) (measured : list (R * R)) : program :=
  mkProgram text (fit_eqe minimize substrate depletion measured 300).
Definition e2v_ccd97 minimize depletion measured := ready_made "_e2v_ccd97" minimize 140000 depletion measured.
Definition e2v_ccd203 minimize depletion measured := ready_made "_e2v_ccd203" minimize 160000 depletion measured.
Definition tektronix_tk512cb minimize depletion measured := ready_made "_tektronix_tk512cb" minimize 70000 depletion measured.
Definition makers := [e2v_ccd97; e2v_ccd203; tektronix_tk512cb].
