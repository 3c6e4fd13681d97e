(** Specifications for sequential systems. *)
From Coq Require Import String Reals List Bool Arith Permutation.
From Verif Require Import Vec Num RayModel SurfaceModel AngleModel SequenceSpec SystemModel.
Import ListNotations.
Open Scope R_scope.

(** Object, surfaces and sensor as the user gave them. *)
Definition given_surfaces (sys : system) : list stop_surface :=
  sys_object sys :: sys_surfaces sys ++ match sys_sensor sys with Some s => [s] | None => [] end.

(** [i] is the largest index in [l] whose element has the flag. *)
Definition largest_flagged {A} (flag : A -> bool) (l : list A) (i : nat) : Prop :=
  (exists s, nth_error l i = Some s /\ flag s = true) /\
  forall j s, nth_error l j = Some s -> flag s = true -> (j <= i)%nat.

(** No surface is both a pupil stop and a field stop. *)
Definition separate_stops (l : list stop_surface) : Prop :=
  forall s, In s l -> st_pupil s = true -> st_field s = true -> False.

(** [i] is the first index after [k] whose element has the flag. *)
Definition first_flagged_after {A} (flag : A -> bool) (l : list A) (k i : nat) : Prop :=
  (k < i)%nat /\ (exists s, nth_error l i = Some s /\ flag s = true) /\
  forall j s, nth_error l j = Some s -> flag s = true -> (k < j)%nat -> (i <= j)%nat.

(** The least and the greatest of a list of numbers. *)
Definition is_least (l : list R) (m : R) : Prop := In m l /\ forall x, In x l -> m <= x.
Definition is_greatest (l : list R) (m : R) : Prop := In m l /\ forall x, In x l -> x <= m.

(** A call with an intensity but without wavelength, field or pupil. *)
Definition implicit_intensity (a : call_args) : Prop :=
  a_intensity a <> None /\ a_wavelength a = None /\ a_field a = None /\ a_pupil a = None.

(** A call that says which wavelength, field or pupil it wants. *)
Definition explicit_grid (a : call_args) : Prop :=
  a_wavelength a <> None \/ a_field a <> None \/ a_pupil a <> None.

(** Actions that neither set an intensity implicitly nor assign [grid_input]. *)
Definition harmless (a : action) : Prop :=
  match a with
  | Raytrace a | Rayfunction a => ~ implicit_intensity a
  | SetGrid _ => False
  | _ => True
  end.

(** The fraction of [true] in a list. *)
Definition fraction (l : list bool) : R :=
  INR (List.length (filter (fun b => b) l)) / INR (List.length l).

(** ** Launching, tracing, caching *)

(** The coordinate of an extreme value: [true] for the greatest, [false] for the least. *)
Definition sign_of (b : bool) : R := if b then 1 else -1.
Definition is_extreme (b : bool) (l : list R) (m : R) : Prop :=
  if b then is_greatest l m else is_least l m.

(** The first coordinates, second coordinates and angles of rays without NaN. *)
Definition positions_are (stops : list ray) (ps : list vec3) : Prop :=
  map r_position stops = map Some ps.
Definition angles_are (stops : list ray) (angle : list (R * R)) : Prop :=
  map (fun r => obind (r_direction r) AngleModel.angles) stops = map Some angle.

(** The same system somewhere else. *)
Definition with_transformation (t : option rigid) (sys : system) : system :=
  mkSystem (sys_object sys) (sys_surfaces sys) (sys_sensor sys) t (sys_at_infinity sys).

(** What [rayfunction_default] should return for the grid [g]. *)
Definition rayfunction_of (c : config) (g : grid_point) : option (grid_point * ray) :=
  obind (rayfunction_input (c_system c) (c_stops c) g true true) (fun i =>
  obind (at_sensor (c_system c) (trace (c_system c) (snd i))) (fun r => Some (fst i, r))).

(** Calls that name their grid. *)
Definition explicit_call (a : action) : Prop :=
  match a with Raytrace a | Rayfunction a => explicit_grid a | _ => False end.

(** Some aperture of the system rejects the ray. *)
Definition blocked (sys : system) (r : ray) : Prop :=
  exists i s r', nth_error (map st_surface (surfaces_all sys)) i = Some s /\
    nth_error (trace sys r) i = Some r' /\ SequenceSpec.passes s r' = false.

(** A plane without rulings that transmits without refraction or reflects. *)
Definition plain (s : surface) : Prop :=
  SequenceSpec.rigid_surface s /\ sf_rulings s = None /\
  (forall o u, vz u <> 0 -> sag_intercept (sf_sag s) o u = Some (vadd o (vscale (- vz o / vz u) u))) /\
  (forall o u, vz u = 0 -> sag_intercept (sf_sag s) o u = None) /\
  (forall x, sag_normal (sf_sag s) x = Some (V3 0 0 (-1))) /\
  (mat_is_mirror (sf_material s) = true /\ (forall r, mat_index (sf_material s) r = r_index r) \/
   mat_is_mirror (sf_material s) = false /\ (forall r, mat_index (sf_material s) r = 1)).

(** The point [q] is on the line through [p] along [d]. *)
Definition on_line (p d q : vec3) : Prop := exists t, q = vadd p (vscale t d).
