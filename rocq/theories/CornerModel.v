(** optika/systems/_sequential.py:680-746: the corners of the field of view and of the entrance
    pupil, and the cached property [rayfunction_stops] from which they are read. *)
From Coq Require Import Reals List Bool.
From Verif Require Import Vec Num RayModel SystemModel.
Import ListNotations.
Open Scope R_scope.
Open Scope opt_scope.

(** Lines 704-708, 716-720, 728-733, 741-746: angles or positions. *)
Definition stop_coordinates (sys : system) (field : bool) (stops : list ray) : option (list (R * R)) :=
  if Bool.eqb field (sys_at_infinity sys) then all_some (map ray_angles stops) else all_some (map ray_xy stops).

(** [field_min], [field_max], [pupil_min], [pupil_max], lines 698-746; [min] and [max] along the
    two axes of the stops. *)
Definition corner (sys : system) (field largest : bool) (stops : list ray) : option (R * R) :=
  let* l := stop_coordinates sys field stops in
  let extreme := if largest then list_max else list_min in
  let* x := extreme (map fst l) in
  let* y := extreme (map snd l) in
  Some (x, y).

(** A system object as far as the corners go: one wavelength of [grid_input], and the value kept by
    [functools.cached_property] (lines 683-696).  [calc] is [_calc_rayfunction_stops]. *)
Record stop_state := mkStopState { ss_wavelength : R; ss_cached : option (list ray) }.
Definition rayfunction_stops (calc : R -> list ray) (s : stop_state) : stop_state * list ray :=
  match ss_cached s with
  | Some l => (s, l)
  | None => let l := calc (ss_wavelength s) in (mkStopState (ss_wavelength s) (Some l), l)
  end.
Definition ask_corner (calc : R -> list ray) (sys : system) (field largest : bool) (s : stop_state)
    : stop_state * option (R * R) :=
  let (s, l) := rayfunction_stops calc s in (s, corner sys field largest l).

(** What a program can do. *)
Inductive stop_action :=
| AskCorner (field largest : bool)
| SetWavelength (w : R)     (* system.grid_input = ... *)
| DelStops.                 (* del system.rayfunction_stops *)
Definition stop_step (calc : R -> list ray) (sys : system) (s : stop_state) (a : stop_action) : stop_state :=
  match a with
  | AskCorner f m => fst (ask_corner calc sys f m s)
  | SetWavelength w => mkStopState w (ss_cached s)
  | DelStops => mkStopState (ss_wavelength s) None
  end.
Definition stop_history (calc : R -> list ray) (sys : system) (w : R) (l : list stop_action) : stop_state :=
  fold_left (stop_step calc sys) l (mkStopState w None).
