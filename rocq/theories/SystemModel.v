(** optika/systems/_sequential.py: [AbstractSequentialSystem] and [SequentialSystem].

    Arrays are modelled one element at a time: a grid is one point, a bundle of stop rays
    is the list of the rays along the two stop axes.  The root finder of named_arrays
    ([na.optimize.root_newton]) is an argument of the functions that use it. *)
From Coq Require Import Reals List Bool Arith String.
From Verif Require Import Vec Num RayModel SurfaceModel AngleModel.
Import ListNotations.
Open Scope R_scope.
Open Scope opt_scope.

(** optika/surfaces.py:366-372, sensors/_sensors.py:475-479: a surface with its two flags. *)
Record stop_surface := mkStop {
  st_surface : surface;
  st_field : bool;     (* is_field_stop *)
  st_pupil : bool;     (* is_pupil_stop *)
}.

(** _sequential.py:2121-2123: [object] is never [None] after [__post_init__]. The attribute
    [at_infinity] is the outcome of the unit test in [object_is_at_infinity], lines 45-63. *)
Record system := mkSystem {
  sys_object : stop_surface;
  sys_surfaces : list stop_surface;
  sys_sensor : option stop_surface;
  sys_transformation : option rigid;
  sys_at_infinity : bool;
}.

(** _sequential.py:111 *)
Definition promote (s : stop_surface) : stop_surface := mkStop (st_surface s) true (st_pupil s).

(** _sequential.py:92-112 *)
Definition surfaces_all (sys : system) : list stop_surface :=
  let result := [sys_object sys] ++ sys_surfaces sys in
  let result := match sys_sensor sys with Some s => result ++ [s] | None => result end in
  if negb (existsb st_field result)
  then match result with s :: l => promote s :: l | [] => [] end
  else result.

(** [i for i, s in enumerate(l) if f(s)], _sequential.py:294-300 *)
Fixpoint indices_from {A} (f : A -> bool) (i : nat) (l : list A) : list nat :=
  match l with
  | [] => []
  | s :: l => if f s then i :: indices_from f (S i) l else indices_from f (S i) l
  end.
Definition indices_field_stop (sys : system) : list nat := indices_from st_field 0 (surfaces_all sys).
Definition indices_pupil_stop (sys : system) : list nat := indices_from st_pupil 0 (surfaces_all sys).

(** [indices[~0]] or ValueError ([None]), _sequential.py:302-327 *)
Fixpoint last_of {A} (l : list A) : option A :=
  match l with [] => None | [x] => Some x | _ :: l => last_of l end.
Definition index_field_stop (sys : system) : option nat := last_of (indices_field_stop sys).
Definition index_pupil_stop (sys : system) : option nat := last_of (indices_pupil_stop sys).

(** A while loop run with a number of steps: finished, stopped by an exception, or not
    finished. *)
Inductive outcome (A : Type) := Done (a : A) | Raised | Unfinished.
Arguments Done {A}. Arguments Raised {A}. Arguments Unfinished {A}.

(** _sequential.py:423-621: the loop over the stops.  [solve first last pupil_first] is the
    body after the lists have been updated, lines 432-450 and 454-621: it places the rays on
    surface [first] so that they meet surface [last], or raises.  Every iteration overwrites
    [result]. *)
Fixpoint stop_loop {X} (solve : nat -> nat -> bool -> option X) (surfaces : list stop_surface)
    (steps : nat) (pupil field : list nat) (result : X) : outcome X :=
  match pupil, field with
  | p :: pupil', f :: field' =>
      match steps with
      | O => Unfinished
      | S steps =>
          let first := Nat.min p f in
          let last := Nat.max p f in
          match nth_error surfaces first with
          | None => Raised
          | Some s =>
              match solve first last (st_pupil s) with
              | None => Raised
              | Some result =>
                  if st_pupil s
                  then stop_loop solve surfaces steps pupil' field result
                  else stop_loop solve surfaces steps pupil field' result
              end
          end
      end
  | _, _ => Done result
  end.

(** _sequential.py:396-623, with the initial empty [result] left to the caller. *)
Definition stops_only {X} (solve : nat -> nat -> bool -> option X) (sys : system) (steps : nat)
    (start : X) : outcome X :=
  match indices_pupil_stop sys, indices_field_stop sys with
  | [], _ => Raised
  | _, [] => Raised
  | pupil, field => stop_loop solve (surfaces_all sys) steps pupil field start
  end.

(** _sequential.py:343-361: index in the subsystem of the first powered surface.
    [powered] stands for the three tests of lines 353-360. *)
Fixpoint find_from {A} (f : A -> bool) (i : nat) (l : list A) : option nat :=
  match l with [] => None | s :: l => if f s then Some i else find_from f (S i) l end.
Definition anchor_index {A} (powered : A -> bool) (subsystem : list A) : nat :=
  match find_from powered 1 (tl subsystem) with
  | Some i => i
  | None => (List.length subsystem - 1)%nat
  end.

(** [surfaces[index_stop::-1]], _sequential.py:638-640 *)
Definition reversed_subsystem (l : list stop_surface) (index_stop : nat) : list stop_surface :=
  rev (firstn (S index_stop) l).

(** _sequential.py:656-662: rays leaving the object towards its back are turned round. *)
Definition turn_round (obj : surface) (r : ray) : ray :=
  let local := apply_inverse (sf_transformation obj) r in
  match (let* x := r_position local in let* d := r_direction local in
         let* u := sag_normal (sf_sag obj) x in Some (dot d u)) with
  | Some c => if Rlt_dec 0 c then set_direction (omap vopp (r_direction r)) r else r
  | None => r
  end.

(** _sequential.py:642-678 for one solved ray. *)
Definition stop_ray (sys : system) (index_stop : nat) (solved : ray) : ray :=
  let subsystem := reversed_subsystem (surfaces_all sys) index_stop in
  let r := propagate_list surface_propagate (map st_surface subsystem) solved in
  let r := turn_round (st_surface (List.last subsystem (sys_object sys))) r in
  apply_transformation (sys_transformation sys) r.

(** A point of [optika.vectors.ObjectVectorArray]. *)
Record grid_point := mkGrid { g_wavelength : R; g_field : R * R; g_pupil : R * R }.

(** [min] and [ptp] along the stop axes: NaN for a NaN anywhere, an error without elements. *)
Definition list_min (l : list R) : option R :=
  match l with [] => None | x :: l => Some (fold_left Rmin l x) end.
Definition list_max (l : list R) : option R :=
  match l with [] => None | x :: l => Some (fold_left Rmax l x) end.
Fixpoint all_some {A} (l : list (option A)) : option (list A) :=
  match l with
  | [] => Some []
  | x :: l => let* x := x in let* l := all_some l in Some (x :: l)
  end.

(** [ptp * (g + 1) / 2 + min], _sequential.py:780-787, one component *)
Definition denormalize (values : list R) (g : R) : option R :=
  let* mn := list_min values in
  let* mx := list_max values in
  Some ((mx - mn) * (g + 1) / 2 + mn).
Definition denormalize2 (values : list (R * R)) (g : R * R) : option (R * R) :=
  let* x := denormalize (map fst values) (fst g) in
  let* y := denormalize (map snd values) (snd g) in
  Some (x, y).

Definition ray_xy (r : ray) : option (R * R) := omap (fun p => (vx p, vy p)) (r_position r).
Definition ray_angles (r : ray) : option (R * R) := let* d := r_direction r in angles d.

(** _sequential.py:748-789; [stops] are the rays of [_calc_rayfunction_stops] at the
    wavelength of the grid point. *)
Definition denormalize_grid (sys : system) (stops : list ray) (g : grid_point)
    (normalized_field normalized_pupil : bool) : option grid_point :=
  if negb normalized_field && negb normalized_pupil then Some g
  else
    let* xy := all_some (map ray_xy stops) in
    let* an := all_some (map ray_angles stops) in
    let field := if sys_at_infinity sys then an else xy in
    let pupil := if sys_at_infinity sys then xy else an in
    let* f := if normalized_field then denormalize2 field (g_field g) else Some (g_field g) in
    let* p := if normalized_pupil then denormalize2 pupil (g_pupil g) else Some (g_pupil g) in
    Some (mkGrid (g_wavelength g) f p).

(** _sequential.py:791-828; the other fields of the ray are the defaults of
    rays/_ray_vectors.py:265-273. *)
Definition launch (sys : system) (g : grid_point) : ray :=
  let position := if sys_at_infinity sys then g_pupil g else g_field g in
  let angle := if sys_at_infinity sys then g_field g else g_pupil g in
  let r := mkRay (g_wavelength g) (Some (V3 (fst position) (snd position) 0))
                 (Some (direction (fst angle) (snd angle))) (Some 1) 0 1 true in
  apply_transformation (sf_transformation (st_surface (sys_object sys))) r.
Definition rayfunction_input (sys : system) (stops : R -> list ray) (g : grid_point)
    (normalized_field normalized_pupil : bool) : option (grid_point * ray) :=
  let* g := denormalize_grid sys (stops (g_wavelength g)) g normalized_field normalized_pupil in
  Some (g, launch sys g).

(** _sequential.py:905-925 with [accumulate=True]: the rays after each surface. *)
Definition trace (sys : system) (r : ray) : list ray :=
  accumulate_rays surface_propagate (Sequence (map st_surface (surfaces_all sys)))
    (apply_inverse (sys_transformation sys) r).

(** _sequential.py:980-986: the last ray in sensor coordinates; [sensor] is required. *)
Definition at_sensor (sys : system) (rays : list ray) : option ray :=
  let* s := sys_sensor sys in
  let* r := last_of rays in
  Some (apply_inverse (sf_transformation (st_surface s)) r).

(** ** Calls and caches *)

(** The arguments of [raytrace] and [rayfunction] that matter. *)
Record call_args := mkArgs {
  a_intensity : option R;
  a_wavelength : option R;
  a_field : option (R * R);
  a_pupil : option (R * R);
  a_normalized_field : bool;
  a_normalized_pupil : bool;
}.
Definition no_args : call_args := mkArgs None None None None true true.

(** A system object: its attribute [grid_input] and its two cached properties.  The other
    attributes, [c_system], do not change.  [c_stops] is [_calc_rayfunction_stops]. *)
Record config := mkConfig { c_system : system; c_stops : R -> list ray }.
Record state := mkState {
  s_grid : grid_point;                          (* grid_input *)
  s_input : option (grid_point * ray);          (* _rayfunction_input, lines 830-834 *)
  s_default : option (grid_point * ray);        (* rayfunction_default, lines 990-1000 *)
}.

Definition given {A} (x : option A) : bool := match x with Some _ => true | None => false end.
Definition default_to {A} (x : option A) (d : A) : A := match x with Some a => a | None => d end.

(** [raytrace], _sequential.py:836-925: the new state and the result, [None] for an
    exception or NaN.  [copy_shallow] shares [outputs], so that the assignment of line 907
    also reaches the cached rays. *)
Definition raytrace (c : config) (s : state) (a : call_args) : state * option (grid_point * list ray) :=
  if negb (given (a_wavelength a)) && negb (given (a_field a)) && negb (given (a_pupil a)) then
    let input := match s_input s with
                 | Some i => Some i
                 | None => rayfunction_input (c_system c) (c_stops c) (s_grid s) true true
                 end in
    match input with
    | None => (s, None)
    | Some (g, r) =>
        let r := match a_intensity a with Some i => set_intensity (Some i) r | None => r end in
        (mkState (s_grid s) (Some (g, r)) (s_default s), Some (g, trace (c_system c) r))
    end
  else
    let g := mkGrid (default_to (a_wavelength a) (g_wavelength (s_grid s)))
                    (default_to (a_field a) (g_field (s_grid s)))
                    (default_to (a_pupil a) (g_pupil (s_grid s))) in
    (s, let* i := rayfunction_input (c_system c) (c_stops c) g (a_normalized_field a) (a_normalized_pupil a) in
        let r := snd i in
        let r := match a_intensity a with Some i => set_intensity (Some i) r | None => r end in
        Some (fst i, trace (c_system c) r)).

(** [rayfunction], _sequential.py:927-988 *)
Definition rayfunction (c : config) (s : state) (a : call_args) : state * option (grid_point * ray) :=
  let (s, result) := raytrace c s a in
  (s, let* result := result in
      let* r := at_sensor (c_system c) (snd result) in
      Some (fst result, r)).

(** [rayfunction_default], _sequential.py:990-1000: a result is cached, an exception is not. *)
Definition rayfunction_default (c : config) (s : state) : state * option (grid_point * ray) :=
  match s_default s with
  | Some d => (s, Some d)
  | None =>
      let (s, result) := rayfunction c s no_args in
      match result with
      | Some d => (mkState (s_grid s) (s_input s) (Some d), Some d)
      | None => (s, None)
      end
  end.

(** What a program can do with a system. *)
Inductive action :=
| Raytrace (a : call_args)
| Rayfunction (a : call_args)
| Default
| SetGrid (g : grid_point)   (* system.grid_input = g *)
| DelDefault                 (* del system.rayfunction_default *)
| DelInput.                  (* del system._rayfunction_input *)

Definition perform (c : config) (s : state) (a : action) : state :=
  match a with
  | Raytrace a => fst (raytrace c s a)
  | Rayfunction a => fst (rayfunction c s a)
  | Default => fst (rayfunction_default c s)
  | SetGrid g => mkState g (s_input s) (s_default s)
  | DelDefault => mkState (s_grid s) (s_input s) None
  | DelInput => mkState (s_grid s) None (s_default s)
  end.
Definition history (c : config) (s : state) (l : list action) : state := fold_left (perform c) l s.
Definition fresh (g : grid_point) : state := mkState g None None.

(** ** Axes *)

(** The keys of a shape are strings without repetition.  [set(a) - set(b)] has no order; the
    order of [tuple(set)] is the argument [order] of the functions below. *)
Definition mem_axis (a : string) (l : list string) : bool := existsb (String.eqb a) l.
Definition minus_axes (a b : list string) : list string := filter (fun x => negb (mem_axis x b)) a.

(** _sequential.py:165-195; [None] is ValueError *)
Definition normalize_axis_wavelength (order : list string -> list string)
    (axis : option string) (shape_wavelength shape_system : list string) : option (list string) :=
  match axis with
  | Some a => Some [a]
  | None =>
      let a := order (minus_axes shape_wavelength shape_system) in
      if (1 <? List.length a)%nat then None else Some a
  end.

(** _sequential.py:197-226 *)
Definition normalize_axis_field (order : list string -> list string)
    (axis : option (list string)) (axis_wavelength shape_field shape_system : list string)
    : option (list string) :=
  match axis with
  | Some a => Some a
  | None =>
      let a := minus_axes shape_field shape_system in
      let a := order (minus_axes a axis_wavelength) in
      if negb (List.length a =? 2)%nat then None else Some a
  end.

(** _sequential.py:228-260 *)
Definition normalize_axis_pupil (order : list string -> list string)
    (axis : option (list string)) (axis_field axis_wavelength shape_pupil shape_system : list string)
    : option (list string) :=
  match axis with
  | Some a => Some a
  | None =>
      let a := minus_axes shape_pupil shape_system in
      let a := order (minus_axes (minus_axes a axis_wavelength) axis_field) in
      if negb (List.length a =? 2)%nat then None else Some a
  end.

(** ** Vignetting and effective area *)

Definition mean (l : list R) : option R := odiv (rsum l) (INR (List.length l)).
Definition bool_R (b : bool) : R := if b then 1 else 0.

(** [np.mean(a, where=w)] *)
Definition mean_where (l : list (R * bool)) : option R :=
  odiv (rsum (map (fun x : R * bool => if snd x then fst x else 0) l))
       (rsum (map (fun x : R * bool => bool_R (snd x)) l)).

(** _sequential.py:1351-1361 at one wavelength: for each field point the list over the pupil
    of [unvignetted]. *)
Definition illumination (unvignetted : list (list bool)) : option (list R) :=
  let where_ := map (existsb (fun b => b)) unvignetted in
  let* i := all_some (map (fun l => mean (map bool_R l)) unvignetted) in
  let* m := mean_where (combine i where_) in
  all_some (map (fun x => odiv x m) i).

(** [sum(where=w)]: elements outside [w] are not read, so a NaN there does not matter. *)
Fixpoint sum_where (l : list (option R * bool)) : option R :=
  match l with
  | [] => Some 0
  | (x, true) :: l => let* x := x in let* s := sum_where l in Some (x + s)
  | (_, false) :: l => sum_where l
  end.

(** _sequential.py:1487-1504 at one wavelength: for each field point the list over the pupil
    cells of the area of the cell and the ray through its centre. *)
Definition field_area (sys : system) (cells : list (R * ray)) : option R :=
  let* rays := all_some (map (fun x => at_sensor sys (trace sys (set_intensity (Some (fst x)) (snd x)))) cells) in
  sum_where (map (fun r => (r_intensity r, r_unvignetted r)) rays).
Definition area_effective (sys : system) (fields : list (list (R * ray))) : option R :=
  let* areas := all_some (map (field_area sys) fields) in
  mean areas.
