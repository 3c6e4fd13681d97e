(** optika/systems/_sequential.py:343-394 and 432-621: how one stop ray is solved for.

    One point of the border of each of the two stops, hence one ray.  The root finder
    [na.optimize.root_newton] (with its Jacobian, lines 586-606) is an argument. *)
From Coq Require Import Reals List Bool Arith.
From Verif Require Import Vec Num RayModel SurfaceModel SystemModel.
Import ListNotations.
Open Scope R_scope.
Open Scope opt_scope.

(** The unit tests of lines 461, 476, 548 and 550: a length, a dimensionless number, or
    anything else. *)
Inductive grid_unit := Length | Dimensionless | OtherUnit.

(** One point of [aperture.wire(...)], lines 436-448: the [z] component is dropped. *)
Record border := mkBorder { b_unit : grid_unit; b_x : R; b_y : R }.

(** A surface as the solver uses it: the function [surface.sag] ([__call__]) and whether the
    sag is a [NoSag] are added to the record of [SurfaceModel]. *)
Record solver_surface := mkSolver {
  ss_surface : surface;
  ss_sag : vec3 -> option R;
  ss_no_sag : bool;
}.

(** _sequential.py:352-360 *)
Definition powered (s : solver_surface) : bool :=
  mat_is_mirror (sf_material (ss_surface s)) || negb (ss_no_sag s)
  || match sf_rulings (ss_surface s) with Some _ => true | None => false end.

(** _sequential.py:474 and 477-481: the third component of a unit vector. *)
Definition unit_z (x y : R) : option R := osqrt (1 - (x * x + y * y)).

(** The function [zfunc]: lines 473-474 when the variable is the direction, lines 485-491
    when it is the position. *)
Definition zfunc (first : solver_surface) (on_position : bool) (x y : R) : option R :=
  if on_position then ss_sag first (V3 x y 0) else unit_z x y.

(** _sequential.py:373-376 and 619-621: the three components of the variable are overwritten. *)
Definition put_variable (z : R -> R -> option R) (on_position : bool) (x y : R) (r : ray) : ray :=
  let v := let* z := z x y in Some (V3 x y z) in
  if on_position then set_position v r else set_direction v r.

(** _sequential.py:378-394.  [rest] is [subsystem[1:]], [last] is [subsystem[~0]]; [target] is
    the component compared with the border of the last stop. *)
Definition ray_error (z : R -> R -> option R) (on_position : bool) (rest : list solver_surface)
    (last : solver_surface) (target_position : bool) (gl : border) (r : ray) (x y : R)
    : option (R * R) :=
  let r := put_variable z on_position x y r in
  let r := propagate_list surface_propagate (map ss_surface rest) r in
  let r := apply_inverse (sf_transformation (ss_surface last)) r in
  let* v := if target_position then r_position r else r_direction r in
  Some (vx v - b_x gl, vy v - b_y gl).

(** A transformation applied to a point: lines 511-512, 515-518. *)
Definition move_point (t : option rigid) (p : vec3) : vec3 :=
  match t with None => p | Some t => rigid_point t p end.
Definition move_point_inv (t : option rigid) (p : vec3) : vec3 :=
  match t with None => p | Some t => rigid_point (rigid_inv t) p end.

(** _sequential.py:503-518: where the first guess aims, in the coordinates of the first stop.
    [anchor is surface_last] compares places in the list here. *)
Definition aim_point (first last anchor : solver_surface) (anchor_is_last : bool) (gl : border)
    : option vec3 :=
  let* aim :=
    match anchor_is_last, b_unit gl with
    | true, Length =>
        let* z := ss_sag last (V3 (b_x gl) (b_y gl) 0) in
        Some (move_point (sf_transformation (ss_surface last)) (V3 (b_x gl) (b_y gl) z))
    | _, _ => Some (move_point (sf_transformation (ss_surface anchor)) vzero)
    end in
  Some (move_point_inv (sf_transformation (ss_surface first)) aim).

(** _sequential.py:520-533 *)
Definition seed_direction (aim position : vec3) : option vec3 :=
  let d := vsub aim position in
  let* q := odiv 1 (vlen d) in
  let d := vscale q d in
  if Req_EM_T (vz d) 0 then Some (V3 0 0 1) else Some (vscale (rsign (vz d)) d).

(** _sequential.py:534-543 *)
Definition seed_position (sag : vec3 -> option R) (aim d : vec3) : option vec3 :=
  let* t := odiv (vz aim) (vz d) in
  let x := vx aim - vx d * t in
  let y := vy aim - vy d * t in
  let* z := sag (V3 x y 0) in
  Some (V3 x y z).

(** _sequential.py:461-491 and 520-546: the ray before the root is searched, in the
    coordinates of the system.  [on_position] says that the position is the variable; the
    defaults of the other components are those of _ray_vectors.py:253-278. *)
Definition seeded_ray (w : R) (first last anchor : solver_surface) (anchor_is_last : bool)
    (on_position : bool) (gf gl : border) : ray :=
  let aim := aim_point first last anchor anchor_is_last gl in
  let p := let* z := ss_sag first (V3 (b_x gf) (b_y gf) 0) in Some (V3 (b_x gf) (b_y gf) z) in
  let d := let* z := unit_z (b_x gf) (b_y gf) in Some (V3 (b_x gf) (b_y gf) z) in
  let r :=
    if on_position
    then mkRay w (let* a := aim in let* d := d in seed_position (ss_sag first) a d) d (Some 1) 0 1 true
    else mkRay w p (let* a := aim in let* p := p in seed_direction a p) (Some 1) 0 1 true in
  apply_transformation (sf_transformation (ss_surface first)) r.

(** _sequential.py:559-566, with lengths in the unit of the aperture of the last stop;
    [scale] is the larger of the two extents of its border. *)
Definition tolerance (scale : R) : R := 1 / 10 ^ 9 * Rmax scale 1.

(** What na.optimize.root_newton is given and returns: the function, the guess (NaN allowed),
    [max_abs_error]; [None] is the ValueError of lines 607-617. *)
Definition root_finder := (R -> R -> option (R * R)) -> option (R * R) -> R -> option (R * R).

(** _sequential.py:461-494: the unit of the border of the first stop decides what varies. *)
Definition varies_position (gf : border) : option bool :=
  match b_unit gf with Length => Some false | Dimensionless => Some true | OtherUnit => None end.
(** _sequential.py:548-553 *)
Definition targets_position (gl : border) : option bool :=
  match b_unit gl with Length => Some true | Dimensionless => Some false | OtherUnit => None end.

(** _sequential.py:432-621 for one pair of border points: [None] when a ValueError is raised. *)
Definition solve_stop (root : root_finder) (w : R) (subsystem : list solver_surface)
    (gf gl : border) (scale : R) : option ray :=
  match subsystem with
  | [] => None
  | first :: rest =>
      let last := List.last rest first in
      let i := anchor_index powered subsystem in
      let anchor := nth i subsystem last in
      let anchor_is_last := Nat.eqb i (List.length subsystem - 1) in
      let* on_position := varies_position gf in
      let* target_position := targets_position gl in
      let r := seeded_ray w first last anchor anchor_is_last on_position gf gl in
      let variable := if on_position then r_position r else r_direction r in
      let z := zfunc first on_position in
      let* xy := root (ray_error z on_position rest last target_position gl r)
                   (let* v := variable in Some (vx v, vy v)) (tolerance scale) in
      Some (put_variable z on_position (fst xy) (snd xy) r)
  end.

(** [surfaces[index_first : index_last + 1]], _sequential.py:432 *)
Definition stop_subsystem {A} (l : list A) (first last : nat) : list A :=
  firstn (S last - first) (skipn first l).

(** _sequential.py:432-450 and 461-621, the body of the loop over the stops: [gf i] and [gl i]
    are the points of the border of surface [i] that are used when it is the first or the last
    stop, [scale i] the extent of its border. *)
Definition stop_solver (root : root_finder) (w : R) (surfaces : list solver_surface)
    (gf gl : nat -> border) (scale : nat -> R) (first last : nat) (pupil_first : bool) : option ray :=
  solve_stop root w (stop_subsystem surfaces first last) (gf first) (gl last) (scale last).

(** _sequential.py:625-680 for one ray, with [_calc_rayfunction_stops_only] called at lines
    642-648.  [start] is the empty result with which the loop begins. *)
Definition reported_stop_ray (root : root_finder) (w : R) (sys : system) (surfaces : list solver_surface)
    (gf gl : nat -> border) (scale : nat -> R) (steps : nat) (start : ray) : option ray :=
  let* p := index_pupil_stop sys in
  let* f := index_field_stop sys in
  match stops_only (stop_solver root w surfaces gf gl scale) sys steps start with
  | Done r => Some (stop_ray sys (Nat.min p f) r)
  | _ => None
  end.
