(** Specifications for the stop rays. *)
From Coq Require Import Reals List Bool.
From Verif Require Import Vec Num RayModel SurfaceModel SequenceSpec SystemSpec SystemModel StopRayModel.
Import ListNotations.
Open Scope R_scope.

(** The position or the direction of a ray in the coordinates of a surface. *)
Definition position_on (s : solver_surface) (r : ray) : option vec3 :=
  omap (local_point (ss_surface s)) (r_position r).
Definition direction_on (s : solver_surface) (r : ray) : option vec3 :=
  omap (local_vector (ss_surface s)) (r_direction r).

(** The ray starts from the border point [g] of the stop [s]: where the border has a length,
    at that point of the surface and along a unit vector; where it is an angle, from some
    point of the surface and along that direction. *)
Definition starts_from (s : solver_surface) (g : border) (r : ray) : Prop :=
  match b_unit g with
  | Length =>
      (exists z, ss_sag s (V3 (b_x g) (b_y g) 0) = Some z /\
                 position_on s r = Some (V3 (b_x g) (b_y g) z)) /\
      exists d, r_direction r = Some d /\ is_unit d
  | Dimensionless =>
      (exists x y z, ss_sag s (V3 x y 0) = Some z /\ position_on s r = Some (V3 x y z)) /\
      exists z, 0 <= z /\ direction_on s r = Some (V3 (b_x g) (b_y g) z) /\ is_unit (V3 (b_x g) (b_y g) z)
  | OtherUnit => False
  end.

(** The ray, sent through [rest], arrives at the border point [g] of the stop [s] within [tol]. *)
Definition strikes (rest : list solver_surface) (s : solver_surface) (g : border) (tol : R) (r : ray) : Prop :=
  let out := propagate_list surface_propagate (map ss_surface rest) r in
  exists v,
    match b_unit g with
    | Length => position_on s out = Some v
    | Dimensionless => direction_on s out = Some v
    | OtherUnit => False
    end /\ Rabs (vx v - b_x g) <= tol /\ Rabs (vy v - b_y g) <= tol.

(** A root finder whose answers are roots within the tolerance. *)
Definition dependable (root : root_finder) : Prop :=
  forall f guess tol x y, root f guess tol = Some (x, y) ->
    exists ex ey, f x y = Some (ex, ey) /\ Rabs ex <= tol /\ Rabs ey <= tol.

(** The root finder that never takes a step: the guess, if it is a root. *)
Definition guess_only : root_finder := fun f guess tol =>
  match guess with
  | Some (x, y) =>
      match f x y with
      | Some (ex, ey) =>
          if Rle_dec (Rabs ex) tol then if Rle_dec (Rabs ey) tol then Some (x, y) else None else None
      | None => None
      end
  | None => None
  end.

(** The root finder that answers with its guess, root or not. *)
Definition keep_guess : root_finder := fun _ guess _ => guess.

(** A ray as the solver starts it: full intensity, in vacuum. *)
Definition fresh (w : R) (r : ray) : Prop :=
  r_wavelength r = w /\ r_intensity r = Some 1 /\ r_attenuation r = 0 /\ r_index r = 1 /\ r_unvignetted r = true.

Definition move_solver (t : rigid) (s : solver_surface) : solver_surface :=
  mkSolver (move_surface t (ss_surface s)) (ss_sag s) (ss_no_sag s).

(** A plane that lets rays pass straight. *)
Definition window_plane (s : solver_surface) : Prop :=
  plain (ss_surface s) /\ mat_is_mirror (sf_material (ss_surface s)) = false /\
  ss_no_sag s = true /\ forall p, ss_sag s p = Some 0.

(** The point of the border in the coordinates of the system. *)
Definition global_border (s : solver_surface) (g : border) (z : R) : vec3 :=
  move_point (sf_transformation (ss_surface s)) (V3 (b_x g) (b_y g) z).

(** The surface stands upright: it is only shifted. *)
Definition upright (s : solver_surface) : Prop :=
  match sf_transformation (ss_surface s) with None => True | Some t => rg_mat t = mid end.

(** The ray passes the surface [s] at the border point [g] within [tol]: at that place, or, for
    an angle, along that line, either way. *)
Definition meets (s : solver_surface) (g : border) (tol : R) (r : ray) : Prop :=
  exists v,
    match b_unit g with
    | Length => position_on s r = Some v
    | Dimensionless => direction_on s r = Some v \/ direction_on s r = Some (vopp v)
    | OtherUnit => False
    end /\ Rabs (vx v - b_x g) <= tol /\ Rabs (vy v - b_y g) <= tol.
