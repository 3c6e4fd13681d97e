(** A test of points in polygons by counting crossings; an instance of the argument [pip]. *)
From Coq Require Import Reals List Bool.
From Verif Require Import Vec Num RayModel SurfaceModel ApertureModel.
Import ListNotations.
Open Scope R_scope.

(** The edge from [a] to [b] crosses the height [y]. *)
Definition straddles (y : R) (e : vec3 * vec3) : bool :=
  xorb (rlt y (vy (fst e))) (rlt y (vy (snd e))).
(** where it does *)
Definition crossing (y : R) (e : vec3 * vec3) : R :=
  vx (fst e) + (y - vy (fst e)) / (vy (snd e) - vy (fst e)) * (vx (snd e) - vx (fst e)).
(** An odd number of crossings lie to the right. *)
Definition pnpoly (vs : list vec3) (x y : R) : bool :=
  fold_right xorb false
    (map (fun e => straddles y e && rlt x (crossing y e)) (sides vs)).
