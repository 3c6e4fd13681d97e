(** optika/systems/_sequential.py:1662-1733, [spot_diagram]: the points drawn for one wavelength and
    one field position, from the rays through every position of the pupil.  The third coordinate,
    the conversion to microns, the axes of the figure and its labels are left out. *)
From Coq Require Import Reals List Bool.
From Verif Require Import Vec Num RayModel SystemModel FitModel.
Import ListNotations.
Open Scope R_scope.
Open Scope opt_scope.

(** Line 1716: [position.mean(axis_pupil)]; a NaN among the positions makes it NaN. *)
Definition spot_center (rays : list ray) : option (R * R) :=
  let* ps := all_of (map r_position rays) in
  let* x := mean (map vx ps) in
  let* y := mean (map vy ps) in
  Some (x, y).

(** Lines 1716 and 1736-1744: the markers; NaN is not drawn. *)
Definition spot_marker (center : option (R * R)) (r : ray) : option (R * R) :=
  let* c := center in
  let* p := r_position r in
  Some (vx p - fst c, vy p - snd c).
Fixpoint drawn (l : list (option (R * R))) : list (R * R) :=
  match l with
  | [] => []
  | Some p :: l => p :: drawn l
  | None :: l => drawn l
  end.
Definition spot (rays : list ray) : list (R * R) :=
  drawn (map (spot_marker (spot_center rays)) (filter r_unvignetted rays)).
