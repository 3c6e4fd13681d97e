(** optika/vectors/_vectors_object.py:42-130, [AbstractObjectVectorArray.cell_area]. *)
From Coq Require Import Reals List String Bool.
From Verif Require Import Num.
Import ListNotations.
Open Scope R_scope.
Open Scope opt_scope.

(** A grid of wavelengths, fields and pupils along one wavelength axis, two field axes and
    two pupil axes: functions of the indices along the axes (lines 94-112 broadcast the field
    and the pupil against the wavelength and the field).  Simplified: no further axes. *)
Definition point2 : Type := R * R.
Record object_grid := mkGrid {
  g_wavelength : nat -> R;
  g_field : nat -> nat -> nat -> point2;                  (* wavelength, field *)
  g_pupil : nat -> nat -> nat -> nat -> nat -> point2 }.  (* wavelength, field, pupil *)

(** [volume_cell] of a scalar along one axis (external, named_arrays): the difference of
    neighbours. *)
Definition volume_cell_1d (x : nat -> R) (i : nat) : R := x (S i) - x i.

(** [volume_cell] of two-dimensional vectors along two axes (external, named_arrays): the
    signed area of the quadrilateral. *)
Definition cross2 (a b : point2) : R := fst a * snd b - snd a * fst b.
Definition quad_area (a b c d : point2) : R :=
  (cross2 a b + cross2 b c + cross2 c d + cross2 d a) / 2.
Definition volume_cell_2d (area : point2 -> point2 -> point2 -> point2 -> R)
    (p : nat -> nat -> point2) (i j : nat) : R :=
  area (p i j) (p (S i) j) (p (S i) (S j)) (p i (S j)).

(** [cell_centers] along one axis (external, named_arrays): the mean of neighbours. *)
Definition center1 (f : nat -> R) (i : nat) : R := (f i + f (S i)) / 2.

(** Lines 66-90: the checks of the axes; a [ValueError] is [None]. *)
Definition mem (a : string) (l : list string) : bool := existsb (String.eqb a) l.
Definition check_axes (shape_wavelength shape_field shape_pupil : list string)
    (axis_wavelength : string) (axis_field axis_pupil : string * string) : option unit :=
  let f := [fst axis_field; snd axis_field] in
  let p := [fst axis_pupil; snd axis_pupil] in
  if negb (mem axis_wavelength shape_wavelength) then None
  else if negb (forallb (fun a => mem a shape_field) f) then None
  else if existsb (fun a => mem a shape_wavelength) f then None
  else if negb (forallb (fun a => mem a shape_pupil) p) then None
  else if existsb (fun a => mem a (shape_wavelength ++ shape_field)) p then None
  else Some tt.

(** Lines 92, 107-130: the area of cell [w, i, j, k, l].  [area_field] and [area_pupil] are
    the signed area of a quadrilateral: [quad_area] for positions, and the solid angle of the
    [optika.direction]s of the corners for angles (lines 107-115). *)
Definition cell_area (area_field area_pupil : point2 -> point2 -> point2 -> point2 -> R)
    (g : object_grid) (w i j k l : nat) : R :=
  let a_wavelength := volume_cell_1d (g_wavelength g) w in
  let a_field w := Rabs (volume_cell_2d area_field (g_field g w) i j) in
  let a_pupil w i j := Rabs (volume_cell_2d area_pupil (g_pupil g w i j) k l) in
  a_wavelength
  * center1 a_field w
  * center1 (fun w => center1 (fun i => center1 (fun j => a_pupil w i j) j) i) w.
