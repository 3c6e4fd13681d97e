(** Grids, totals over the cells of a grid, and the area of a polygon. *)
From Coq Require Import Reals List.
From Verif Require Import CellModel.
Import ListNotations.
Open Scope R_scope.

Fixpoint sum_upto (n : nat) (f : nat -> R) : R :=
  match n with O => 0 | S m => sum_upto m f + f m end.

(** The total over all the cells of a grid with [nw], [n1] x [n2], [m1] x [m2] cells. *)
Definition total (nw n1 n2 m1 m2 : nat) (f : nat -> nat -> nat -> nat -> nat -> R) : R :=
  sum_upto nw (fun w => sum_upto n1 (fun i => sum_upto n2 (fun j =>
    sum_upto m1 (fun k => sum_upto m2 (fun l => f w i j k l))))).

(** A grid whose field does not depend on the wavelength, nor its pupil on anything. *)
Definition separable (g : object_grid) (field pupil : nat -> nat -> point2) : Prop :=
  (forall w i j, g_field g w i j = field i j) /\ (forall w i j k l, g_pupil g w i j k l = pupil k l).
(** A grid with straight lines of constant x and of constant y *)
Definition rectilinear (p : nat -> nat -> point2) (x y : nat -> R) : Prop :=
  forall i j, p i j = (x i, y j).
Definition monotone (n : nat) (x : nat -> R) : Prop :=
  (forall i, (i < n)%nat -> x i <= x (S i)) \/ (forall i, (i < n)%nat -> x (S i) <= x i).

(** The signed area enclosed by a closed path through the points of a list (the shoelace
    formula). *)
Fixpoint path_area (p0 : point2) (path : list point2) : R :=
  match path with
  | [] => 0
  | a :: rest =>
      match rest with
      | [] => cross2 a p0 / 2
      | b :: _ => cross2 a b / 2 + path_area p0 rest
      end
  end.
Definition polygon_area (path : list point2) : R :=
  match path with [] => 0 | p0 :: _ => path_area p0 path end.

(** The boundary of a grid of [m] x [n] cells, once around. *)
Definition boundary (p : nat -> nat -> point2) (m n : nat) : list point2 :=
  map (fun i => p i 0%nat) (seq 0 m) ++ map (fun j => p m j) (seq 0 n)
  ++ map (fun i => p (m - i)%nat n) (seq 0 m) ++ map (fun j => p 0%nat (n - j)%nat) (seq 0 n).

(** All the cells are traversed in the same direction (none is folded over). *)
Definition cell_sign (p : nat -> nat -> point2) (i j : nat) : R :=
  polygon_area [p i j; p (S i) j; p (S i) (S j); p i (S j)].
Definition oriented (p : nat -> nat -> point2) (m n : nat) : Prop :=
  (forall i j, (i < m)%nat -> (j < n)%nat -> 0 <= cell_sign p i j) \/
  (forall i j, (i < m)%nat -> (j < n)%nat -> cell_sign p i j <= 0).
