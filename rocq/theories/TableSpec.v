(** What it means to interpolate a table, independently of how. *)
From Coq Require Import Reals String Ascii List Sorting.Sorted.
Import ListNotations.
Open Scope R_scope.

Definition increasing (table : list (R * R)) : Prop := StronglySorted (fun a b => fst a < fst b) table.
Definition nondecreasing (table : list (R * R)) : Prop := StronglySorted (fun a b => fst a <= fst b) table.

Definition neighbours (table : list (R * R)) (a b : R * R) : Prop :=
  exists l1 l2, table = l1 ++ a :: b :: l2.

(** [f] returns the tabulated value at each tabulated argument. *)
Definition reproduces (table : list (R * R)) (f : R -> option R) : Prop :=
  forall x y, In (x, y) table -> f x = Some y.

(** Between neighbouring arguments [f] is a number between the neighbouring values, on the
    straight line through them. *)
Definition between (v a b : R) : Prop := Rmin a b <= v <= Rmax a b.
Definition never_overshoots (table : list (R * R)) (f : R -> option R) : Prop :=
  forall x0 y0 x1 y1 x, neighbours table (x0, y0) (x1, y1) -> x0 <= x <= x1 ->
    exists v, f x = Some v /\ between v y0 y1 /\ (v - y0) * (x1 - x0) = (y1 - y0) * (x - x0).

(** Every argument inside the table is between two neighbours. *)
Definition inside (table : list (R * R)) (x : R) : Prop :=
  exists a b, In a table /\ In b table /\ fst a <= x <= fst b.
Definition bracketed (table : list (R * R)) (x : R) : Prop :=
  In x (map fst table) \/ exists a b, neighbours table a b /\ fst a <= x <= fst b.

Fixpoint has_char (c : ascii) (s : string) : Prop :=
  match s with EmptyString => False | String d t => d = c \/ has_char c t end.
