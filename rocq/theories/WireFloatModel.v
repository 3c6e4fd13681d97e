(** The number of points per side of a polygon wire, optika/apertures/_apertures.py:794-811
    (and 562-568 for the three segments of a sector), in binary64 arithmetic. *)
From Coq Require Import ZArith List Floats.SpecFloat.
From Verif Require Import SagFloatModel.
Import ListNotations.
Open Scope Z_scope.

(** int(): truncation towards zero; NaN and infinity raise an exception ([None]) *)
Definition f_int (x : f64) : option Z :=
  match x with
  | S754_zero _ => Some 0
  | S754_finite s m e =>
      let a := if Z.leb 0 e then Z.pos m * 2 ^ e else Z.pos m / 2 ^ (- e) in
      Some (if s then - a else a)
  | _ => None
  end.

(** [num_v] for [n] more vertices from [v]; Python converts the integers to floats. *)
Fixpoint f_side_counts (per_side : f64) (n : nat) (v cumulative : Z) : option (list Z) :=
  match n with
  | O => Some []
  | S n => match f_int (fsub (fmul (fnat (v + 1)) per_side) (fnat cumulative)) with
           | None => None
           | Some k => match f_side_counts per_side n (v + 1) (cumulative + k) with
                       | None => None
                       | Some l => Some (k :: l)
                       end
           end
  end.
Definition f_counts (num n : nat) : option (list Z) :=
  f_side_counts (fdiv (fnat (Z.of_nat num)) (fnat (Z.of_nat n))) n 0 0.
