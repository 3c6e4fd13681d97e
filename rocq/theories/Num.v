(** Partial real arithmetic.  [None] stands for "not a finite number" (NaN, or an
    infinity nobody uses afterwards) so that no property can hold merely
    because [sqrt] and [/] of the standard library are total. *)
From Coq Require Import Reals Lra List.
Import ListNotations.
Open Scope R_scope.

Definition obind {A B} (x : option A) (f : A -> option B) : option B :=
  match x with Some a => f a | None => None end.
Definition omap {A B} (f : A -> B) (x : option A) : option B :=
  match x with Some a => Some (f a) | None => None end.

Declare Scope opt_scope.
Notation "'let*' x ':=' e 'in' f" := (obind e (fun x => f))
  (at level 200, x name, e at level 100, f at level 200, right associativity) : opt_scope.

(** numpy.sqrt / math.sqrt on a real argument: NaN below zero. *)
Definition osqrt (x : R) : option R :=
  if Rle_dec 0 x then Some (sqrt x) else None.

(** Division: not a finite number when the denominator is zero. *)
Definition odiv (a b : R) : option R :=
  if Req_EM_T b 0 then None else Some (a / b).

(** numpy.sign *)
Definition rsign (x : R) : R :=
  if Rlt_dec 0 x then 1 else if Rlt_dec x 0 then -1 else 0.

(** math.copysign(1, x); the sign of a zero is taken to be positive. *)
Definition copysign1 (x : R) : R := if Rle_dec 0 x then 1 else -1.

Definition rsum (l : list R) : R := fold_right Rplus 0 l.
Definition rprod (l : list R) : R := fold_right Rmult 1 l.
