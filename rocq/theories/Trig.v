(** Elementary functions of numpy used by the models, on real numbers. *)
From Coq Require Import Reals Lra.
Open Scope R_scope.

(** numpy.arctan2(y, x); both zeros are taken to be positive zeros. *)
Definition atan2 (y x : R) : R :=
  if Rlt_dec 0 x then atan (y / x)
  else if Rlt_dec x 0 then (if Rle_dec 0 y then atan (y / x) + PI else atan (y / x) - PI)
  else if Rlt_dec 0 y then PI / 2
  else if Rlt_dec y 0 then - (PI / 2)
  else 0.

(** numpy.remainder (the operator %): a - m * floor(a / m); the result has the sign of m. *)
Definition rfloor (x : R) : R := IZR (Int_part x).
Definition rmod (a m : R) : R := a - m * rfloor (a / m).
