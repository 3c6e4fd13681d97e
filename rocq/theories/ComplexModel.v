(** Complex arithmetic used by optika/materials (numpy complex128 as exact complex numbers). *)
From Coq Require Import Reals.
From Coquelicot Require Import Coquelicot.
From Verif Require Import Num.
Open Scope C_scope.

(** numpy.emath.sqrt: the principal square root, i * sqrt(-x) for a negative real x
    (a negative zero imaginary part, which would give the other root, is not modelled). *)
Definition csqrt (z : C) : C :=
  (sqrt ((Cmod z + Re z) / 2),
   ((if Rle_dec 0 (Im z) then 1 else -1) * sqrt ((Cmod z - Re z) / 2))%R).

(** numpy.exp *)
Definition cexp (z : C) : C := ((exp (Re z) * cos (Im z))%R, (exp (Re z) * sin (Im z))%R).

(** Division: not a finite number when the denominator is zero. *)
Definition cdiv (a b : C) : option C := if Ceq_dec b 0 then None else Some (a / b).

(** named_arrays.Cartesian2dMatrixArray; [x.x, x.y, y.x, y.y] *)
Record mat2 := Mat2 { mxx : C; mxy : C; myx : C; myy : C }.
Definition mat_id : mat2 := Mat2 1 0 0 1.
Definition mat_mul (a b : mat2) : mat2 :=
  Mat2 (mxx a * mxx b + mxy a * myx b) (mxx a * mxy b + mxy a * myy b)
       (myx a * mxx b + myy a * myx b) (myx a * mxy b + myy a * myy b).
Definition mat_det (a : mat2) : C := mxx a * myy a - mxy a * myx a.
(** [matrix.inverse] *)
Definition mat_inverse (a : mat2) : option mat2 :=
  match cdiv 1 (mat_det a) with
  | None => None
  | Some q => Some (Mat2 (q * myy a) (q * - mxy a) (q * - myx a) (q * mxx a))
  end.
Definition mat_apply (a : mat2) (v : C * C) : C * C :=
  (mxx a * fst v + mxy a * snd v, myx a * fst v + myy a * snd v).

(** Products of matrices one of which may contain NaN. *)
Definition omul (a b : option mat2) : option mat2 :=
  match a, b with Some a, Some b => Some (mat_mul a b) | _, _ => None end.

(** [matrix.power(k)] of named_arrays for an integer [k]. *)
Fixpoint mat_npower (a : mat2) (k : nat) : mat2 :=
  match k with O => mat_id | S k => mat_mul a (mat_npower a k) end.
Definition mat_power (a : mat2) (k : Z) : option mat2 :=
  match k with
  | Z0 => Some mat_id
  | Zpos p => Some (mat_npower a (Pos.to_nat p))
  | Zneg p => match mat_inverse a with None => None | Some b => Some (mat_npower b (Pos.to_nat p)) end
  end.
