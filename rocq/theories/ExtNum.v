(** Real numbers with the infinities and NaN of IEEE 754.  The sign of zero is not
    represented, so the quotient of a non-zero number by zero is [NaN] here (in numpy it
    is an infinity of one sign or the other); no theorem depends on such a quotient. *)
From Coq Require Import Reals Bool.
From Verif Require Import Vec Num.
Open Scope R_scope.

Inductive ext := Fin (x : R) | Inf (neg : bool) | NaN.

(** The sign of a number: -1, 0 or 1; infinities have one. *)
Definition r_neg (x : R) : bool := if Rlt_dec x 0 then true else false.

Definition eopp (a : ext) : ext :=
  match a with Fin x => Fin (- x) | Inf s => Inf (negb s) | NaN => NaN end.
Definition eadd (a b : ext) : ext :=
  match a, b with
  | NaN, _ | _, NaN => NaN
  | Fin x, Fin y => Fin (x + y)
  | Inf s, Fin _ | Fin _, Inf s => Inf s
  | Inf s, Inf t => if eqb s t then Inf s else NaN
  end.
Definition esub (a b : ext) : ext := eadd a (eopp b).
Definition emul (a b : ext) : ext :=
  match a, b with
  | NaN, _ | _, NaN => NaN
  | Fin x, Fin y => Fin (x * y)
  | Inf s, Fin x | Fin x, Inf s => if Req_EM_T x 0 then NaN else Inf (xorb s (r_neg x))
  | Inf s, Inf t => Inf (xorb s t)
  end.
Definition ediv (a b : ext) : ext :=
  match a, b with
  | NaN, _ | _, NaN => NaN
  | Fin x, Fin y => if Req_EM_T y 0 then NaN else Fin (x / y)
  | Fin _, Inf _ => Fin 0
  | Inf s, Fin x => if Req_EM_T x 0 then NaN else Inf (xorb s (r_neg x))
  | Inf _, Inf _ => NaN
  end.
Definition esqrt (a : ext) : ext :=
  match a with
  | Fin x => if Rle_dec 0 x then Fin (sqrt x) else NaN
  | Inf false => Inf false
  | _ => NaN
  end.
Definition eabs (a : ext) : ext :=
  match a with Fin x => Fin (Rabs x) | Inf _ => Inf false | NaN => NaN end.
(** numpy.sign *)
Definition esign (a : ext) : ext :=
  match a with
  | Fin x => Fin (rsign x)
  | Inf s => Fin (if s then -1 else 1)
  | NaN => NaN
  end.
(** Comparisons; false if an operand is NaN. *)
Definition elt (a b : ext) : bool :=
  match a, b with
  | NaN, _ | _, NaN => false
  | Fin x, Fin y => if Rlt_dec x y then true else false
  | Fin _, Inf s => negb s
  | Inf s, Fin _ => s
  | Inf s, Inf t => andb s (negb t)
  end.
Definition ele (a b : ext) : bool :=
  match a, b with
  | NaN, _ | _, NaN => false
  | Fin x, Fin y => if Rle_dec x y then true else false
  | Fin _, Inf s => negb s
  | Inf s, Fin _ => s
  | Inf s, Inf t => orb s (negb t)
  end.

(** An [option R] as used by the finite models, [None] being NaN. *)
Definition of_opt (o : option R) : ext := match o with Some x => Fin x | None => NaN end.
