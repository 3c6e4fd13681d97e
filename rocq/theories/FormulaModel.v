(** optika/chemicals/_chemicals.py:36-51, [AbstractChemical.formula_latex]. *)
From Coq Require Import String Ascii List Bool.
Import ListNotations.
Open Scope string_scope.

(** [\d]; simplified: only the ASCII digits (python also matches the other Unicode decimal
    digits). *)
Definition is_digit (c : ascii) : bool :=
  let n := nat_of_ascii c in Nat.leb 48 n && Nat.leb n 57.

(** [re.sub(r"\d+", r"$_\g<0>$", formula)]: the string is scanned from the left, [run] is the
    current match, which is extended as far as possible and then replaced. *)
Definition replaced (run : string) : string :=
  match run with EmptyString => "" | _ => "$_" ++ run ++ "$" end.
Fixpoint sub_digits (run s : string) : string :=
  match s with
  | EmptyString => replaced run
  | String c t =>
      if is_digit c then sub_digits (run ++ String c "") t
      else replaced run ++ String c (sub_digits "" t)
  end.

Definition formula_latex (formula : string) : string := sub_digits "" formula.
