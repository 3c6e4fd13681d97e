(** Theorems on the LaTeX representation of chemical formulas: C62. *)
From Coq Require Import String Ascii List Bool.
From Verif Require Import FormulaModel FormulaSpec FormulaProofs.
Import ListNotations.
Open Scope string_scope.

(** Every maximal run of digits is wrapped, and nothing else is changed: these two theorems
    determine the result for every formula. *)
Theorem C62_runs : forall a d b,
  ~ ends_with_digit a -> all_digits d -> d <> "" -> ~ starts_with_digit b ->
  formula_latex (a ++ d ++ b) = formula_latex a ++ ("$_" ++ d ++ "$") ++ formula_latex b.
Proof. exact latex_run. Qed.
Print Assumptions C62_runs.

Theorem C62_no_digits : forall s, no_digits s -> formula_latex s = s.
Proof. exact latex_no_digits. Qed.
Print Assumptions C62_no_digits.

(** Deleting the markup gives back the formula. *)
Theorem C62_preserved : forall s, plain s -> unmarked (formula_latex s) = s.
Proof. exact unmarked_latex. Qed.
Print Assumptions C62_preserved.

(** The characters that are rendered are those of the formula, and only digits are
    subscripts. *)
Theorem C62_rendered : forall s, plain s ->
  map fst (render Text (formula_latex s)) = characters s /\
  forall c, In (c, true) (render Text (formula_latex s)) -> digit c.
Proof. exact latex_characters. Qed.
Print Assumptions C62_rendered.

(** Not every digit is rendered as a subscript: only the first one of a number is, because
    the run is not put in braces.  C10H8O4 is one of the chemicals of the library. *)
Theorem C62_subscripts_refuted : exists s, plain s /\ ~ subscripted s (render Text (formula_latex s)).
Proof. exact latex_refuted. Qed.
Print Assumptions C62_subscripts_refuted.

(** Missing for the full claim: the digits after the first one of a number. *)
Theorem C62_first_digit_partial : forall a c b, plain (a ++ String c b) ->
  nth_error (render Text (formula_latex (a ++ String c b))) (String.length a) = Some (c, true) <->
  digit c /\ ~ ends_with_digit a.
Proof. exact latex_first_digit. Qed.
Print Assumptions C62_first_digit_partial.

Theorem C62_single_digits_partial : forall s, plain s ->
  (forall a c d b, s = a ++ String c (String d b) -> ~ (digit c /\ digit d)) ->
  subscripted s (render Text (formula_latex s)).
Proof. exact latex_single. Qed.
Print Assumptions C62_single_digits_partial.

Example C62_nonvacuous :
  plain "SiO2" /\ formula_latex "Al2O3" = "Al$_2$O$_3$" /\
  formula_latex "C10H8O4" = "C$_10$H$_8$O$_4$" /\
  render Text (formula_latex "C10") = [("C", false); ("1", true); ("0", false)]%char /\
  (forall a c d b, "SiO2" = a ++ String c (String d b) -> ~ (digit c /\ digit d)) /\
  ~ ends_with_digit "C" /\ all_digits "10" /\ ~ starts_with_digit "H8O4".
Proof. exact formula_examples. Qed.
