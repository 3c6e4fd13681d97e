(** How LaTeX (and the mathtext of matplotlib) renders a label: outside of dollar signs
    every character is itself; inside, an underscore turns the next character, or the next
    group in braces, into a subscript. *)
From Coq Require Import String Ascii List Bool.
Import ListNotations.
Open Scope string_scope.

Inductive mode := Text | Math | Subscript | Group.
Fixpoint render (m : mode) (s : string) : list (ascii * bool) :=
  match s with
  | EmptyString => []
  | String c t =>
      match m with
      | Text => if Ascii.eqb c "$" then render Math t else (c, false) :: render Text t
      | Math =>
          if Ascii.eqb c "$" then render Text t
          else if Ascii.eqb c "_" then render Subscript t
          else (c, false) :: render Math t
      | Subscript =>
          if Ascii.eqb c "{" then render Group t else (c, true) :: render Math t
      | Group => if Ascii.eqb c "}" then render Math t else (c, true) :: render Group t
      end
  end.

Definition digit (c : ascii) : Prop := List.In c ["0"; "1"; "2"; "3"; "4"; "5"; "6"; "7"; "8"; "9"]%char.

Fixpoint characters (s : string) : list ascii :=
  match s with EmptyString => [] | String c t => c :: characters t end.

(** The formula with every digit as a subscript, and nothing else. *)
Definition subscripted (s : string) (rendered : list (ascii * bool)) : Prop :=
  map fst rendered = characters s /\ (forall c b, In (c, b) rendered -> (b = true <-> digit c)).

(** The formula has no markup of its own. *)
Definition plain (s : string) : Prop := ~ In "$"%char (characters s) /\ ~ In "_"%char (characters s).

(** A string without the two characters of the markup *)
Fixpoint unmarked (s : string) : string :=
  match s with
  | EmptyString => ""
  | String c t => if Ascii.eqb c "$" || Ascii.eqb c "_" then unmarked t else String c (unmarked t)
  end.

Definition all_digits (s : string) : Prop := forall c, In c (characters s) -> digit c.
Definition no_digits (s : string) : Prop := forall c, In c (characters s) -> ~ digit c.
Definition starts_with_digit (s : string) : Prop := exists c t, s = String c t /\ digit c.
Definition ends_with_digit (s : string) : Prop := exists c t, s = t ++ String c "" /\ digit c.
