(** C87: printing. *)
From Coq Require Import String List Arith.
From Verif Require Import PrintModel PrintSpec PrintProofs.
Import ListNotations.
Open Scope string_scope.

(** The text of an object is the layout of its tree; a prefix moves all lines but the first to the
    right by its length. *)
Theorem C87_layout_partial : forall name fields prefix, keeps_lines false (VObject name fields) ->
  to_string name fields prefix = text (match prefix with Some p => String.length p | None => 0 end) (layout 0 (VObject name fields)).
Proof. exact printed. Qed.
Print Assumptions C87_layout_partial.

(** [repr] moves nothing. *)
Theorem C87_repr_partial : forall name fields, keeps_lines false (VObject name fields) ->
  repr name fields = text 0 (layout 0 (VObject name fields)).
Proof. exact printed_repr. Qed.
Print Assumptions C87_repr_partial.

(** The parts of that layout are lines. *)
Theorem C87_lines_partial : forall v hang, keeps_lines false v ->
  one_line (fst (layout hang v)) /\ Forall (fun l => one_line (snd l)) (snd (layout hang v)).
Proof. intros v hang. exact (layout_lines v false hang). Qed.
Print Assumptions C87_lines_partial.

(** An array of several lines inside a list is not aligned. *)
Theorem C87_array_refuted : exists name first rest, one_line first /\ Forall one_line rest /\
  let fields := [("x", VList [VArray first rest None])] in to_string name fields None <> text 0 (layout 0 (VObject name fields)).
Proof. exact array_in_list. Qed.
Print Assumptions C87_array_refuted.

(** Nor is an object inside a tuple, which python prints by [repr]. *)
Theorem C87_tuple_refuted : exists name inner, keeps_lines false (VObject "B" inner) /\
  let pair := VOther ("(" ++ repr "B" inner ++ ",)") in
  to_string name [("x", pair)] None <> text 0 (layout 0 (VObject name [("x", pair)])).
Proof. exact other_lines. Qed.
Print Assumptions C87_tuple_refuted.

Definition printed_system : list (string * value) :=
  [("object", VObject "Surface" [("name", VOther "None"); ("matrix", VArray "[[1, 0]," [" [0, 1]]"] (Some "mm"))]);
   ("surfaces", VList [VObject "Surface" []; VOther "None"])].
Example C87_nonvacuous : keeps_lines false (VObject "System" printed_system) /\
  repr "System" printed_system = String.concat newline
    ["System("; "    object=Surface("; "        name=None,"; "        matrix=[[1, 0],"; "                [0, 1]] mm,"; "    ),";
     "    surfaces=["; "        Surface(),"; "        None,"; "    ],"; ")"].
Proof.
  split; [|reflexivity]. cbn [keeps_lines printed_system fold_right fst snd].
  repeat match goal with |- _ /\ _ => split | |- True => trivial | |- _ = true -> _ => discriminate | |- one_line _ => intros I; cbn in I; intuition discriminate end.
Qed.
