(** The layout of a tree of values, in lines. *)
From Coq Require Import String Ascii List Arith.
From Verif Require Import PrintModel.
Import ListNotations.
Open Scope string_scope.

(** A block of lines: the text of the first line, which continues the line it is put on, and the
    other lines with the columns at which they begin, relative to the line of the first. *)
Definition block : Type := string * list (nat * string).

(** A new line that begins at column [c]: a line feed and as many blanks. *)
Definition new_line (c : nat) : string := String "010"%char (String.concat "" (repeat " " c)).

(** The text of a block that begins on a line at column [c]. *)
Definition text (c : nat) (b : block) : string :=
  fst b ++ String.concat "" (map (fun l => new_line (c + fst l) ++ snd l) (snd b)).

(** More text after the last line. *)
Fixpoint last_line (l : list (nat * string)) (s : string) : list (nat * string) :=
  match l with
  | [] => []
  | [(k, t)] => [(k, t ++ s)]
  | x :: l => x :: last_line l s
  end.
Definition followed_by (b : block) (s : string) : block :=
  match snd b with [] => (fst b ++ s, []) | _ => (fst b, last_line (snd b) s) end.

(** A block as lines of its own, [k] columns further right. *)
Definition lines_at (k : nat) (b : block) : list (nat * string) := (k, fst b) :: map (fun l => (k + fst l, snd l)) (snd b).

(** Brackets around lines. *)
Definition bracket (opening : string) (inside : list (nat * string)) (closing : string) : block :=
  (opening, (inside ++ [(0, closing)])%list).

(** A text cut at its line breaks. *)
Fixpoint cut (s : string) : string * list string :=
  match s with
  | EmptyString => ("", [])
  | String c s =>
      let (first, rest) := cut s in
      if Ascii.eqb c (Ascii.ascii_of_nat 10) then ("", first :: rest) else (String c first, rest)
  end.

(** The layout of a value that begins [hang] columns after the beginning of its line: each field
    and each item on lines of its own four columns further right, ended by a comma, the closing
    bracket under the line of the opening one, the lines of an array one under the other, and those
    of any other text moved to the column of its first line. *)
Fixpoint layout (hang : nat) (v : value) : block :=
  match v with
  | VObject name [] => (name ++ "()", [])
  | VObject name fields =>
      bracket (name ++ "(")
        (flat_map (fun f => let b := layout (String.length (fst f) + 1) (snd f) in
                            lines_at 4 (followed_by ((fst f ++ "=" ++ fst b), snd b) ",")) fields) ")"
  | VNamed first rest => (first, rest)
  | VArray first rest unit =>
      let b := (first, map (fun l => (hang, l)) rest) in
      match unit with None => b | Some u => followed_by b (" " ++ u) end
  | VList items => bracket "[" (flat_map (fun v => lines_at 4 (followed_by (layout 0 v) ",")) items) "]"
  | VOther s => (fst (cut s), map (fun l => (0, l)) (snd (cut s)))
  end.

(** No line break. *)
Definition one_line (s : string) : Prop := ~ In (Ascii.ascii_of_nat 10) (list_ascii_of_string s).

(** Values whose text keeps to lines: leaves without line breaks, or which are arrays; [listed]
    says that the value is the item of a list, where an array has to fit on one line. *)
Fixpoint keeps_lines (listed : bool) (v : value) : Prop :=
  match v with
  | VObject name fields => one_line name /\ fold_right (fun f P => (one_line (fst f) /\ keeps_lines false (snd f)) /\ P) True fields
  | VNamed first rest => one_line first /\ fold_right (fun l P => one_line (snd l) /\ P) True rest
  | VArray first rest unit => one_line first /\ fold_right (fun l P => one_line l /\ P) True rest /\
      (listed = true -> rest = []) /\ match unit with None => True | Some u => one_line u end
  | VList items => fold_right (fun v P => keeps_lines true v /\ P) True items
  | VOther s => one_line s
  end.
