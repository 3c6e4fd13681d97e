(** optika/mixins.py:40-125, [Printable]: the text of an object. *)
From Coq Require Import String List Arith.
Import ListNotations.
Open Scope string_scope.

Definition newline : string := String (Ascii.ascii_of_nat 10) EmptyString.
(** [" " * n]. *)
Fixpoint spaces (n : nat) : string := match n with O => "" | S n => String (Ascii.ascii_of_nat 32) (spaces n) end.

(** A value as [_val_to_string] (lines 45-79) tells them apart.  An object is a Printable with the
    name of its class and its fields (names and values).  A named array prints itself: its first
    line and its other lines, the column of each relative to the prefix it is given.  A numpy array
    is printed by numpy.array2string, which puts its further lines under the end of the prefix; the
    unit of a quantity follows.  Anything else is its [repr]. *)
Inductive value :=
| VObject (name : string) (fields : list (string * value))
| VNamed (first : string) (rest : list (nat * string))
| VArray (first : string) (rest : list string) (unit : option string)
| VList (items : list value)
| VOther (repr : string).

(** named_arrays: [AbstractArray.to_string(prefix)]; only the length of the prefix matters. *)
Definition named_string (first : string) (rest : list (nat * string)) (prefix : string) : string :=
  fold_left (fun acc l => acc ++ newline ++ spaces (String.length prefix + fst l) ++ snd l) rest first.
(** numpy.array2string(a, separator=", ", prefix=prefix). *)
Definition array_string (first : string) (rest : list string) (prefix : string) : string :=
  fold_left (fun acc l => acc ++ newline ++ spaces (String.length prefix) ++ l) rest first.

Definition tab : string := spaces 4.

(** Lines 45-79 with [pre] and [field_str], and lines 81-122 for the objects inside. *)
Fixpoint val_to_string (v : value) (pre field_str : string) {struct v} : string :=
  match v with
  | VObject name fields =>
      (* val.to_string(prefix=f"{pre}{tab}") *)
      let pre := spaces (String.length (pre ++ tab)) in
      let result_fields :=
        (fix each (l : list (string * value)) : string :=
           match l with
           | [] => ""
           | (f, v) :: l =>
               let field_str := pre ++ tab ++ f ++ "=" in
               (field_str ++ val_to_string v pre field_str ++ "," ++ newline) ++ each l
           end) fields in
      let result_fields := match result_fields with EmptyString => "" | _ => newline ++ result_fields ++ pre end in
      name ++ "(" ++ result_fields ++ ")"
  | VNamed first rest => named_string first rest (pre ++ tab)
  | VArray first rest unit =>
      array_string first rest field_str ++ match unit with None => "" | Some u => " " ++ u end
  | VList items =>
      "[" ++ newline ++
      (fix each (l : list value) : string :=
         match l with
         | [] => ""
         | v :: l => ((pre ++ tab ++ tab) ++ val_to_string v (pre ++ tab) (pre ++ tab) ++ "," ++ newline) ++ each l
         end) items ++ pre ++ tab ++ "]"
  | VOther repr => repr
  end.

(** Lines 81-122: [to_string(prefix)] of an object, and [__repr__] (124-125), which has no prefix. *)
Definition to_string (name : string) (fields : list (string * value)) (prefix : option string) : string :=
  let pre := match prefix with Some p => spaces (String.length p) | None => "" end in
  let result_fields :=
    fold_left (fun acc f => let field_str := pre ++ tab ++ fst f ++ "=" in
                 acc ++ field_str ++ val_to_string (snd f) pre field_str ++ "," ++ newline) fields "" in
  let result_fields := match result_fields with EmptyString => "" | _ => newline ++ result_fields ++ pre end in
  name ++ "(" ++ result_fields ++ ")".
Definition repr (name : string) (fields : list (string * value)) : string := to_string name fields None.
