(** All orders of a grating together. *)
From Coq Require Import Reals List ZArith.
From Verif Require Import RulingModel.
Import ListNotations.
Open Scope R_scope.

(** The orders [-N, ..., N]. *)
Definition orders_up_to (N : nat) : list Z := map (fun j => (Z.of_nat j - Z.of_nat N)%Z) (seq 0 (2 * N + 1)).

(** Grooves of these shapes that absorb nothing. *)
Definition lossless_profile (p : profile) : Prop :=
  match p with
  | Square _ | Sawtooth _ => True
  | RectangularGroove _ duty => 0 < duty < 1
  | _ => False
  end.
