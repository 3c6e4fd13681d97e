(** The tables of pair-production probabilities that the package contains. *)
From Coq Require Import Reals List ZArith.
From Verif Require Import RamanathanModel PairData.
Import ListNotations.
Open Scope R_scope.

(** _ramanathan_2020.py:27-84, [_probability_of_n_pairs_ramanathan]: the first column of each file is the
    energy, the others are the probabilities. *)
Definition probability (z : Z) : R := IZR z / 100000.
Definition row_of_data (d : data_row) : pair_row :=
  let '(e, p0, p100, p300) := d in
  mkRow (IZR e / 100) (map probability p0) (map probability p100) (map probability p300).
Definition shipped : pair_table := map row_of_data pair_data.
