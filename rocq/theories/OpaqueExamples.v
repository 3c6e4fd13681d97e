(** A small table, and wavelengths and angles that meet the hypotheses. *)
From Coq Require Import Reals Lra List Sorting.Sorted.
From Coquelicot Require Import Coquelicot.
From Verif Require Import TableModel ChemicalModel ChemicalProofs OpaqueSpec.
Import ListNotations.
Open Scope R_scope.

(** Two rows for one wavelength, as in many of the files. *)
Definition rows : list nk_row := [mkNk 100 0.9 0.1; mkNk 200 0.8 0.3; mkNk 200 0.7 0.3; mkNk 400 2 1].

Lemma opaque_example : rows <> [] /\ StronglySorted (fun a b => nk_wavelength a <= nk_wavelength b) rows /\
  (forall r, In r rows -> 0 < nk_n r /\ 0 < nk_k r) /\ 0 < 300 /\ 300 < 11199.6 /\ 0 < 1.5 /\ 0 < 0.5 <= 1 /\
  3935.87 <= 4000 <= 4350.18.
Proof.
  split; [discriminate|]. split; [repeat constructor; cbn; lra|].
  split; [intros r [<- | [<- | [<- | [<- | []]]]]; cbn; lra|]. repeat split; lra.
Qed.
