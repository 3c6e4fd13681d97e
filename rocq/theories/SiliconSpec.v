(** Pair production in silicon above the tables (C102): the laws that the documentation states. *)
From Coq Require Import Reals List.
From Verif Require Import Num RamanathanModel.
Import ListNotations.
Open Scope R_scope.

(** A photon with more energy than every row of the tables. *)
Definition above_table (tb : pair_table) (wavelength : R) : Prop :=
  tb <> [] /\ List.Forall (fun r => row_energy r < hc / wavelength) tb.

(** The laws of the pair energy (eV) and of the Fano factor for a band gap [g] (eV). *)
Definition pair_energy_law (g : R) : R := 1.7 * g + 0.084 * 5.2 + 1.3.
Definition fano_law (g : R) : R := -0.028 * g + 0.0015 * 5.2 + 0.14.

(** The band gap (eV) at a temperature (K) for a gap [g0] at zero temperature. *)
Definition gap_law (g0 T : R) : R := g0 - 4.9e-4 * T ^ 2 / (T + 655).
