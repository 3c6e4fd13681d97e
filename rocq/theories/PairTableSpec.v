(** What the tables of pair-production probabilities should be (C103). *)
From Coq Require Import Reals List.
From Verif Require Import Num.
Import ListNotations.
Open Scope R_scope.

(** Probabilities of 1, 2, ... pairs. *)
Definition distribution (p : list R) : Prop := List.Forall (fun q => 0 <= q) p /\ rsum p = 1.

(** The energy in electronvolts of a photon with a wavelength in Angstrom, from the defined values of
    Planck's constant, the speed of light and the elementary charge. *)
Definition planck : R := 662607015 / 10 ^ 42.
Definition light : R := 299792458.
Definition charge : R := 1602176634 / 10 ^ 28.
Definition energy_of (wavelength : R) : R := planck * light / (wavelength / 10 ^ 10) / charge.
