(** C102: pair production in silicon by photons above the tables. *)
From Coq Require Import Reals List Lra.
From Verif Require Import Num ExtNum RamanathanModel SiliconSpec SiliconProofs.
Import ListNotations.
Open Scope R_scope.

(** The band gap follows the documented law from 1.1692 eV on and falls with the temperature. *)
Theorem C102_gap : (forall T, energy_bandgap T = gap_law 1.1692 T) /\
  (forall T T', 0 <= T -> T < T' -> energy_bandgap T' < energy_bandgap T).
Proof. exact (conj bandgap_law bandgap_falls). Qed.
Print Assumptions C102_gap.

(** The documentation gives 1.192 eV at zero temperature: at no temperature is the band gap the documented one. *)
Theorem C102_gap_refuted : forall T, energy_bandgap T <> gap_law 1.192 T.
Proof. exact gap_documented. Qed.
Print Assumptions C102_gap_refuted.

(** Above the tables the energy of a pair is that of the law, between 3.645 and 3.725 eV, and the yield is
    the energy of the photon over it. *)
Theorem C102_pair : forall tb w T, 0 <= T <= 300 -> above_table tb w ->
  exists e, energy_pair tb w T = Fin e /\ e = pair_energy_law (energy_bandgap T) /\ 3.645 < e < 3.725 /\
    quantum_yield_ideal tb w T = Some (hc / w / e).
Proof. exact yield_above. Qed.
Print Assumptions C102_pair.

(** The Fano factor is that of the law at the temperatures of the tables, ... *)
Theorem C102_fano_partial : forall tb w T, above_table tb w -> In T [0; 100; 300] ->
  fano_factor tb w T = Some (fano_law (energy_bandgap T)).
Proof. exact fano_nodes. Qed.
Print Assumptions C102_fano_partial.

(** ... it rises with the temperature and is between 0.115 and 0.1164 at all of them, ... *)
Theorem C102_fano_rises : forall tb w T T', above_table tb w -> 0 <= T -> T <= T' -> T' <= 300 ->
  exists f f', fano_factor tb w T = Some f /\ fano_factor tb w T' = Some f' /\ f <= f' /\ 0.115 < f /\ f' < 0.1164.
Proof. exact fano_rises. Qed.
Print Assumptions C102_fano_rises.

(** ... but between them it is not that of the law: at 200 K it is not. *)
Theorem C102_fano_refuted : forall tb w, above_table tb w ->
  fano_factor tb w 200 <> Some (fano_law (energy_bandgap 200)).
Proof. exact fano_chord. Qed.
Print Assumptions C102_fano_refuted.

Example C102_nonvacuous : above_table [mkRow 1 [1] [1] [1]; mkRow 50 [0; 1] [0; 1] [0; 1]] 1 /\ 0 <= 250 <= 300.
Proof.
  split; [|lra]. split; [discriminate|]. repeat constructor; cbn; unfold hc; lra.
Qed.
