(** C103: the tables of pair-production probabilities that the package contains. *)
From Coq Require Import Reals List Lra ZArith.
From Verif Require Import Num ExtNum RamanathanModel SensorSpec SiliconSpec MonteCarloMeanSpec PairTableModel PairTableSpec
  PairTableProofs PairYieldProofs PairDrawProofs PairMethodProofs PairEdgeProofs.
Import ListNotations.
Open Scope R_scope.

(** The energies increase up to 50 eV, the rows have equal lengths, and from 1.2 eV on all of them are
    probabilities that add up to one. *)
Theorem C103_tables : good_table shipped /\
  forall r, In r shipped -> 1.2 <= row_energy r -> distribution (row_0K r) /\ distribution (row_100K r) /\ distribution (row_300K r).
Proof. exact (conj shipped_good shipped_distributions). Qed.
Print Assumptions C103_tables.

(** Energies are those of photons with wavelengths in Angstrom. *)
Theorem C103_energy : forall w, 0 < w -> Rabs (photon_energy w - energy_of w) <= 1 / 10 ^ 12 / w.
Proof. exact photon_energy_defined. Qed.
Print Assumptions C103_energy.

(** So are those that the Monte Carlo method interpolates at every energy from 1.2 eV on and every temperature. *)
Theorem C103_distribution : forall w T, 1.2 <= hc / w ->
  exists p, osequence (map (probability_of_pairs shipped (photon_energy w) T) (seq 0 (num_electron shipped))) = Some p /\
    length p = 20%nat /\ distribution p.
Proof. exact shipped_distribution. Qed.
Print Assumptions C103_distribution.

(** The yield is defined for every photon, and the pairs never take more energy than the photon has. *)
Theorem C103_yield : forall w T, 0 < w -> 0 <= T <= 300 ->
  exists y, quantum_yield_ideal shipped w T = Some y /\ 0 <= y /\ y * energy_bandgap T <= hc / w.
Proof. exact shipped_yield. Qed.
Print Assumptions C103_yield.

(** The Fano factor is at most 0.19 from 1.2 eV on, ... *)
Theorem C103_fano_partial : forall w T, 0 <= T <= 300 -> 1.2 <= hc / w ->
  exists f, fano_factor shipped w T = Some f /\ 0 <= f <= 0.19.
Proof. exact shipped_fano. Qed.
Print Assumptions C103_fano_partial.

(** ... but not defined for photons that make no pairs. *)
Theorem C103_fano_refuted : forall w T, hc / w <= 1.1 -> fano_factor shipped w T = None.
Proof. exact fano_none. Qed.
Print Assumptions C103_fano_refuted.

(** Where the tables end, the energy of a pair meets its law within two per mille at every temperature. *)
Theorem C103_end : forall w T, hc / w = 50 -> 0 <= T <= 300 ->
  exists e, energy_pair shipped w T = Fin e /\ Rabs (e - pair_energy_law (energy_bandgap T)) <= 0.002 * e.
Proof. exact tables_end. Qed.
Print Assumptions C103_end.

(** At every energy from 1.2 to 50 eV and every temperature the mean number of pairs of a photon is by the Monte
    Carlo method the [m] and by the closed form the [y]: they agree within 1.1 per mille.  [c] is the mean
    of the collection efficiency over the depth.  The full claim asks for equality. *)
Theorem C103_methods_partial : forall photons w a W Dp D wx wy h0 T, 0 <= T <= 300 -> 1.2 <= hc / w <= 50 -> 0 < a -> 0 < W <= D ->
  exists px y m c, measured_pixel shipped photons w a W Dp D wx wy h0 T = Some px /\ quantum_yield_ideal shipped w T = Some y /\
    is_truncated_mean a D (collection_probability h0 W) c /\ (forall v, is_photon_mean px v <-> v = m * c) /\
    1 <= m /\ Rabs (y - m) <= 0.0011 * m.
Proof. exact methods_agree. Qed.
Print Assumptions C103_methods_partial.

(** They are not equal between the temperatures of the tables. *)
Theorem C103_methods_refuted : exists w T p y, 1.2 <= hc / w <= 50 /\ 0 <= T <= 300 /\
  osequence (map (probability_of_pairs shipped (photon_energy w) T) (seq 0 (num_electron shipped))) = Some p /\
  quantum_yield_ideal shipped w T = Some y /\ y <> moment1 p.
Proof. exact methods_differ. Qed.
Print Assumptions C103_methods_refuted.

(** A photon of at most 1.1 eV makes no pairs by the closed form and twenty, the most in the tables, by the
    Monte Carlo method, whatever is drawn. *)
Theorem C103_infrared_refuted : forall photons w a W Dp D wx wy h0 T d, 0 < w -> 0 <= T <= 300 -> hc / w <= 1.1 -> 0 <= dr_pair d ->
  quantum_yield_ideal shipped w T = Some 0 /\
  exists px, measured_pixel shipped photons w a W Dp D wx wy h0 T = Some px /\ pair_count px d = Some 20%Z.
Proof. exact infrared_both. Qed.
Print Assumptions C103_infrared_refuted.

(** Photons of 10 eV, of 50 eV and of 1 eV. *)
Example C103_nonvacuous : 1.2 <= hc / (hc / 10) <= 50 /\ hc / (hc / 50) = 50 /\ hc / hc <= 1.1 /\ 0 < hc /\
  (exists r, In r shipped /\ 1.2 <= row_energy r).
Proof.
  assert (H : hc <> 0) by (unfold hc; lra). assert (P : 0 < hc) by (unfold hc; lra).
  replace (hc / (hc / 10)) with 10 by (field; exact H). replace (hc / hc) with 1 by (field; exact H).
  split; [lra|]. split; [field; exact H|]. split; [lra|]. split; [exact P|].
  exists first_row. rewrite first_energy. split; [rewrite shipped_head; right; right; left; reflexivity|lra].
Qed.
