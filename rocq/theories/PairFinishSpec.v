(** Pixels of a silicon sensor, and the pairs that an energetic photon makes on average (C104). *)
From Coq Require Import Reals.
From Verif Require Import RamanathanModel PairTableModel.
Open Scope R_scope.

(** The arguments that [electrons_measured] computes, with the tables of the package, for a pixel of some sensor
    and light of some wavelength; [h0], the collection efficiency at the back surface, is a probability. *)
Definition silicon_pixel (px : mc_pixel) : Prop :=
  exists photons w a W Dp D wx wy h0 T, 0 < w /\ 0 <= T <= 300 /\ 0 <= a /\ 0 < D /\ 0 <= h0 <= 1 /\
    measured_pixel shipped photons w a W Dp D wx wy h0 T = Some px.

(** Mean and standard deviation of the number of pairs far above the band gap. *)
Definition pairs_mean (px : mc_pixel) : R := px_energy px / px_energy_pair_inf px.
Definition pairs_deviation (px : mc_pixel) : R := sqrt (px_fano_inf px * pairs_mean px).

(** The depths are drawn from the interval from 0 to 1. *)
Definition uniform_depths (s : mc_slice) : Prop := forall x y j, 0 <= dr_depth (sl_draws s x y j) <= 1.
