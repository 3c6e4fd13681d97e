(** The mean of the Monte Carlo model of a sensor. *)
From Coq Require Import Reals List ZArith Sorted.
From Coquelicot Require Import Coquelicot.
From Verif Require Import Num RamanathanModel SensorModel DistSpec.
Import ListNotations.
Open Scope R_scope.

(** Draws with the given uniform numbers for the pairs and for the depth. *)
Definition uniform_draws (x y : R) : photon_draws :=
  mkDraws x (fun mu _ => mu) y (fun n _ => n) 0 0 (fun _ mu _ => mu) (fun _ mu _ => mu).

(** The mean number of electrons that survive out of the pairs made by a photon, with these
    uniform numbers: the mean of the binomial distribution. *)
Definition photon_value (px : mc_pixel) (x y : R) : R :=
  match pair_count px (uniform_draws x y) with
  | Some n => mean (binomial (Z.to_nat n) (collection_probability (px_eta0 px) (px_implant px)
                      (photon_depth (px_absorption px) (px_substrate px) y)))
  | None => 0
  end.

(** Its mean over the two uniform numbers. *)
Definition is_photon_mean (px : mc_pixel) (v : R) : Prop :=
  (forall x y, pair_count px (uniform_draws x y) <> None) /\
  exists u : R -> R, (forall x, 0 < x < 1 -> is_RInt (photon_value px x) 0 1 (u x)) /\ is_RInt u 0 1 v.

(** The mean over a Poisson number of photons, each of mean [m]. *)
Definition is_signal_mean (lambda : R) (px : mc_pixel) (v : R) : Prop :=
  exists m, is_photon_mean px m /\ is_series (fun k => poisson lambda k * (INR k * m)) v.

(** The tables: energies increase up to 50 eV, and all rows have the same length. *)
Definition good_table (tb : pair_table) : Prop :=
  StronglySorted (fun r s => row_energy r < row_energy s) tb /\
  List.Forall (fun r => 0 < row_energy r <= 50 /\
    length (row_0K r) = num_electron tb /\ length (row_100K r) = num_electron tb /\ length (row_300K r) = num_electron tb) tb.
(** One of the three temperatures of the tables. *)
Definition tabulated (T : R) (get : pair_row -> list R) : Prop :=
  (T = 0 /\ get = row_0K) \/ (T = 100 /\ get = row_100K) \/ (T = 300 /\ get = row_300K).
