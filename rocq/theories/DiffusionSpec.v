(** What charge diffusion should be. *)
From Coq Require Import Reals ZArith.
From Coquelicot Require Import Coquelicot.
From Verif Require Import SensorSpec.
Open Scope R_scope.

(** The width of the cloud of a photon absorbed at depth [z], for a field-free region of
    thickness [f]. *)
Definition diffusion_width (f z : R) : R := if Rlt_dec z f then f * sqrt (1 - z / f) else 0.

(** The normal distribution of mean [t] and standard deviation [w], and the probability of
    an interval. *)
Definition normal_density (t w u : R) : R := exp (- (u - t) ^ 2 / (2 * w ^ 2)) / (w * sqrt (2 * PI)).
Definition normal_probability (t w lo hi : R) : R := RInt (normal_density t w) lo hi.

(** [k] is the mean, over the positions [t] of a photon in the central pixel of width [d],
    of the probability that its electrons reach pixel [n]. *)
Definition is_pixel_probability (w d : R) (n : Z) (k : R) : Prop :=
  is_RInt (fun t => normal_probability t w ((IZR n - 1 / 2) * d) ((IZR n + 1 / 2) * d)) (- d / 2) (d / 2) (k * d).

(** Sums over the pixels [-N ... N]. *)
Fixpoint centred_sum (k : Z -> R) (N : nat) : R :=
  match N with O => k 0%Z | S M => k (- Z.of_nat N)%Z + centred_sum k M + k (Z.of_nat N) end.
