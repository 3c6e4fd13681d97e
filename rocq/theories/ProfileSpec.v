(** What an interface profile should be, in terms of real functions only. *)
From Coq Require Import Reals.
From Coquelicot Require Import Coquelicot.
From Verif Require Import ProfileModel.
Open Scope R_scope.

(** The width of a profile, whatever its class. *)
Definition width_of (p : interface_profile) : R :=
  match p with Erf w => w | Exponential w => w | Linear w => w | Sinus w => w end.

(** A transition from 0 to 1: never decreasing, between 0 and 1, one half at the
    interface, antisymmetric about it, and with the two media as limits. *)
Record transition (f : R -> R) : Prop := {
  tr_monotone : forall a b, a <= b -> f a <= f b;
  tr_range : forall z, 0 <= f z <= 1;
  tr_centre : f 0 = 1 / 2;
  tr_antisymmetric : forall z, f (- z) = 1 - f z;
  tr_below : forall eps, 0 < eps -> exists Z, forall z, z <= Z -> f z < eps;
  tr_above : forall eps, 0 < eps -> exists Z, forall z, Z <= z -> 1 - eps < f z
}.

(** [v] is the Fourier transform of the derivative of [f] at frequency [s]: the integrals of
    f' cos and f' sin over (-z, z) exist, the first tends to [v] and the second is zero. *)
Definition fourier_of_derivative (f : R -> R) (s v : R) : Prop :=
  forall eps, 0 < eps -> exists Z, forall z, Z <= z ->
    exists c,
      is_RInt (V := R_NormedModule) (fun t => Derive f t * cos (s * t)) (- z) z c /\
      is_RInt (V := R_NormedModule) (fun t => Derive f t * sin (s * t)) (- z) z 0 /\
      Rabs (c - v) < eps.

(** [v] is the variance of the transition: the integral of z^2 f'. *)
Definition variance_of_derivative (f : R -> R) (v : R) : Prop :=
  forall eps, 0 < eps -> exists Z, forall z, Z <= z ->
    exists c,
      is_RInt (V := R_NormedModule) (fun t => Derive f t * t ^ 2) (- z) z c /\
      Rabs (c - v) < eps.

(** The sinusoidal profile of the documentation, profiles.py:441-451: the sine reaches the
    media at [a] widths from the interface. *)
Definition documented_a : R := PI / sqrt (PI ^ 2 - 8).

Definition documented_sinus (width z : R) : R :=
  if Rlt_dec z (- (documented_a * width)) then 0
  else if Rlt_dec (documented_a * width) z then 1
  else 1 / 2 + 1 / 2 * sin (PI * z / (2 * documented_a * width)).
