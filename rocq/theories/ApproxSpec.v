(** Specification of the approximate distribution of measured electrons. *)
From Coq Require Import Reals List ZArith.
From Verif Require Import Num DistSpec.
Open Scope R_scope.

(** A distribution with the mean and the variance of the gamma distribution, on numbers that
    are not negative. *)
Definition like_gamma (gamma : R -> R -> dist) : Prop :=
  forall shape scale, 0 <= shape -> 0 < scale ->
    is_dist (gamma shape scale) /\ List.Forall (fun pv => 0 <= snd pv) (gamma shape scale) /\
    mean (gamma shape scale) = shape * scale /\ variance (gamma shape scale) = shape * (scale * scale).

(** Whole numbers of electrons. *)
Definition whole (d : dist) : Prop := List.Forall (fun pv => exists n : nat, snd pv = INR n) d.

(** One inside the implant layer, zero below it. *)
Definition in_implant (W z : R) : R := if Rlt_dec z W then 1 else 0.
