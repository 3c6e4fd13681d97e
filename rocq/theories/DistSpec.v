(** Finite probability distributions, sums of independent variables, Poisson mixtures. *)
From Coq Require Import Reals List Factorial.
From Coquelicot Require Import Coquelicot.
From Verif Require Import Num.
Import ListNotations.
Open Scope R_scope.

(** A list of (probability, value). *)
Definition dist := list (R * R).
Definition expect (f : R -> R) (d : dist) : R := rsum (map (fun pv => fst pv * f (snd pv)) d).
Definition mean (d : dist) : R := expect (fun x => x) d.
Definition variance (d : dist) : R := expect (fun x => (x - mean d) ^ 2) d.
Definition is_dist (d : dist) : Prop := List.Forall (fun pv => 0 <= fst pv) d /\ expect (fun _ => 1) d = 1.

(** The sum of a value of [d] and an independent value of [e]. *)
Definition conv (d e : dist) : dist :=
  flat_map (fun pv => map (fun qw => (fst pv * fst qw, snd pv + snd qw)) e) d.
(** The sum of [k] independent values of [d]. *)
Fixpoint iid_sum (k : nat) (d : dist) : dist :=
  match k with O => [(1, 0)] | S k => conv d (iid_sum k d) end.

(** Each of [n] electrons survives, independently, with probability [h]. *)
Definition bernoulli (h : R) : dist := [(h, 1); (1 - h, 0)].
Definition binomial (n : nat) (h : R) : dist := iid_sum n (bernoulli h).

(** First draw from [d], then from the distribution given by the drawn value. *)
Definition weigh (p : R) (d : dist) : dist := map (fun qw => (p * fst qw, snd qw)) d.
Definition mix {A} (d : list (R * A)) (next : A -> dist) : dist := flat_map (fun pa => weigh (fst pa) (next (snd pa))) d.

(** The electrons measured for one photon: a number of pairs drawn from [pairs], a
    collection efficiency drawn independently from [efficiencies], then thinning. *)
Definition thinned (pairs : list (R * nat)) (efficiencies : dist) : dist :=
  mix pairs (fun n => mix efficiencies (fun h => binomial n h)).
Definition counts (pairs : list (R * nat)) : dist := map (fun pn => (fst pn, INR (snd pn))) pairs.

(** The Poisson distribution, and the mean and variance of a sum of a Poisson number of
    independent values of [d]. *)
Definition poisson (lambda : R) (k : nat) : R := exp (- lambda) * (lambda ^ k / INR (fact k)).
Definition is_compound_expect (lambda : R) (d : dist) (f : R -> R) (v : R) : Prop :=
  is_series (fun k => poisson lambda k * expect f (iid_sum k d)) v.
Definition is_compound_vmr (lambda : R) (d : dist) (v : R) : Prop :=
  exists m s, is_compound_expect lambda d (fun x => x) m /\
    is_compound_expect lambda d (fun x => (x - m) ^ 2) s /\ m <> 0 /\ v = s / m.
