(** optika/sensors/materials/_materials.py:784-1036, [electrons_measured_approx], for one
    pixel.  Random draws are modelled by their distributions (lists of probability and value,
    [DistSpec]); the gamma distribution, a function of its shape and its scale, is an
    argument.  [None] is NaN or an error of the random generator. *)
From Coq Require Import Reals List ZArith.
From Verif Require Import Num RamanathanModel DistSpec.
Import ListNotations.
Open Scope R_scope.
Open Scope opt_scope.

(** Lines 804-810: [np.modf], and a binomial draw with one trial. *)
Definition discretize (x : R) : dist :=
  let x_int := IZR (int_of x) in
  let x_frac := x - x_int in
  mix (bernoulli x_frac) (fun b => [(1, x_int + b)]).

(** Lines 784-818, [_discrete_gamma].  numpy raises an error for a negative shape or scale. *)
Definition discrete_gamma (gamma : R -> R -> dist) (mean vmr : R) : option dist :=
  if Rlt_dec mean 0 then None
  else if Rlt_dec vmr 0 then None
  else if Req_EM_T vmr 0 then Some (discretize mean)
  else Some (mix (gamma (mean / vmr) vmr) discretize).

(** Lines 992-998 *)
Definition fraction_partial (a W D : R) : option R := odiv (1 - exp (- (a * W))) (1 - exp (- (a * D))).

(** Lines 1005-1006 *)
Definition mean_p (aW n0 : R) : option R :=
  let* s := odiv (1 - n0) aW in
  let* t := odiv (1 - n0) (1 - exp aW) in
  Some (n0 + s + t).
Definition var_p (aW n0 : R) : option R :=
  let* s := odiv 4 (aW * aW) in
  let* t := odiv 1 (sinh (aW / 2) * sinh (aW / 2)) in
  Some ((n0 - 1) * (n0 - 1) * (s - t) / 4).

(** Lines 1008-1016: one photon of which the charge is partially collected. *)
Definition mean_i (mean_n mean_p : R) : R := mean_n * mean_p.
Definition var_i (f mean_n mean_p var_p : R) : R :=
  let var_n := f * mean_n in
  let mean_p2 := mean_p * mean_p in
  let mean_n2 := mean_n * mean_n in
  let var_exp := var_n * var_p + var_n * mean_p2 + var_p * mean_n2 in
  let exp_var := mean_n * (mean_p - (var_p + mean_p2)) in
  var_exp + exp_var.

(** Lines 1018-1025; the quotient is infinite for a mean of zero, and the maximum is [f]. *)
Definition vmr_drawn (mean_partial vmr_partial f : R) : R :=
  if Req_EM_T mean_partial 0 then f else Rmax (vmr_partial - 1 / (6 * mean_partial)) f.

(** Lines 1018-1034, given the number of photons absorbed in the implant layer. *)
Definition electrons_given (gamma : R -> R -> dist) (photons mp vp iqy f partial : R) : option dist :=
  let mi := mean_i iqy mp in
  let mean_partial := partial * mi in
  let* vmr_partial := odiv (var_i f iqy mp vp) mi in
  let* electrons_partial := discrete_gamma gamma mean_partial (vmr_drawn mean_partial vmr_partial f) in
  let* electrons_complete := discrete_gamma gamma ((photons - partial) * iqy) f in
  Some (conv electrons_complete electrons_partial).

(** A draw, followed by a draw that depends on it and may fail. *)
Fixpoint omix (d : dist) (next : R -> option dist) : option dist :=
  match d with
  | [] => Some []
  | (p, x) :: rest => let* e := next x in let* t := omix rest next in Some (weigh p e ++ t)
  end.

(** Lines 823-1036 with [iqy] and [fano_factor] given; numpy raises an error for a
    probability that is not in [0, 1]. *)
Definition electrons_measured_approx (gamma : R -> R -> dist) (photons : nat) (a W D n0 iqy f : R) : option dist :=
  let* p := fraction_partial a W D in
  if Rlt_dec p 0 then None
  else if Rlt_dec 1 p then None
  else
    let* mp := mean_p (a * W) n0 in
    let* vp := var_p (a * W) n0 in
    omix (binomial photons p) (electrons_given gamma (INR photons) mp vp iqy f).
