(** optika/sags/_conic.py:77-170 evaluated in binary64 floating point, operation by
    operation, with the bit-exact [SpecFloat] of the standard library (round to nearest,
    ties to even, as numpy does).  No transformation, one ray, all lengths in the unit of
    the radius. *)
From Coq Require Import ZArith Floats.SpecFloat.

Notation f64 := spec_float.
Definition fadd : f64 -> f64 -> f64 := SFadd 53 1024.
Definition fsub : f64 -> f64 -> f64 := SFsub 53 1024.
Definition fmul : f64 -> f64 -> f64 := SFmul 53 1024.
Definition fdiv : f64 -> f64 -> f64 := SFdiv 53 1024.
Definition fsqrt : f64 -> f64 := SFsqrt 53 1024.
Definition fopp : f64 -> f64 := SFopp.
Definition fabs : f64 -> f64 := SFabs.
(** the float nearest to m * 2^e *)
Definition flit (m e : Z) : f64 := binary_normalize 53 1024 m e false.
Definition fnat (m : Z) : f64 := flit m 0.
(** the float literal 1e-12 *)
Definition f_threshold : f64 := fdiv (fnat 1) (fnat (10 ^ 12)).

Declare Scope f64_scope.
Delimit Scope f64_scope with F.
Notation "a + b" := (fadd a b) : f64_scope.
Notation "a - b" := (fsub a b) : f64_scope.
Notation "a * b" := (fmul a b) : f64_scope.
Notation "a / b" := (fdiv a b) : f64_scope.
Notation "- a" := (fopp a) : f64_scope.

Record fvec := FV { fx : f64; fy : f64; fz : f64 }.
Definition fsq (a : f64) : f64 := fmul a a.

Definition f_conic_t (radius conic : f64) (o u : fvec) : f64 :=
  let c := (fnat 1 / radius)%F in
  let kp1 := (fnat 1 + conic)%F in
  let a := (c * (fsq (fx u) + fsq (fy u) + kp1 * fsq (fz u)))%F in
  let b := (fnat 2 * (c * (fx o * fx u + fy o * fy u + kp1 * fz o * fz u) - fz u))%F in
  let cc := (c * (fsq (fx o) + fsq (fy o) + kp1 * fsq (fz o)) - fnat 2 * fz o)%F in
  let disc := (fsq b - fnat 4 * a * cc)%F in
  let real := SFleb (fnat 0) disc in
  let sd := fsqrt (if real then disc else fnat 0) in
  let degenerate := SFltb (fabs a) f_threshold in
  let den := if degenerate then fnat 1 else (fnat 2 * a)%F in
  let t_linear := (- cc / b)%F in
  let root sign :=
    let t := if degenerate then t_linear else ((- b + sign * sd) / den)%F in
    let qx := (fx o + fx u * t)%F in
    let qy := (fy o + fy u * t)%F in
    let qz := (fz o + fz u * t)%F in
    let r2 := (fsq qx + fsq qy)%F in
    let sheet := SFleb (fnat 0) (qz * (c * r2 - qz))%F in
    if (real && sheet)%bool then t else S754_infinity false in
  let ta := root (fnat (-1)) in
  let tb := root (fnat 1) in
  if SFleb (fabs ta) (fabs tb) then ta else tb.

Definition f_conic_intercept (radius conic : f64) (o u : fvec) : fvec :=
  let t := f_conic_t radius conic o u in
  FV (fx o + fx u * t)%F (fy o + fy u * t)%F (fz o + fz u * t)%F.

