(** Model of optika/materials/_snells_law.py: the vector form of Snell's law. *)
From Coq Require Import Reals.
From Verif Require Import Vec Num.
Open Scope R_scope.
Open Scope opt_scope.

(** optika/materials/_snells_law.py:350-362, [_snells_law_numba]: the square-root
    argument [1 / r2 + au2 - a2]. *)
Definition snell_radicand (a : vec3) (n1 n2 : R) (u : vec3) : R :=
  let a2 := dot a a in
  let r := n1 / n2 in
  let r2 := r * r in
  let au := dot a u in
  1 / r2 + au * au - a2.

(** optika/materials/_snells_law.py:303-366, [_snells_law_numba], and the wrapper
    [snells_law], lines 271-291, which only strips units.
    Simplifications: real arithmetic; [None] models the NaN of [math.sqrt] of a
    negative number and the non-finite results of a zero index; [copysign(1, au)]
    takes a zero [au] as +0. *)
Definition snells_law (a : vec3) (n1 n2 : R) (is_mirror : bool) (u : vec3) : option vec3 :=
  if Req_EM_T n1 0 then None else
  if Req_EM_T n2 0 then None else
  let r := n1 / n2 in
  let au := dot a u in
  let sgn := - copysign1 au in
  let m := if is_mirror then 1 else 0 in
  let* s := osqrt (snell_radicand a n1 n2 u) in
  let d := - au + sgn * (2 * m - 1) * s in
  Some (V3 (r * (vx a + d * vx u)) (r * (vy a + d * vy u)) (r * (vz a + d * vz u))).

(** optika/materials/_snells_law.py:271-272: the default normal. *)
Definition default_normal : vec3 := V3 0 0 (-1).
