(** optika/sags with an infinite radius, the default of SphericalSag
    (_spherical.py:60) and of ConicSag (_conic.py:196), in the arithmetic of [ExtNum].
    The ray and the point are finite; [r] (and the focal length) may be infinite.
    No transformation. *)
From Coq Require Import Reals Bool.
From Verif Require Import Vec Num ExtNum.
Open Scope R_scope.

Declare Scope ext_scope.
Delimit Scope ext_scope with E.
Notation "a + b" := (eadd a b) : ext_scope.
Notation "a - b" := (esub a b) : ext_scope.
Notation "a * b" := (emul a b) : ext_scope.
Notation "a / b" := (ediv a b) : ext_scope.
Notation "- a" := (eopp a) : ext_scope.

Record evec := EV { ex : ext; ey : ext; ez : ext }.
Definition fin (p : vec3) : evec := EV (Fin (vx p)) (Fin (vy p)) (Fin (vz p)).

Definition esq (a : ext) : ext := emul a a.
(** o + u * t *)
Definition epos (o u : evec) (t : ext) : evec :=
  EV (ex o + ex u * t)%E (ey o + ey u * t)%E (ez o + ez u * t)%E.

(** _spherical.py:100-123 and _conic.py:31-48; the sphere has kp1 = 1. *)
Definition e_conic_z (r kp1 x y : ext) : ext :=
  let c := (Fin 1 / r)%E in
  let r2 := (esq x + esq y)%E in
  let s := esqrt (Fin 1 - kp1 * esq c * r2)%E in
  (c * r2 / (Fin 1 + s))%E.
Definition e_sphere_z (r x y : ext) : ext :=
  let c := (Fin 1 / r)%E in
  let r2 := (esq x + esq y)%E in
  let s := esqrt (Fin 1 - esq c * r2)%E in
  (c * r2 / (Fin 1 + s))%E.
(** _spherical.py:125-146 *)
Definition e_sphere_normal (r : ext) (p : evec) : evec :=
  let c := (Fin 1 / r)%E in
  let nx := (c * ex p)%E in
  let ny := (c * ey p)%E in
  EV nx ny (- esqrt (Fin 1 - esq nx - esq ny))%E.
(** _spherical.py:148-191 *)
Definition e_sphere_intercept (r : ext) (o u : evec) : evec :=
  let px := ex o in let py := ey o in let pz := (ez o - r)%E in
  let up := (ex u * px + ey u * py + ez u * pz)%E in
  let p2 := (esq px + esq py + esq pz)%E in
  let s := esqrt (esq up - (p2 - esq r))%E in
  epos o u (- up - esign (r * ez u) * s)%E.
(** _conic.py:50-75 *)
Definition e_conic_normal (r kp1 : ext) (p : evec) : evec :=
  let c := (Fin 1 / r)%E in
  let g := esqrt (Fin 1 - kp1 * esq c * (esq (ex p) + esq (ey p)))%E in
  let dx := (c * ex p / g)%E in
  let dy := (c * ey p / g)%E in
  let l := esqrt (esq dx + esq dy + Fin 1)%E in
  EV (dx / l)%E (dy / l)%E (Fin (-1) / l)%E.
(** _conic.py:77-170 *)
Definition e_conic_intercept (r kp1 : ext) (o u : evec) : evec :=
  let c := (Fin 1 / r)%E in
  let a := (c * (esq (ex u) + esq (ey u) + kp1 * esq (ez u)))%E in
  let b := (Fin 2 * (c * (ex o * ex u + ey o * ey u + kp1 * ez o * ez u) - ez u))%E in
  let cc := (c * (esq (ex o) + esq (ey o) + kp1 * esq (ez o)) - Fin 2 * ez o)%E in
  let disc := (esq b - Fin 4 * a * cc)%E in
  let real := ele (Fin 0) disc in
  let sd := esqrt (if real then disc else Fin 0) in
  let degenerate := elt (eabs a) (Fin (1 / 10 ^ 12)) in
  let den := if degenerate then Fin 1 else (Fin 2 * a)%E in
  let t_linear := (- cc / b)%E in
  let root sign :=
    let t := if degenerate then t_linear else ((- b + Fin sign * sd) / den)%E in
    let q := epos o u t in
    let r2 := (esq (ex q) + esq (ey q))%E in
    let sheet := ele (Fin 0) (ez q * (c * r2 - ez q))%E in
    if real && sheet then t else Inf false in
  let ta := root (-1) in
  let tb := root 1 in
  epos o u (if ele (eabs ta) (eabs tb) then ta else tb).
(** _cylindrical.py:75-91, 93-113 *)
Definition e_cylinder_z (r x y : ext) : ext :=
  let c := (Fin 1 / r)%E in
  let r2 := esq x in
  (c * r2 / (Fin 1 + esqrt (Fin 1 - esq c * r2)))%E.
Definition e_cylinder_normal (r : ext) (p : evec) : evec :=
  let nx := (ex p / r)%E in EV nx (Fin 0) (- esqrt (Fin 1 - esq nx))%E.
(** _cylindrical.py:115-160: n x a = (-nz, 0 - 0, nx - 0) and b x a with a = (0, 1, 0),
    products by 0 included. *)
Definition e_cross (a b : evec) : evec :=
  EV (ey a * ez b - ez a * ey b)%E (ez a * ex b - ex a * ez b)%E (ex a * ey b - ey a * ex b)%E.
Definition e_dot (a b : evec) : ext := (ex a * ex b + ey a * ey b + ez a * ez b)%E.
Definition e_cylinder_intercept (r : ext) (o n : evec) : evec :=
  let b := EV (Fin 0 - ex o)%E (Fin 0 - ey o)%E (r - ez o)%E in
  let a := EV (Fin 0) (Fin 1) (Fin 0) in
  let na := e_cross n a in
  let na2 := e_dot na na in
  let negative_b := e_dot na (e_cross b a) in
  let disc := (na2 * esq r - esq (e_dot b na))%E in
  let sgn := esign (r * ez n)%E in
  let d := if elt (Fin 0) disc then ((negative_b - sgn * esqrt disc) / na2)%E
           else (- ez o / ez n)%E in
  epos o n d.
