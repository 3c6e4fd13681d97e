(** optika/_util.py: [direction] and [angles], in radians. *)
From Coq Require Import Reals.
From Verif Require Import Vec Num Trig.
Open Scope R_scope.
Open Scope opt_scope.

(** _util.py:42-72 *)
Definition direction (ax ay : R) : vec3 :=
  V3 (- cos ay * sin ax) (- sin ay) (cos ay * cos ax).

(** _util.py:75-96; the conversion to degrees is not modelled.  numpy.arcsin is NaN outside
    [-1, 1]. *)
Definition oasin (x : R) : option R :=
  if Rle_dec (-1) x then if Rle_dec x 1 then Some (asin x) else None else None.
Definition angles (d : vec3) : option (R * R) :=
  let* q := odiv (vy d) (vlen d) in
  let* e := oasin q in
  Some (- atan2 (vx d) (vz d), - e).
