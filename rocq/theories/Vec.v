(** Three-dimensional real vectors and 3x3 matrices: the part of
    [named_arrays] ([Cartesian3dVectorArray], [Cartesian3dMatrixArray]) the
    model relies on, one element at a time. *)
From Coq Require Import Reals Lra.
Open Scope R_scope.

Record vec3 := V3 { vx : R; vy : R; vz : R }.

Definition vadd (a b : vec3) : vec3 := V3 (vx a + vx b) (vy a + vy b) (vz a + vz b).
Definition vsub (a b : vec3) : vec3 := V3 (vx a - vx b) (vy a - vy b) (vz a - vz b).
Definition vopp (a : vec3) : vec3 := V3 (- vx a) (- vy a) (- vz a).
Definition vscale (k : R) (a : vec3) : vec3 := V3 (k * vx a) (k * vy a) (k * vz a).
Definition dot (a b : vec3) : R := vx a * vx b + vy a * vy b + vz a * vz b.
Definition cross (a b : vec3) : vec3 :=
  V3 (vy a * vz b - vz a * vy b)
     (vz a * vx b - vx a * vz b)
     (vx a * vy b - vy a * vx b).
Definition norm2 (a : vec3) : R := dot a a.
Definition vlen (a : vec3) : R := sqrt (norm2 a).
Definition vzero : vec3 := V3 0 0 0.

(** A vector of length one. *)
Definition is_unit (a : vec3) : Prop := norm2 a = 1.

(** A 3x3 matrix given by its rows. *)
Record mat3 := M3 { mr1 : vec3; mr2 : vec3; mr3 : vec3 }.
Definition mapply (m : mat3) (v : vec3) : vec3 :=
  V3 (dot (mr1 m) v) (dot (mr2 m) v) (dot (mr3 m) v).
Definition mtrans (m : mat3) : mat3 :=
  M3 (V3 (vx (mr1 m)) (vx (mr2 m)) (vx (mr3 m)))
     (V3 (vy (mr1 m)) (vy (mr2 m)) (vy (mr3 m)))
     (V3 (vz (mr1 m)) (vz (mr2 m)) (vz (mr3 m))).
Definition mid : mat3 := M3 (V3 1 0 0) (V3 0 1 0) (V3 0 0 1).
Definition mmul (a b : mat3) : mat3 :=
  let c := mtrans b in
  M3 (V3 (dot (mr1 a) (mr1 c)) (dot (mr1 a) (mr2 c)) (dot (mr1 a) (mr3 c)))
     (V3 (dot (mr2 a) (mr1 c)) (dot (mr2 a) (mr2 c)) (dot (mr2 a) (mr3 c)))
     (V3 (dot (mr3 a) (mr1 c)) (dot (mr3 a) (mr2 c)) (dot (mr3 a) (mr3 c))).

(** Orthogonal matrices: the linear part of a rigid motion. *)
Definition orthogonal (m : mat3) : Prop := mmul (mtrans m) m = mid.
