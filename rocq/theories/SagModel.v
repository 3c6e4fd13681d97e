(** optika/sags: sag, normal and intercept of each class, for one point or ray.
    Radii and focal lengths are finite and non-zero here (a zero radius gives
    [None]); infinite radii are treated in [SagInfModel]. *)
From Coq Require Import Reals.
From Verif Require Import Vec Num RayModel SurfaceModel.
Open Scope R_scope.
Open Scope opt_scope.

Definition ray_at (o u : vec3) (t : R) : vec3 := vadd o (vscale t u).

(** ** optika/sags/_flat.py *)
(** _flat.py:26-39, without a transformation *)
Definition flat_z (x y : R) : option R := Some 0.
(** _flat.py:41-45 *)
Definition flat_normal (p : vec3) : option vec3 := Some (V3 0 0 (-1)).
(** _flat.py:47-64, without a transformation *)
Definition flat_intercept (o u : vec3) : option vec3 :=
  let* d := odiv (- vz o) (vz u) in
  Some (vadd o (vscale d u)).

(** ** optika/sags/_spherical.py *)
(** _spherical.py:100-123 *)
Definition sphere_z (r x y : R) : option R :=
  let* c := odiv 1 r in
  let r2 := x * x + y * y in
  let* s := osqrt (1 - c * c * r2) in
  odiv (c * r2) (1 + s).
(** _spherical.py:125-146 *)
Definition sphere_normal (r : R) (p : vec3) : option vec3 :=
  let* c := odiv 1 r in
  let nx := c * vx p in
  let ny := c * vy p in
  let* s := osqrt (1 - nx * nx - ny * ny) in
  Some (V3 nx ny (- s)).
(** _spherical.py:148-191 *)
Definition sphere_intercept (r : R) (o u : vec3) : option vec3 :=
  let p := V3 (vx o) (vy o) (vz o - r) in
  let up := vx u * vx p + vy u * vy p + vz u * vz p in
  let* s := osqrt (up * up - (vx p * vx p + vy p * vy p + vz p * vz p - r * r)) in
  Some (vadd o (vscale (- up - rsign (r * vz u) * s) u)).

(** ** optika/sags/_conic.py *)
(** _conic.py:31-48 *)
Definition conic_z (r k x y : R) : option R :=
  let* c := odiv 1 r in
  let r2 := x * x + y * y in
  let* s := osqrt (1 - (1 + k) * (c * c) * r2) in
  odiv (c * r2) (1 + s).
(** _conic.py:50-75 *)
Definition conic_normal (r k : R) (p : vec3) : option vec3 :=
  let* c := odiv 1 r in
  let* g := osqrt (1 - (1 + k) * (c * c) * (vx p * vx p + vy p * vy p)) in
  let* dzdx := odiv (c * vx p) g in
  let* dzdy := odiv (c * vy p) g in
  let result := V3 dzdx dzdy (-1) in
  let* q := odiv 1 (vlen result) in
  Some (vscale q result).

(** _conic.py:130-132: the coefficients of the quadratic. *)
Definition conic_a (c k : R) (u : vec3) : R :=
  c * (vx u * vx u + vy u * vy u + (1 + k) * (vz u * vz u)).
Definition conic_b (c k : R) (o u : vec3) : R :=
  2 * (c * (vx o * vx u + vy o * vy u + (1 + k) * vz o * vz u) - vz u).
Definition conic_cc (c k : R) (o : vec3) : R :=
  c * (vx o * vx o + vy o * vy o + (1 + k) * (vz o * vz o)) - 2 * vz o.
Definition conic_disc (c k : R) (o u : vec3) : R :=
  conic_b c k o u * conic_b c k o u - 4 * conic_a c k u * conic_cc c k o.

(** _conic.py:140; lengths in the unit of [radius]. *)
Definition conic_degenerate (c k : R) (u : vec3) : bool :=
  if Rlt_dec (Rabs (conic_a c k u)) (1 / 10 ^ 12) then true else false.

(** _conic.py:144-154, [root(sign)]; [None] stands for [inf]. *)
Definition conic_root (c k : R) (o u : vec3) (sign : R) : option R :=
  let a := conic_a c k u in
  let b := conic_b c k o u in
  let cc := conic_cc c k o in
  let disc := conic_disc c k o u in
  let* s := if Rle_dec 0 disc then Some (sqrt disc) else None in
  let* t := if conic_degenerate c k u then odiv (- cc) b else odiv (- b + sign * s) (2 * a) in
  let q := ray_at o u t in
  let r2 := vx q * vx q + vy q * vy q in
  if Rle_dec 0 (vz q * (c * r2 - vz q)) then Some t else None.

(** _conic.py:160-162: the nearer of the two valid roots; [inf <= inf] picks the
    first, whose position is not finite. *)
Definition conic_t (c k : R) (o u : vec3) : option R :=
  match conic_root c k o u (-1), conic_root c k o u 1 with
  | Some ta, Some tb => if Rle_dec (Rabs ta) (Rabs tb) then Some ta else Some tb
  | Some ta, None => Some ta
  | None, tb => tb
  end.
(** _conic.py:77-170 *)
Definition conic_intercept (r k : R) (o u : vec3) : option vec3 :=
  let* c := odiv 1 r in
  let* t := conic_t c k o u in
  Some (ray_at o u t).

(** ** optika/sags/_parabolic.py; [radius] is twice the focal length and the
    conic constant is -1 (lines 32-38), the sag is inherited. *)
Definition parabola_z (f x y : R) : option R := conic_z (2 * f) (-1) x y.
(** _parabolic.py:40-63 *)
Definition parabola_normal (f : R) (p : vec3) : option vec3 :=
  let r := 2 * f in
  let* a := odiv (vx p) r in
  let* b := odiv (vy p) r in
  let s := sqrt (a * a + b * b + 1) in
  let* q := odiv 1 s in
  let* q' := odiv 1 r in
  Some (V3 (vx p * q * q') (vy p * q * q') (- r * q * q')).
(** _parabolic.py:65-158 *)
Definition parabola_intercept (f : R) (o u : vec3) : option vec3 :=
  let ox := vx o in let oy := vy o in let oz := vz o in
  let ux := vx u in let uy := vy u in let uz := vz u in
  let* d :=
    if Rlt_dec (1 / 10 ^ 10) (ux * ux + uy * uy) then
      let* s := osqrt (- ((oy * ux) * (oy * ux)) - (ox * uy) * (ox * uy)
                       + 2 * oy * uy * (ox * ux - 2 * f * uz)
                       + 4 * f * (oz * (ux * ux + uy * uy) - ox * ux * uz + f * (uz * uz))) in
      odiv (- ox * ux - oy * uy + 2 * f * uz - rsign (f * uz) * s) (ux * ux + uy * uy)
    else odiv (ox * ox + oy * oy - 4 * f * oz) (4 * f * uz) in
  Some (vadd o (vscale d u)).

(** ** optika/sags/_cylindrical.py *)
(** _cylindrical.py:75-91 *)
Definition cylinder_z (r x y : R) : option R :=
  let* c := odiv 1 r in
  let r2 := x * x in
  let* s := osqrt (1 - c * c * r2) in
  odiv (c * r2) (1 + s).
(** _cylindrical.py:93-113 *)
Definition cylinder_normal (r : R) (p : vec3) : option vec3 :=
  let* nx := odiv (vx p) r in
  let* s := osqrt (1 - nx * nx) in
  Some (V3 nx 0 (- s)).
(** _cylindrical.py:115-160 *)
Definition cylinder_intercept (r : R) (o n : vec3) : option vec3 :=
  let b := vsub (V3 0 0 r) o in
  let a := V3 0 1 0 in
  let na := cross n a in
  let na2 := dot na na in
  let negative_b := dot na (cross b a) in
  let disc := na2 * (r * r) - dot b na * dot b na in
  let sgn := rsign (r * vz n) in
  let* d := if Rlt_dec 0 disc then odiv (negative_b - sgn * sqrt disc) na2
            else odiv (- vz o) (vz n) in
  Some (vadd o (vscale d n)).

(** ** optika/sags/_toroidal.py; [r] is [radius_of_rotation]. *)
(** _toroidal.py:38-57 *)
Definition torus_z (radius r x y : R) : option R :=
  let* c := odiv 1 radius in
  let* s := osqrt (1 - c * c * (y * y)) in
  let* zy := odiv (c * (y * y)) (1 + s) in
  let* w := osqrt ((r - zy) * (r - zy) - x * x) in
  Some (r - w).
(** _toroidal.py:59-88 *)
Definition torus_normal (radius r : R) (p : vec3) : option vec3 :=
  let x := vx p in let y := vy p in
  let* c := odiv 1 radius in
  let* g := osqrt (1 - c * c * (y * y)) in
  let* zy := odiv (c * (y * y)) (1 + g) in
  let* f := osqrt ((r - zy) * (r - zy) - x * x) in
  let* dzdx := odiv x f in
  let* dzydy := odiv (c * y) g in
  let* dzdy := odiv ((r - zy) * dzydy) f in
  let result := V3 dzdx dzdy (-1) in
  let* q := odiv 1 (vlen result) in
  Some (vscale q result).

(** ** The classes together. *)
Inductive sag_class :=
| NoSag
| SphericalSag (radius : R)
| ConicSag (radius conic : R)
| ParabolicSag (focal_length : R)
| CylindricalSag (radius : R)
| ToroidalSag (radius radius_of_rotation : R).

Definition class_z (s : sag_class) : R -> R -> option R :=
  match s with
  | NoSag => flat_z
  | SphericalSag r => sphere_z r
  | ConicSag r k => conic_z r k
  | ParabolicSag f => parabola_z f
  | CylindricalSag r => cylinder_z r
  | ToroidalSag r r' => torus_z r r'
  end.
Definition class_normal (s : sag_class) : vec3 -> option vec3 :=
  match s with
  | NoSag => flat_normal
  | SphericalSag r => sphere_normal r
  | ConicSag r k => conic_normal r k
  | ParabolicSag f => parabola_normal f
  | CylindricalSag r => cylinder_normal r
  | ToroidalSag r r' => torus_normal r r'
  end.
(** The toroid inherits the secant search of optika/sags/_abc.py:76-107, which
    is not modelled: [solver] is its result (the path length), any function. *)
Definition class_intercept (solver : vec3 -> vec3 -> option R) (s : sag_class)
    : vec3 -> vec3 -> option vec3 :=
  match s with
  | NoSag => flat_intercept
  | SphericalSag r => sphere_intercept r
  | ConicSag r k => conic_intercept r k
  | ParabolicSag f => parabola_intercept f
  | CylindricalSag r => cylinder_intercept r
  | ToroidalSag r r' => fun o u => omap (ray_at o u) (solver o u)
  end.

(** ** Transformations *)
(** NoSag: _flat.py:31-39.  The [z] of the transformed point. *)
Definition flat_z_t (t : option rigid) (p : vec3) : option R :=
  match t with
  | None => Some 0
  | Some t => let q := rigid_point (rigid_inv t) p in
              Some (vz (rigid_point t (V3 (vx q) (vy q) 0)))
  end.
(** The curved classes move the argument only: _spherical.py:113-123,
    _conic.py:37-48, _cylindrical.py:81-91, _toroidal.py:44-57. *)
Definition sag_z_t (s : sag_class) (t : option rigid) (p : vec3) : option R :=
  match s with
  | NoSag => flat_z_t t p
  | _ => match t with
         | None => class_z s (vx p) (vy p)
         | Some t => let q := rigid_point (rigid_inv t) p in class_z s (vx q) (vy q)
         end
  end.
(** _flat.py:41-45, _spherical.py:134-146, _conic.py:56-75, _parabolic.py:49-63,
    _cylindrical.py:102-113, _toroidal.py:65-88: the argument is moved, the normal
    is not rotated back. *)
Definition sag_normal_t (s : sag_class) (t : option rigid) (p : vec3) : option vec3 :=
  match t with
  | None => class_normal s p
  | Some t => class_normal s (rigid_point (rigid_inv t) p)
  end.
(** _flat.py:52-64, _spherical.py:153-191, _conic.py:120-170,
    _parabolic.py:121-158, _cylindrical.py:120-160.  The inherited search of the
    toroid (_abc.py:76-107) does not move the ray. *)
Definition sag_intercept_t (solver : vec3 -> vec3 -> option R) (s : sag_class)
    (t : option rigid) (o u : vec3) : option vec3 :=
  match s, t with
  | ToroidalSag _ _, _ | _, None => class_intercept solver s o u
  | _, Some t =>
      omap (rigid_point t)
        (class_intercept solver s (rigid_point (rigid_inv t) o) (rigid_vector (rigid_inv t) u))
  end.

(** The sag as used by a surface. *)
Definition make_sag (solver : vec3 -> vec3 -> option R) (s : sag_class) (t : option rigid) : sag :=
  mkSag (sag_intercept_t solver s t) (sag_normal_t s t).
