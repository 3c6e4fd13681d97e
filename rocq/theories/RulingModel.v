(** optika/rulings: spacings and groove efficiencies, for one ray. *)
From Coq Require Import Reals List Bool ZArith.
From Coquelicot Require Import Coquelicot.
From Verif Require Import Vec Num RayModel SurfaceModel MaterialModel.
Import ListNotations.
Open Scope R_scope.
Open Scope opt_scope.

(** [vector.normalized] *)
Definition normalized (v : vec3) : option vec3 :=
  let* q := odiv 1 (vlen v) in Some (vscale q v).

(** ** optika/rulings/_spacing.py *)
(** _spacing.py:44-75 *)
Definition constant_spacing (c : R) (g : vec3) (position normal : vec3) : option vec3 :=
  Some (vscale c g).

(** _spacing.py:78-128.  The dictionary of coefficients is the list of its items;
    negative powers are not modelled. *)
Definition polynomial (coefficients : list (nat * R)) (x : R) : R :=
  fold_left (fun result item => result + snd item * x ^ fst item) coefficients 0.
Definition polynomial_spacing (coefficients : list (nat * R)) (g : vec3) (t : option rigid)
    (position normal : vec3) : option vec3 :=
  let position := match t with None => position | Some t => rigid_point t position end in
  Some (vscale (polynomial coefficients (dot position g)) g).

(** _spacing.py:131-328.  The attribute [transformation] is not used by the code. *)
Definition holographic_spacing (x1 x2 : vec3) (wavelength : R) (d1 d2 : bool) (t : option rigid)
    (position normal : vec3) : option vec3 :=
  let s1 := 2 * (if d1 then 1 else 0) - 1 in
  let s2 := 2 * (if d2 then 1 else 0) - 1 in
  let* r1 := normalized (vsub position x1) in
  let* r2 := normalized (vsub position x2) in
  let dr := vsub (vscale s1 r1) (vscale s2 r2) in
  let aq := cross normal dr in
  let a := vlen aq in
  let* q := odiv 1 a in
  Some (vscale (wavelength * q) (cross (vscale q aq) normal)).

(** _rulings.py:153-166, [spacing_]: a plain number is a constant spacing along x. *)
Definition default_spacing (c : R) : vec3 -> vec3 -> option vec3 := constant_spacing c (V3 1 0 0).

(** ** optika/rulings/_rulings.py: efficiencies *)
(** The profiles of _rulings.py:224-1073. *)
Inductive profile :=
| Ideal
| Measured (nodes : list (R * R))
| Sinusoidal (depth : R)
| Square (depth : R)
| Sawtooth (depth : R)
| Triangular (depth : R)
| RectangularGroove (depth ratio_duty : R).

(** The cosine used by every profile (_rulings.py:441-449, 588-596, 741-749, 888-896,
    1048-1056): [direction - direction @ parallel_rulings] subtracts the SCALAR product
    from all three components. *)
Definition groove_cosine (kappa normal direction : vec3) : option R :=
  let* normal_rulings := normalized kappa in
  let* parallel_rulings := normalized (cross normal normal_rulings) in
  let s := dot direction parallel_rulings in
  let direction := V3 (vx direction - s) (vy direction - s) (vz direction - s) in
  Some (dot (vopp direction) normal).

(** scipy.special.jv of integer order, by Bessel's integral. *)
Definition bessel (n : Z) (x : R) : R := RInt (fun t => cos (IZR n * t - x * sin t)) 0 PI / PI.

Definition square (x : R) : R := x * x.

(** The efficiencies: 450-457, 597-614, 750-758, 897-911, 1057-1073.  [i] is the order. *)
Definition profile_efficiency (p : profile) (i : Z) (wavelength cos_theta : R) : option R :=
  match p with
  | Ideal => Some 1
  | Measured nodes => interp wavelength nodes
  | Sinusoidal depth =>
      let* gamma := odiv (PI * depth) (wavelength * cos_theta) in
      Some (bessel i (2 * gamma))
  | Square depth =>
      let* d := odiv depth (PI / 4) in
      let* gamma := odiv (PI * d) (wavelength * cos_theta) in
      if Z.eqb i 0 then Some (square (cos (PI * gamma / 2))) else
      if Z.eqb (i mod 2) 0 then Some 0 else
      let* q := odiv (2 * sin (PI * gamma / 2)) (IZR i * PI) in Some (square q)
  | Sawtooth depth =>
      let* d := odiv depth (PI / 2) in
      let* gamma := odiv (PI * d) (wavelength * cos_theta) in
      let* q := odiv (sin (PI * gamma)) (PI * (gamma + IZR i)) in Some (square q)
  | Triangular depth =>
      let* d := odiv depth (square PI / 8) in
      let* gamma := odiv (PI * d) (wavelength * cos_theta) in
      let* a := odiv gamma (square (PI * gamma / 2) + square (IZR i)) in
      if Z.eqb (i mod 2) 0 then Some (square (a * sin (square PI * gamma / 4)))
      else Some (square (a * cos (square PI * gamma / 4)))
  | RectangularGroove depth ratio_duty =>
      let a := 2 * PI * ratio_duty in
      let* amplitude := odiv PI (2 * sqrt (2 * (1 - cos a))) in
      let* d := odiv depth amplitude in
      let* gamma := odiv (PI * d) (wavelength * cos_theta) in
      let* y := odiv (PI * gamma) (sqrt (2 * (1 - cos a))) in
      let b := square (sin y) in
      if Z.eqb i 0 then Some (1 - (2 * a / PI - square (a / PI)) * b)
      else let* q := odiv 2 (square (IZR i * PI)) in
           Some (q * (1 - cos (IZR i * a)) * b)
  end.

(** [Rulings.efficiency] does not read the spacing; the others do. *)
Definition uses_angle (p : profile) : bool :=
  match p with Ideal | Measured _ => false | _ => true end.

(** [efficiency] of a set of rulings *)
Definition rulings_efficiency (p : profile) (i : Z) (spacing : vec3 -> vec3 -> option vec3)
    (r : ray) (normal : option vec3) : option R :=
  if uses_angle p then
    let* x := r_position r in
    let* d := r_direction r in
    let* u := normal in
    let* kappa := spacing x u in
    let* c := groove_cosine kappa u d in
    profile_efficiency p i (r_wavelength r) c
  else profile_efficiency p i (r_wavelength r) 1.

(** A set of rulings as used by a surface. *)
Definition make_rulings (p : profile) (i : Z) (spacing : vec3 -> vec3 -> option vec3) : rulings :=
  mkRulings (IZR i) spacing (rulings_efficiency p i spacing).
