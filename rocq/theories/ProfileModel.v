(** optika/materials/profiles.py: interface profiles. *)
From Coq Require Import Reals.
From Coquelicot Require Import Coquelicot.
From Verif Require Import Num ComplexModel.
Open Scope R_scope.
Open Scope opt_scope.

(** The four classes, each with its attribute [width]. *)
Inductive interface_profile :=
| Erf (width : R)          (* profiles.py:130-222 *)
| Exponential (width : R)  (* profiles.py:226-324 *)
| Linear (width : R)       (* profiles.py:328-430 *)
| Sinus (width : R).       (* profiles.py:434-541 *)

(** scipy.special.erf *)
Definition erf (x : R) : R := 2 / sqrt PI * RInt (fun t => exp (- t ^ 2)) 0 x.

(** profiles.py:526, 536 *)
Definition sinus_a : R := PI / (PI ^ 2 - 8).

(** [__call__]: profiles.py:213-219, 312-318, 415-422, 523-530. *)
Definition profile_call (p : interface_profile) (z : R) : option R :=
  match p with
  | Erf width =>
      let* x := odiv z (sqrt 2 * width) in Some ((1 + erf x) / 2)
  | Exponential width =>
      let sgn_z := rsign z in
      let* y := odiv (- sgn_z * sqrt 2 * z) width in
      Some ((1 + sgn_z - sgn_z * exp y) / 2)
  | Linear width =>
      let* y := odiv z (2 * sqrt 3 * width) in
      Some (Rmin 1 (Rmax (1 / 2 + y) 0))
  | Sinus width =>
      let z := Rmin (sinus_a * width) (Rmax z (- sinus_a * width)) in
      let* y := odiv (PI * z) (2 * sinus_a * width) in
      Some (1 / 2 + sin y / 2)
  end.

(** [_derivative_fourier_transform]: profiles.py:221-222, 320-324, 424-430, 532-541.
    Every number is in the same unit; see [linear_dft_units] for what the attribute
    [.value] in line 429 does otherwise. *)
Definition profile_dft (p : interface_profile) (s : R) : option R :=
  match p with
  | Erf width => Some (exp (- (s * width) ^ 2 / 2))
  | Exponential width => odiv 1 (1 + (s * width) ^ 2 / 2)
  | Linear width =>
      let x := sqrt 3 * width * s in odiv (sin x) x
  | Sinus width =>
      let x := sinus_a * width * s in
      let x1 := x - PI / 2 in
      let x2 := x + PI / 2 in
      let* y1 := odiv (sin x1) x1 in
      let* y2 := odiv (sin x2) x2 in
      Some (PI * (y1 + y2) / 4)
  end.

(** profiles.py:428-429 with units: a quantity is a number and the size of its unit, and
    [x.value] is the number without the size of the unit of the product. *)
Definition linear_dft_units (width unit_width s unit_s : R) : option R :=
  let x_value := sqrt 3 * width * s in
  odiv (sin x_value) (x_value * (unit_width * unit_s)).

(** [reflectivity]: profiles.py:103-126 *)
Definition profile_reflectivity (p : interface_profile) (wavelength : R) (direction n : C) : option R :=
  let* k := cdiv (RtoC (-2 * PI) * n * direction)%C (RtoC wavelength) in
  let s := Re (RtoC (-2) * k)%C in
  profile_dft p s.

(** [transmissivity]: profiles.py:67-101 *)
Definition profile_transmissivity (p : interface_profile) (wavelength : R)
    (direction_before direction_after n_before n_after : C) : option R :=
  let* k_before := cdiv (RtoC (-2 * PI) * n_before * direction_before)%C (RtoC wavelength) in
  let* k_after := cdiv (RtoC (-2 * PI) * n_after * direction_after)%C (RtoC wavelength) in
  let s := Re (k_after - k_before)%C in
  profile_dft p s.
