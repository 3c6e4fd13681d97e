(** The textbook description of lossless coatings: angles, phases and characteristic matrices. *)
From Coq Require Import Reals List Arith.
From Coquelicot Require Import Coquelicot.
From Verif Require Import LayerModel.
Import ListNotations.
Open Scope R_scope.

(** A transparent plate: its index, the angle of the wave in it, and the phase it adds to the wave. *)
Record plate := mkPlate { pl_n : R; pl_angle : R; pl_phase : R }.

(** A medium of index [n] in which a wave with the conserved component [k] makes the angle [th] with the normal. *)
Definition wave_angle (k n th : R) : Prop := 0 < n /\ 0 <= th < PI / 2 /\ n * sin th = k.

(** A layer is such a plate for light of this wavelength. *)
Definition is_plate (wavelength k : R) (l : layer) (p : plate) : Prop :=
  layer_n l wavelength = RtoC (pl_n p) /\ ly_interface l = None /\ 0 <= ly_thickness l /\
  wave_angle k (pl_n p) (pl_angle p) /\
  pl_phase p = 2 * PI * (pl_n p * cos (pl_angle p) * ly_thickness l) / wavelength.

(** The ratio of the tangential magnetic and electric fields of a wave (s), or its inverse up to units (p). *)
Definition tilted (s : bool) (n th : R) : R := if s then n * cos th else cos th / n.
Definition plate_tilted (s : bool) (p : plate) : R := tilted s (pl_n p) (pl_angle p).

(** The two tangential fields in front of the plates when those behind them are 1 and [q]: the product of
    the characteristic matrices. *)
Fixpoint front_fields (s : bool) (q : R) (plates : list plate) : C * C :=
  match plates with
  | [] => (RtoC 1, RtoC q)
  | p :: rest =>
      let '(E, H) := front_fields s q rest in
      let y := plate_tilted s p in
      let c := RtoC (cos (pl_phase p)) in
      let d := (Ci * RtoC (sin (pl_phase p)))%C in
      ((c * E - d * H / RtoC y)%C, (c * H - d * RtoC y * E)%C)
  end.

(** A plate of [m] quarter waves. *)
Definition quarters (p : plate) (m : nat) : Prop := pl_phase p = INR m * (PI / 2).

(** What plates of whole numbers [m] of quarter waves make of the ratio [q] behind them: an odd one inverts it. *)
Fixpoint quarter_waves (s : bool) (q : R) (plates : list plate) (ms : list nat) : R :=
  match plates, ms with
  | p :: plates, m :: ms =>
      let q := quarter_waves s q plates ms in
      if Nat.even m then q else plate_tilted s p ^ 2 / q
  | _, _ => q
  end.

(** The fractions reflected and transmitted where the ratio changes from [q0] to [q]. *)
Definition step_reflects (q0 q : R) : R := ((q0 - q) / (q0 + q)) ^ 2.
Definition step_transmits (q0 q : R) : R := 4 * q0 * q / (q0 + q) ^ 2.
