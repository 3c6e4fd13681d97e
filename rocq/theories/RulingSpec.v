(** Specifications for rulings. *)
From Coq Require Import Reals List ZArith.
From Coquelicot Require Import Coquelicot.
From Verif Require Import Vec Num RayModel SnellSpec RulingModel.
Open Scope R_scope.

Definition physical (o : option R) : Prop := exists e, o = Some e /\ 0 <= e <= 1.

(** Thin-grating theory: the grooves delay the phase of the wave by [phase t] at position
    [t] of a period of length 2 pi; the power in order [i] is the squared modulus of the
    Fourier coefficient of exp (j phase). *)
Definition order_power (phase : R -> R) (i : Z) : R :=
  square (RInt (fun t => cos (phase t - IZR i * t)) 0 (2 * PI) / (2 * PI)) +
  square (RInt (fun t => sin (phase t - IZR i * t)) 0 (2 * PI) / (2 * PI)).

(** A groove of depth [h] seen at incidence cosine [c] delays a reflected wave between
    [- phi] and [phi], [phi = 2 pi h / (lambda c)]. *)
Definition half_delay (depth wavelength cos_theta : R) : R := 2 * PI * depth / (wavelength * cos_theta).

(** The profiles, of unit amplitude. *)
Definition rectangle_wave (a t : R) : R := if Rlt_dec t a then 1 else -1.
Definition falling_ramp (t : R) : R := 1 - t / PI.
Definition triangle_wave (t : R) : R := if Rlt_dec t PI then 2 * t / PI - 1 else 3 - 2 * t / PI.

Definition unit_shape (p : profile) (t : R) : R :=
  match p with
  | Sinusoidal _ => sin t
  | Square _ => rectangle_wave PI t
  | Sawtooth _ => falling_ramp t
  | Triangular _ => triangle_wave t
  | RectangularGroove _ duty => rectangle_wave (2 * PI * duty) t
  | _ => 0
  end.
Definition groove_depth (p : profile) : R :=
  match p with
  | Sinusoidal h | Square h | Sawtooth h | Triangular h | RectangularGroove h _ => h
  | _ => 0
  end.
Definition thin_grating (p : profile) (i : Z) (wavelength cos_theta : R) : R :=
  order_power (fun t => half_delay (groove_depth p) wavelength cos_theta * unit_shape p t) i.

(** Values given at increasing wavelengths. *)
Fixpoint increasing (x : R) (nodes : list (R * R)) : Prop :=
  match nodes with nil => True | cons (y, _) l => x < y /\ increasing y l end.
Definition sorted_nodes (nodes : list (R * R)) : Prop :=
  match nodes with nil => False | cons (x, _) l => increasing x l end.

(** The beam direction of a recording source seen from [p]: away from the source when
    diverging, towards it when converging. *)
Definition beam (diverging : bool) (source p e : vec3) : Prop :=
  is_unit e /\ exists k, 0 < k /\ (if diverging then vsub p source else vsub source p) = vscale k e.

(** A spacing model evaluated in the coordinates of the rulings. *)
Definition in_ruling_frame (t : rigid) (sp : vec3 -> vec3 -> option vec3) (p n : vec3) : option vec3 :=
  obind (sp (rigid_point t p) (rigid_vector t n)) (fun k => Some (rigid_vector (rigid_inv t) k)).

(** A ray at the origin with unit wavelength, intensity and index. *)
Definition test_ray (d : vec3) : ray := mkRay 1 (Some vzero) (Some d) (Some 1) 0 1 true.
