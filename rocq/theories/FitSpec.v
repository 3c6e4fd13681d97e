(** Polynomials of three variables and least squares, without reference to a center. *)
From Coq Require Import Reals List Bool Arith.
From Verif Require Import Num RayModel DistortionModel FitModel.
Import ListNotations.
Open Scope R_scope.

(** [f] is a polynomial of total degree at most [d]. *)
Definition is_polynomial (d : nat) (f : spv -> R) : Prop :=
  exists l : list (nat * nat * nat * R),
    Forall (fun t => let '(i, j, k, _) := t in (i + j + k <= d)%nat) l /\
    forall c, f c = rsum (map (fun t => let '(i, j, k, a) := t in
                          a * (sp_wavelength c ^ i * sp_x c ^ j * sp_y c ^ k)) l).

(** The sum of the squares of the errors of [f] at the given points. *)
Definition squares (f : spv -> R) (points : list (spv * R)) : R :=
  rsum (map (fun p => (f (fst p) - snd p) ^ 2) points).

(** [solve] is a least-squares solver: no polynomial of the same degree has a smaller error. *)
Definition least_squares (solve : solver) : Prop := forall d points,
  Forall (fun t => (total_degree (fst t) <= d)%nat) (solve d points) /\
  forall f, is_polynomial d f -> squares (evaluate (solve d points)) points <= squares f points.

(** Only the zero polynomial vanishes at all of the points. *)
Definition unisolvent (d : nat) (points : list spv) : Prop :=
  forall f, is_polynomial d f -> (forall p, In p points -> f p = 0) -> forall c, f c = 0.

(** The selected points are those of [l], with their positions on the sensor. *)
Definition measured (points : list calibration) (l : list (spv * (R * R))) : Prop :=
  map (fun k => (k_scene k, k_sensor k)) (filter k_where points) = map (fun p => (fst p, Some (snd p))) l.
(** The wavelength of a point and its position on the sensor. *)
Definition sensor_spv (p : spv * (R * R)) : spv := mkSpv (sp_wavelength (fst p)) (fst (snd p)) (snd (snd p)).
(** No position on the sensor is NaN. *)
Definition all_numbers (points : list calibration) : Prop := forall k, In k points -> k_sensor k <> None.

(** An affine map of positions that moves with the wavelength. *)
Definition affine (a b c d wx wy x0 y0 : R) (p : spv) : spv :=
  mkSpv (sp_wavelength p) (x0 + a * sp_x p + b * sp_y p + wx * sp_wavelength p)
                          (y0 + c * sp_x p + d * sp_y p + wy * sp_wavelength p).

(** The fraction of the rays that are not vignetted. *)
Definition open_fraction (rays : list ray) : R := INR (length (filter r_unvignetted rays)) / INR (length rays).
