(** A measured pixel with noise and the uncertainty it is given: optika/sensors/_sensors.py. *)
From Coq Require Import Reals.
From Coquelicot Require Import Coquelicot.
From Verif Require Import Num RamanathanModel SensorModel.
Open Scope R_scope.
Open Scope opt_scope.

(** _sensors.py:236-250, [expose] with [noise=True], one pixel.  [signal] is what
    [self.material.signal] drew, a number of electrons (materials/_materials.py:1595-1599 for the
    ideal sensor, [electrons_measured] for silicon), and [z] the standard normal draw of
    [na.random.normal(loc, scale)], which is [loc + scale * z] and refuses a negative scale. *)
Definition expose_noisy (s : imaging_sensor) (signal : nat) (z : R) : option R :=
  if Rlt_dec (sn_read_noise s) 0 then None else Some (INR signal + sn_read_noise s * z).

(** Lines 317-372, [uncertainty] of that image. *)
Definition uncertainty_noisy (tb : pair_table) (s : imaging_sensor) (signal : nat) (z wavelength : R) (direction : C)
    : option R :=
  let* electrons := expose_noisy s signal z in
  sensor_uncertainty tb s electrons wavelength direction.
