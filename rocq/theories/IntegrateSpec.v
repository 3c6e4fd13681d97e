(** Electrons per photon. *)
From Coq Require Import Reals.
From Coquelicot Require Import Coquelicot.
From Verif Require Import Num RamanathanModel SensorModel MeasureSpec.
Open Scope R_scope.

(** A photon of this wavelength and cosine is worth [y] electrons: its pairs times the part of them
    that is collected, [x] being the depth of the implant layer in absorption lengths. *)
Definition per_photon (tb : pair_table) (m : silicon) (wavelength : R) (d : C) (y : R) : Prop :=
  exists pairs x, quantum_yield_ideal tb wavelength (si_temperature m) = Some pairs /\
    x = 4 * PI * steepness m wavelength d / wavelength * si_implant m /\
    y = pairs * (si_eta0 m + (1 - si_eta0 m) * ((1 - exp (- x)) / x)).
