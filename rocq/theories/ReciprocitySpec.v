(** A stack between two transparent media, and the same stack the other way round. *)
From Coq Require Import Reals List.
From Coquelicot Require Import Coquelicot.
From Verif Require Import LayerModel LayerSpec FresnelSpec.
Import ListNotations.
Open Scope R_scope.

(** A transparent half space with a smooth surface. *)
Definition half_space (wavelength : R) (l : layer) (n : R) : Prop :=
  layer_n l wavelength = RtoC n /\ ly_interface l = None.

(** A smooth layer that may absorb, in which the wave with the conserved component [k] is not at the critical angle. *)
Definition smooth_layer (wavelength k : R) (l : layer) : Prop :=
  passive (layer_n l wavelength) /\ 0 <= ly_thickness l /\ ly_interface l = None /\
  off_critical (RtoC (k ^ 2)) (layer_n l wavelength).
