(** The field of a plane wave in a stack of layers, from the continuity of its tangential
    components. *)
From Coq Require Import Reals List.
From Coquelicot Require Import Coquelicot.
From Verif Require Import ComplexModel LayerModel.
Import ListNotations.
Open Scope C_scope.

(** Snell's law for the cosines, with the branch of a wave that travels or decays forwards. *)
Definition refracts (n c m c' : C) : Prop :=
  m * m * (1 - c' * c') = n * n * (1 - c * c) /\ (0 < Re c' \/ (Re c' = 0 /\ 0 <= Im c'))%R.

(** The ratio of the two tangential components: n cos(theta) for s polarization and
    cos(theta)/n for p polarization (the documentation of [refraction]). *)
Definition admittance (s : bool) (n c : C) : C := if s then n * c else c / n.

(** Forward and backward amplitudes [A], [B] on one side of an interface and [A'], [B'] on
    the other: both tangential components are continuous. *)
Definition matched (q q' A B A' B' : C) : Prop := A + B = A' + B' /\ q * (A - B) = q' * (A' - B').

(** The phase of crossing a layer. *)
Definition phase (wavelength : R) (l : layer) (c : C) : C :=
  RtoC (2 * PI * ly_thickness l / wavelength) * (layer_n l wavelength * c).

(** Amplitudes [A], [B] before the first interface; behind the last there is only the
    transmitted wave, of amplitude [t]. *)
Fixpoint stack_field (wavelength : R) (s : bool) (n c A B : C) (layers : list layer) (substrate : layer) (t : C) : Prop :=
  match layers with
  | [] =>
      exists c', refracts n c (layer_n substrate wavelength) c' /\
        matched (admittance s n c) (admittance s (layer_n substrate wavelength) c') A B t 0
  | l :: rest =>
      exists c' A' B', refracts n c (layer_n l wavelength) c' /\
        matched (admittance s n c) (admittance s (layer_n l wavelength) c') A B A' B' /\
        stack_field wavelength s (layer_n l wavelength) c'
          (A' * cexp (Ci * phase wavelength l c')) (B' * cexp (- Ci * phase wavelength l c')) rest substrate t
  end.

(** In this medium the cosine of the wave is real. *)
Definition real_cosine (k : C) (wavelength : R) (l : layer) : Prop :=
  forall c, layer_n l wavelength * layer_n l wavelength * (1 - c * c) = k -> Im c = 0%R.
