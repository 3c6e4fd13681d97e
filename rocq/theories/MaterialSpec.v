(** Vocabulary for the simple materials. *)
From Coq Require Import Reals List.
From Verif Require Import Vec RayModel SurfaceModel MaterialModel.
Open Scope R_scope.

(** The documented dispersion equation: [n] is the positive root. *)
Definition sellmeier (b1 b2 b3 c1 c2 c3 w n : R) : Prop :=
  0 <= n /\ n ^ 2 = 1 + b1 * w ^ 2 / (w ^ 2 - c1) + b2 * w ^ 2 / (w ^ 2 - c2) + b3 * w ^ 2 / (w ^ 2 - c3).

(** Two wavelengths on the same side of a resonance. *)
Definition same_band (c w w' : R) : Prop := 0 < (w ^ 2 - c) * (w' ^ 2 - c).

(** [x] rounds to [y] with the accuracy [e]. *)
Definition about (e x y : R) : Prop := Rabs (x - y) <= e.

(** The lines d, F and C of the Fraunhofer spectrum, in micrometres. *)
Definition line_d : R := 5875618 / 10000000.
Definition line_F : R := 4861327 / 10000000.
Definition line_C : R := 6562725 / 10000000.
Definition abbe_number (nd nF nC : R) : R := (nd - 1) / (nF - nC).

(** A surface without a grating that is nothing or a mirror. *)
Definition plain (s : surface) : Prop := sf_rulings s = None /\ (sf_material s = vacuum \/ sf_material s = mirror).
