(** Specification for the axes of a grid of rays. *)
From Coq Require Import String List Bool Arith.
From Verif Require Import SystemModel AxesModel.
Import ListNotations.

(** The components of a grid do not repeat an axis. *)
Definition well_shaped (g : shapes) : Prop :=
  NoDup (sh_wavelength g) /\ NoDup (sh_field g) /\ NoDup (sh_pupil g).

(** [w], [f] and [p] are the axes of the grid [g] that do not belong to the system: at most one of
    the wavelength, two more of the field, two more of the pupil. *)
Definition axes_of (system : list string) (g : shapes) (w f p : list string) : Prop :=
  NoDup (w ++ f ++ p) /\ (List.length w <= 1)%nat /\ List.length f = 2%nat /\ List.length p = 2%nat /\
  (forall x, In x w <-> In x (sh_wavelength g) /\ ~ In x system) /\
  (forall x, In x f <-> In x (sh_field g) /\ ~ In x system /\ ~ In x w) /\
  (forall x, In x p <-> In x (sh_pupil g) /\ ~ In x system /\ ~ In x w /\ ~ In x f).

(** Every axis along which the rays vary is accounted for. *)
Definition accounted (system : list string) (g : shapes) (w f p : list string) : Prop :=
  forall x, In x (sh_wavelength g ++ sh_field g ++ sh_pupil g) -> In x (system ++ w ++ f ++ p).

(** The extent of the stop rays varies only with the wavelength and the system. *)
Definition stop_follows (c : axis_config) : Prop :=
  forall w, NoDup w -> NoDup (ax_stop c w) /\ forall x, In x (ax_stop c w) -> In x w \/ In x (ax_shape c).

(** The system does not declare its axes. *)
Definition undeclared (c : axis_config) : Prop :=
  ax_wavelength c = None /\ ax_field c = None /\ ax_pupil c = None.

(** [grid_input] is not assigned. *)
Definition keeps_grid (a : axis_action) : Prop := match a with SetShapes _ => False | _ => True end.

(** The grid that a call asks for: the argument where there is one, [grid_input] elsewhere. *)
Definition asks_for (g : shapes) (a : axis_args) (g' : shapes) : Prop :=
  (forall x, aa_wavelength a = Some x -> sh_wavelength g' = x) /\
  (aa_wavelength a = None -> sh_wavelength g' = sh_wavelength g) /\
  (forall x, aa_field a = Some x -> sh_field g' = x) /\
  (aa_field a = None -> sh_field g' = sh_field g) /\
  (forall x, aa_pupil a = Some x -> sh_pupil g' = x) /\
  (aa_pupil a = None -> sh_pupil g' = sh_pupil g).
