(** Stop rays and their coordinates. *)
From Coq Require Import Reals List Bool.
From Verif Require Import Vec Num RayModel AngleModel SystemModel CornerModel.
Import ListNotations.
Open Scope R_scope.
Open Scope opt_scope.

(** No wavelength is assigned. *)
Definition never_set (l : list stop_action) : Prop := forall w, ~ In (SetWavelength w) l.

(** Angles are the fields of an object at infinity and the pupils of others; else positions. *)
Definition coordinates (at_infinity field : bool) (r : ray) : option (R * R) :=
  match at_infinity, field with
  | true, true | false, false => let* d := r_direction r in angles d
  | _, _ => omap (fun p => (vx p, vy p)) (r_position r)
  end.
