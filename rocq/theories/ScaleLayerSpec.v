(** Specification: coatings in another unit of length. *)
From Coq Require Import Reals List Bool ZArith.
From Coquelicot Require Import Coquelicot.
From Verif Require Import Vec Num ComplexModel ProfileModel LayerModel RayModel SurfaceModel.
Import ListNotations.
Open Scope R_scope.

Definition scale_interface (k : R) (p : interface_profile) : interface_profile :=
  match p with
  | Erf w => Erf (k * w)
  | Exponential w => Exponential (k * w)
  | Linear w => Linear (k * w)
  | Sinus w => Sinus (k * w)
  end.
(** The index at the wavelength [w] is looked up at the wavelength [w / k]. *)
Definition scale_layer (k : R) (l : layer) : layer :=
  Layer (omap (fun f w => f (w / k)) (ly_chemical l)) (k * ly_thickness l) (omap (scale_interface k) (ly_interface l)).
Fixpoint scale_alayer (k : R) (l : alayer) : alayer :=
  match l with
  | ALayer l => ALayer (scale_layer k l)
  | ASequence ls => ASequence (map (scale_alayer k) ls)
  | APeriodic ls n => APeriodic (map (scale_alayer k) ls) n
  end.
