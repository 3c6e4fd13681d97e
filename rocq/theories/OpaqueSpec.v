(** The bare surface of a chemical. *)
From Coq Require Import Reals.
From Coquelicot Require Import Coquelicot.
From Verif Require Import LayerModel TableModel ChemicalModel.
Open Scope R_scope.

(** A smooth half space of a medium whose index is known at every wavelength in Angstrom. *)
Definition medium (index : R -> C) : layer := Layer (Some index) 0 None.

(** What it reflects and takes in, of light of this wavelength and polarization that comes under an angle
    with the cosine [c0] from a transparent medium of index [n0]. *)
Definition surface_shares (index : R -> C) (wavelength n0 c0 : R) (s : bool) : option R * option R :=
  multilayer_efficiency wavelength (RtoC c0) (RtoC n0) (ASequence nil) (Some (medium index)) s.
