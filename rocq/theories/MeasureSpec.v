(** What superposition means. *)
From Coq Require Import Reals List Bool.
From Coquelicot Require Import Coquelicot.
From Verif Require Import Vec Num RayModel SurfaceModel SystemModel CellModel SensorModel ImageModel.
Import ListNotations.
Open Scope R_scope.

(** What a surface does to a ray does not depend on how bright the ray is. *)
Definition linear_surface (s : surface) : Prop :=
  (forall r i, mat_index (sf_material s) (set_intensity i r) = mat_index (sf_material s) r) /\
  (forall r i, mat_attenuation (sf_material s) (set_intensity i r) = mat_attenuation (sf_material s) r) /\
  (forall r i n, mat_efficiency (sf_material s) (set_intensity i r) n = mat_efficiency (sf_material s) r n) /\
  (forall g, sf_rulings s = Some g -> forall r i n, rul_efficiency g (set_intensity i r) n = rul_efficiency g r n).

(** Two scenes on the same grid, one times [a] and the other times [b]. *)
Definition blend (a b : R) (l1 l2 : cell5 -> R) (c : cell5) : R := a * l1 c + b * l2 c.

(** How fast light of this cosine is absorbed with depth, up to the factor [4 pi / wavelength]. *)
Definition steepness (m : silicon) (wavelength : R) (d : C) : R := Im (si_n m wavelength * d)%C.

(** The wavelength at which a pixel is exposed: the centre of its bin, or of the whole range. *)
Definition exposed_at (g : object_grid) (nw : nat) (integrate : bool) (pixel : cell) (w : R) : Prop :=
  let k := fst (fst pixel) in
  if integrate then k = 0%nat /\ w = (CellModel.g_wavelength g 0 + CellModel.g_wavelength g nw) / 2
  else (k < nw)%nat /\ w = (CellModel.g_wavelength g k + CellModel.g_wavelength g (S k)) / 2.
