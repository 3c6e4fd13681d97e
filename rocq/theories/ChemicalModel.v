(** The optical constants of silicon and its oxide that the package contains, and sensors made
    of them. *)
From Coq Require Import Reals List QArith Qreals.
From Coquelicot Require Import Coquelicot.
From Verif Require Import Num TableModel SensorModel QuantumModel DiffusionModel ChemicalData.
Import ListNotations.
Open Scope R_scope.

(** optika/chemicals/_chemicals.py:127-136: the columns of a file. *)
Definition nk_of_data (d : chemical_row) : nk_row :=
  let '(w, n, k) := d in mkNk (Q2R w) (Q2R n) (Q2R k).
Definition silicon_table : list nk_row := map nk_of_data silicon_data.
Definition oxide_table : list nk_row := map nk_of_data oxide_data.
Definition palik_table : list nk_row := map nk_of_data palik_data.
Definition arsenide_table : list nk_row := map nk_of_data arsenide_data.

(** _chemicals.py:101-144, the complex index as a function of the wavelength in Angstrom.  (It
    exists at every wavelength, as a table is not empty.) *)
Definition chemical_index (table : list nk_row) (wavelength : R) : C :=
  match index_complex table wavelength with Some nk => nk | None => RtoC 0 end.

(** optika/sensors/materials/_materials.py:1660-1666, 2246-2278: the chemicals of a silicon
    sensor are fixed, the other attributes are chosen by the caller. *)
Definition shipped_detector (oxide implant substrate eta0 rough_oxide rough_substrate temperature : R) : detector :=
  mkDetector oxide implant substrate eta0 (chemical_index oxide_table) (chemical_index silicon_table)
    rough_oxide rough_substrate temperature.
Definition shipped_silicon (implant eta0 temperature : R) : sensor_material :=
  Silicon (mkSilicon (chemical_index silicon_table) implant eta0 temperature).
(** Lines 1772-1789, [width_charge_diffusion]. *)
Definition width_charge_diffusion (substrate depletion wavelength : R) : option R :=
  obind (absorption silicon_table wavelength) (fun a => charge_diffusion a substrate depletion).
