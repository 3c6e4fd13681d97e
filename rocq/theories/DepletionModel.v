(** The depletion models that the package contains, and the sensors they are used in. *)
From Coq Require Import Reals List.
From Verif Require Import Num ExtNum RamanathanModel DiffusionModel TableModel ChemicalModel FactoryModel.
Import ListNotations.
Open Scope R_scope.

(** One micrometer in Angstrom, which is the unit of all lengths here. *)
Definition micrometer : R := 10000.

(** optika/chemicals/_chemicals.py:164-178 for silicon.  (It exists at every positive wavelength.) *)
Definition silicon_absorption_at (wavelength : R) : R :=
  match absorption silicon_table wavelength with Some a => a | None => 0 end.

(** optika/sensors/materials/depletion/_depletion.py:59-123, [fit_mcc] with silicon as the chemical.  [minimize_scalar]
    is scipy.optimize.minimize_scalar, a function of the objective and of the bounds, all in micrometer.  [measured]
    are wavelengths and values. *)
Definition mcc_objective (thickness_substrate width_pixel : R) (measured : list (R * R)) (x : R) : ext :=
  fit_objective thickness_substrate width_pixel (map (fun m => (silicon_absorption_at (fst m), snd m)) measured) (x * micrometer).
Definition fit_mcc (minimize_scalar : (R -> ext) -> R -> R -> R) (thickness_substrate width_pixel : R)
    (measured : list (R * R)) : depletion_model :=
  let x := minimize_scalar (mcc_objective thickness_substrate width_pixel measured) 0 (thickness_substrate / micrometer) in
  mkDepletion (x * micrometer) thickness_substrate width_pixel.

(** _e2v_ccd64_thick_stern2004.csv and _e2v_ccd64_thin_stern2004.csv: energies in keV and values. *)
Definition thick_data : list (R * R) :=
  [(0.9315960912052117, 0.5285000000000001); (0.9332247557003257, 0.5525);
   (1.486970684039088, 0.66425); (1.486970684039088, 0.6582500000000001)].
Definition thin_data : list (R * R) :=
  [(0.9311023622047244, 0.655421686746988); (0.9311023622047244, 0.6906626506024097); (0.9330708661417323, 0.7105421686746989);
   (1.4881889763779528, 0.7457831325301205); (1.4881889763779528, 0.7530120481927711); (5.9, 0.78)].
(** _e2v_ccd64_thick.py:87-100, _e2v_ccd64_thin.py:87-100: energies are converted to wavelengths. *)
Definition measured_at (data : list (R * R)) : list (R * R) := map (fun p => (hc / (1000 * fst p), snd p)) data.
(** _e2v_ccd64_thick.py:102-107 and _e2v_ccd64_thin.py:102-107. *)
Definition e2v_ccd64_thick minimize_scalar : depletion_model :=
  fit_mcc minimize_scalar (15 * micrometer) (16 * micrometer) (measured_at thick_data).
Definition e2v_ccd64_thin minimize_scalar : depletion_model :=
  fit_mcc minimize_scalar (8 * micrometer) (16 * micrometer) (measured_at thin_data).

(** _e2v_ccd97.py:45-49, _e2v_ccd203.py:45-49 and _tektronix_tk512cb.py:59-63: each ready-made sensor with its depletion model. *)
Definition shipped_makers minimize_scalar :=
  [(e2v_ccd97, e2v_ccd64_thick minimize_scalar); (e2v_ccd203, e2v_ccd64_thick minimize_scalar);
   (tektronix_tk512cb, e2v_ccd64_thin minimize_scalar)].
