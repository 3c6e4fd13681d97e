(** C105: the optical constants that the package contains, and silicon sensors made of them. *)
From Coq Require Import Reals Lra List Sorting.Sorted.
From Coquelicot Require Import Coquelicot.
From Verif Require Import Num Vec RayModel ComplexModel LayerModel RamanathanModel PairTableModel SensorModel QuantumModel TableModel ChemicalModel
  ChemicalSpec ChemicalProofs ChemicalSensorProofs ChemicalExamples.
Import ListNotations.
Open Scope R_scope.

(** Silicon and its oxide have an index at every wavelength, with a positive real part and without gain. *)
Theorem C105_index : index_within (index_complex silicon_table) 0.255 6.829 0 5.439 /\
  index_within (index_complex oxide_table) 0.819896 2.027361 3.4588157e-12 0.742378.
Proof. exact (conj silicon_within oxide_within). Qed.
Print Assumptions C105_index.

(** It depends continuously on the wavelength, as for every table of increasing wavelengths ... *)
Theorem C105_continuous : continuous_index (index_complex silicon_table) /\ continuous_index (index_complex oxide_table) /\
  forall table, table <> [] -> StronglySorted (fun a b => nk_wavelength a < nk_wavelength b) table -> continuous_index (index_complex table).
Proof. exact (conj silicon_continuous (conj oxide_continuous index_continuous)). Qed.
Print Assumptions C105_continuous.

(** ... but not where a table gives two indices for one wavelength, ... *)
Theorem C105_jump : forall before a b c after,
  StronglySorted (fun a b => nk_wavelength a <= nk_wavelength b) (before ++ a :: b :: c :: after) ->
  nk_wavelength a < nk_wavelength b -> nk_wavelength b = nk_wavelength c -> nk_n b <> nk_n c ->
  (forall r, In r after -> nk_wavelength r <> nk_wavelength c) ->
  ~ continuous_index (index_complex (before ++ a :: b :: c :: after)).
Proof. exact index_jump. Qed.
Print Assumptions C105_jump.

(** ... as the table of Palik for silicon does. *)
Theorem C105_continuous_refuted : StronglySorted (fun a b => nk_wavelength a <= nk_wavelength b) palik_table /\
  ~ continuous_index (index_complex palik_table).
Proof. exact (conj palik_sorted palik_jumps). Qed.
Print Assumptions C105_continuous_refuted.

(** Below 11199.6 Angstrom silicon absorbs, ... *)
Theorem C105_absorbs_partial : forall w, 0 < w -> w < 11199.6 -> exists a, absorption silicon_table w = Some a /\ 0 < a.
Proof. exact silicon_absorption. Qed.
Print Assumptions C105_absorbs_partial.

(** ... and every smooth sensor has an efficiency for every angle of incidence in every lossless medium.
    The full claim has no bound on the wavelength. *)
Theorem C105_sensor_partial : forall oxide implant substrate eta0 temperature w n0 c0,
  0 <= oxide -> 0 < implant -> 0 <= substrate -> 0 <= eta0 <= 1 -> 0 < w -> w < 11199.6 -> 0 < n0 -> 0 < c0 <= 1 ->
  let q := shipped_detector oxide implant substrate eta0 0 0 temperature in
  exists xs xp e, absorbance BeerLambert q w (RtoC c0) (RtoC n0) true = Some xs /\
    absorbance BeerLambert q w (RtoC c0) (RtoC n0) false = Some xp /\ quantum_efficiency_effective q w (RtoC c0) (RtoC n0) = Some e /\
    0 <= xs <= 1 /\ 0 <= xp <= 1 /\ eta0 * ((xs + xp) / 2) <= e <= (xs + xp) / 2.
Proof. exact shipped_efficiency. Qed.
Print Assumptions C105_sensor_partial.

(** The expected signal exists too: the yield of the included tables times the collection efficiency. *)
Theorem C105_signal_partial : forall oxide implant substrate eta0 temperature photons w n0 c0 d,
  0 <= oxide -> 0 < implant -> 0 <= substrate -> 0 <= eta0 <= 1 -> 0 <= temperature <= 300 -> 0 < w -> w < 11199.6 -> 0 < n0 -> 0 < c0 <= 1 -> 0 <= photons ->
  snells_law_scalar (RtoC c0) (RtoC n0) (chemical_index silicon_table w) = Some d ->
  exists y c, quantum_yield_ideal shipped w temperature = Some y /\ eta0 <= c <= 1 /\
    material_cce (shipped_detector oxide implant substrate eta0 0 0 temperature) w (Some (V3 0 0 c0)) (RtoC n0) None = Some c /\
    material_signal shipped (shipped_silicon implant eta0 temperature) photons w d = Some (y * c * photons).
Proof. exact signal_defined. Qed.
Print Assumptions C105_signal_partial.

(** From 11199.6 to 25001 Angstrom the table says that silicon does not absorb; every sensor has then NaN as
    efficiency, as signal, and as width of the charge diffusion, ... *)
Theorem C105_clear : forall oxide implant substrate eta0 ro rs temperature w c0 photons depletion, 11199.6 <= w <= 25001 -> 0 < c0 <= 1 ->
  let q := shipped_detector oxide implant substrate eta0 ro rs temperature in
  absorption silicon_table w = Some 0 /\ width_charge_diffusion substrate depletion w = None /\
  quantum_efficiency_effective q w (RtoC c0) (RtoC 1) = None /\
  material_cce q w (Some (V3 0 0 c0)) (RtoC 1) None = None /\
  exists d, snells_law_scalar (RtoC c0) (RtoC 1) (chemical_index silicon_table w) = Some d /\
    material_signal shipped (shipped_silicon implant eta0 temperature) photons w d = None.
Proof.
  intros o i s e ro rs T w c0 p dp W C q.
  exact (conj (silicon_no_absorption w W) (conj (clear_diffusion s dp w W) (clear_sensor o i s e ro rs T w c0 p W C))).
Qed.
Print Assumptions C105_clear.

(** ... although such a photon makes no electrons at all. *)
Theorem C105_sensor_refuted : exists w, 0 < w /\ forall oxide implant substrate eta0 temperature photons, 0 <= temperature <= 300 ->
  quantum_yield_ideal shipped w temperature = Some 0 /\
  quantum_efficiency_effective (shipped_detector oxide implant substrate eta0 0 0 temperature) w (RtoC 1) (RtoC 1) = None /\
  exists d, snells_law_scalar (RtoC 1) (RtoC 1) (chemical_index silicon_table w) = Some d /\
    material_signal shipped (shipped_silicon implant eta0 temperature) photons w d = None.
Proof. exact clear_photon. Qed.
Print Assumptions C105_sensor_refuted.

(** A sensor, two wavelengths and an angle that meet the hypotheses. *)
Example C105_nonvacuous : 0 <= 50 /\ 0 < 2000 /\ 0 <= 160000 /\ 0 <= 0.21 <= 1 /\ 0 < 304 /\ 304 < 11199.6 /\ 0 < 1 /\ 0 < 0.8 <= 1 /\
  (exists d, snells_law_scalar (RtoC 0.8) (RtoC 1) (chemical_index silicon_table 304) = Some d) /\
  11199.6 <= 15000 <= 25001 /\ silicon_table <> [] /\
  StronglySorted (fun a b => nk_wavelength a < nk_wavelength b) silicon_table /\ length silicon_table = 1146%nat /\
  (let a := mkNk 1 1 0 in let b := mkNk 2 2 0 in let c := mkNk 2 3 0 in
   StronglySorted (fun a b => nk_wavelength a <= nk_wavelength b) ([] ++ a :: b :: c :: [mkNk 3 1 1]) /\ nk_wavelength a < nk_wavelength b /\
   nk_wavelength b = nk_wavelength c /\ nk_n b <> nk_n c /\ (forall r, In r [mkNk 3 1 1] -> nk_wavelength r <> nk_wavelength c)).
Proof. exact chemical_example. Qed.
