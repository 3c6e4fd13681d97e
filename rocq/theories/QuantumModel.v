(** optika/sensors/materials/_materials.py: transmittance, absorbance and quantum efficiency of
    a back-illuminated sensor, for one wavelength and one direction. *)
From Coq Require Import Reals List Bool ZArith.
From Coquelicot Require Import Coquelicot.
From Verif Require Import Vec Num RayModel ComplexModel ProfileModel LayerModel RamanathanModel SensorModel.
Import ListNotations.
Open Scope R_scope.
Open Scope opt_scope.

(** The arguments shared by the functions below, which are also the attributes of
    [BackIlluminatedSiliconSensorMaterial] (2246-2278).  A chemical is the function from
    wavelength to index; looking a formula up in the tables is in [TableModel]. *)
Record detector := mkDetector {
  dt_oxide : R;
  dt_implant : R;
  dt_substrate : R;
  dt_eta0 : R;
  dt_n_oxide : R -> C;
  dt_n_substrate : R -> C;
  dt_rough_oxide : R;
  dt_rough_substrate : R;
  dt_temperature : R }.

(** The two layers, lines 174-191 and 319-334. *)
Definition oxide_layer (q : detector) : layer :=
  Layer (Some (dt_n_oxide q)) (dt_oxide q) (Some (Erf (dt_rough_oxide q))).
Definition silicon_layer (q : detector) : layer :=
  Layer (Some (dt_n_substrate q)) (dt_substrate q) (Some (Erf (dt_rough_substrate q))).

(** Lines 96-197, [transmittance], one polarization. *)
Definition transmittance (q : detector) (wavelength : R) (direction n : C) (s : bool) : option R :=
  snd (multilayer_efficiency wavelength direction n (ASequence [ALayer (oxide_layer q)]) (Some (silicon_layer q)) s).

(** Lines 200-374, [absorbance], one polarization; the default is [BeerLambert]. *)
Inductive absorbance_method := Exact | BeerLambert.
Definition absorbance (method : absorbance_method) (q : detector) (wavelength : R) (direction n : C) (s : bool) : option R :=
  match method with
  | Exact =>
      omap Re (layer_absorbance 1 wavelength direction n
                 (ASequence [ALayer (oxide_layer q); ALayer (silicon_layer q)]) None s)
  | BeerLambert =>
      let* t := transmittance q wavelength direction n s in
      let n_substrate := dt_n_substrate q wavelength in
      let* direction_substrate := snells_law_scalar direction n n_substrate in
      let* absorption := absorption_effective wavelength n_substrate direction_substrate in
      let total := t * exp (- absorption * dt_substrate q) in
      Some (t - total)
  end.

(** Lines 500-687, [quantum_efficiency_effective] *)
Definition quantum_efficiency_effective (q : detector) (wavelength : R) (direction n : C) : option R :=
  let a := absorbance BeerLambert q wavelength direction n in
  let n_substrate := dt_n_substrate q wavelength in
  let* direction_substrate := snells_law_scalar direction n n_substrate in
  let* absorption := absorption_effective wavelength n_substrate direction_substrate in
  let* cce := charge_collection_efficiency absorption (dt_implant q) (dt_eta0 q) in
  let* a := average (a true) (a false) in
  Some (a * cce).

(** ** The methods of [AbstractBackIlluminatedSiliconSensorMaterial] *)

(** Lines 1815-1819, 1856-1860, 1897-1903, 1947-1953: the defaults of the direction and of the
    normal, and the cosine of the angle of incidence. *)
Definition incidence (direction normal : option vec3) : C :=
  let direction := match direction with Some d => d | None => V3 0 0 1 end in
  let normal := match normal with Some u => u | None => V3 0 0 (-1) end in
  ambient_direction direction normal.

(** Lines 1791-1871 *)
Definition material_transmittance (q : detector) (wavelength : R) (direction : option vec3) (n : C) (normal : option vec3)
    (s : bool) : option R := transmittance q wavelength (incidence direction normal) n s.
Definition material_absorbance (q : detector) (wavelength : R) (direction : option vec3) (n : C) (normal : option vec3)
    (s : bool) : option R := absorbance BeerLambert q wavelength (incidence direction normal) n s.

(** Lines 1873-1921, the method [charge_collection_efficiency] *)
Definition material_cce (q : detector) (wavelength : R) (direction : option vec3) (n : C) (normal : option vec3) : option R :=
  let n_substrate := dt_n_substrate q wavelength in
  let* direction_substrate := snells_law_scalar (incidence direction normal) n n_substrate in
  let* absorption := absorption_effective wavelength n_substrate direction_substrate in
  charge_collection_efficiency absorption (dt_implant q) (dt_eta0 q).

(** Lines 1923-1966 *)
Definition material_eqe (q : detector) (wavelength : R) (direction : option vec3) (n : C) (normal : option vec3) : option R :=
  quantum_efficiency_effective q wavelength (incidence direction normal) n.

(** Lines 1968-1999, the method [quantum_efficiency] *)
Definition quantum_efficiency (tb : pair_table) (q : detector) (wavelength : R) (direction : option vec3) (n : C)
    (normal : option vec3) : option R :=
  let* iqy := quantum_yield_ideal tb wavelength (dt_temperature q) in
  let* eqe := material_eqe q wavelength direction n normal in
  Some (iqy * eqe).

(** Lines 2001-2028, the method [probability_measurement]: no index is passed, so that the
    ambient medium is vacuum. *)
Definition material_probability (tb : pair_table) (q : detector) (wavelength : R) (direction normal : option vec3) : option R :=
  let* iqy := quantum_yield_ideal tb wavelength (dt_temperature q) in
  let* cce := material_cce q wavelength direction (RtoC 1) normal in
  probability_measurement iqy cce.

(** Lines 2231-2243, [efficiency], by which [AbstractSurface.propagate_rays] multiplies the
    intensity of a ray. *)
Definition sensor_efficiency (q : detector) (r : ray) (normal : vec3) : option R :=
  let* d := r_direction r in
  let a := material_absorbance q (r_wavelength r) (Some d) (ray_n r) (Some normal) in
  average (a true) (a false).

(** Lines 2314-2334, the function minimised by [fit_eqe]; the minimiser itself
    (scipy.optimize.minimize) is not modelled.  [measured] are pairs of a wavelength and a
    measured efficiency, the oxide is smooth. *)
Definition eqe_rms_difference (thickness_substrate : R) (n_oxide n_substrate : R -> C) (temperature : R)
    (measured : list (R * R)) (oxide implant roughness eta0 : R) : option R :=
  let q := mkDetector oxide implant thickness_substrate eta0 n_oxide n_substrate 0 roughness temperature in
  let* total := osum (map (fun m =>
    let* e := quantum_efficiency_effective q (fst m) (RtoC 1) (RtoC 1) in Some ((snd m - e) * (snd m - e))) measured) in
  let* mean := odiv total (INR (length measured)) in
  osqrt mean.
