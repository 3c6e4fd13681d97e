(** optika/sensors/materials/_materials.py and optika/sensors/_sensors.py, for one pixel or
    one ray at a time. *)
From Coq Require Import Reals List Bool.
From Coquelicot Require Import Coquelicot.
From Verif Require Import Vec Num RayModel ComplexModel LayerModel RamanathanModel.
Import ListNotations.
Open Scope R_scope.
Open Scope opt_scope.

(** ** _materials.py: functions *)

(** Lines 55-93 *)
Definition absorption_effective (wavelength : R) (n_substrate direction_substrate : C) : option R :=
  odiv (4 * PI * Im (n_substrate * direction_substrate)%C) wavelength.

(** Lines 377-497 *)
Definition charge_collection_efficiency (absorption thickness_implant cce_backsurface : R) : option R :=
  let z0 := absorption * thickness_implant in
  let exp_z0 := exp (- z0) in
  let* q := odiv (1 - cce_backsurface) z0 in
  Some (cce_backsurface + q * (1 - exp_z0)).

(** numpy.power of a base that is not negative *)
Definition npow (x y : R) : option R :=
  if Rlt_dec x 0 then None
  else if Req_EM_T x 0 then
    (if Req_EM_T y 0 then Some 1 else if Rlt_dec y 0 then None else Some 0)
  else Some (Rpower x y).

(** Lines 690-782 *)
Definition probability_measurement (iqy cce : R) : option R :=
  let* p_r := npow (1 - cce) iqy in Some (1 - p_r).

(** Lines 1041-1200, [signal] with [method="expected"].  [tb] holds the tables used by
    [quantum_yield_ideal]. *)
Definition signal_expected (tb : pair_table) (photons_expected wavelength : R) (direction n n_substrate : C)
    (absorbance thickness_implant cce_backsurface temperature : R) : option R :=
  let* direction_substrate := snells_law_scalar direction n n_substrate in
  let* absorption := absorption_effective wavelength n_substrate direction_substrate in
  let* iqy := quantum_yield_ideal tb wavelength temperature in
  let* cce := charge_collection_efficiency absorption thickness_implant cce_backsurface in
  Some (iqy * absorbance * cce * photons_expected).

(** Lines 1235-1406, [vmr_signal].  Line 1384 evaluates [fano_factor(wavelength)] at its
    default temperature, 300 K. *)
Definition vmr_cce (aW n0 cce : R) : option R :=
  let* q := odiv (n0 - 1) aW in
  odiv (2 * exp (- aW) * (q * q) * (sinh aW - aW)) cce.
Definition vmr_signal (tb : pair_table) (wavelength : R) (direction n n_substrate : C)
    (thickness_implant cce_backsurface temperature : R) (shot fano pcc : bool) : option R :=
  let* direction_substrate := snells_law_scalar direction n n_substrate in
  let* absorption := absorption_effective wavelength n_substrate direction_substrate in
  let* iqy := quantum_yield_ideal tb wavelength temperature in
  let* cce := charge_collection_efficiency absorption thickness_implant cce_backsurface in
  let* F := fano_factor tb wavelength 300 in
  let result := 0 in
  let result := if shot then result + iqy * cce else result in
  let result := if fano then result + cce * F else result in
  if pcc then
    let* F_cce := vmr_cce (absorption * thickness_implant) cce_backsurface cce in
    let F_pcc := 1 - cce - F_cce + iqy * F_cce + F * F_cce in
    Some (result + F_pcc)
  else Some result.

(** ** Sensor materials *)

(** [IdealSensorMaterial] (1567-1643) and [BackIlluminatedSiliconSensorMaterial] (1647-2281),
    the attributes used below; [si_n] is [self._chemical.n]. *)
Record silicon := mkSilicon {
  si_n : R -> C;
  si_implant : R;
  si_eta0 : R;
  si_temperature : R }.
Inductive sensor_material := Ideal | Silicon (s : silicon).

(** [signal] with [noise=False]: 1576-1601, 2093-2139.  The input is a number of photons
    (the conversion of an energy is not modelled). *)
Definition material_signal (tb : pair_table) (m : sensor_material) (photons wavelength : R) (direction : C)
    : option R :=
  match m with
  | Ideal => Some photons
  | Silicon s =>
      let n_substrate := si_n s wavelength in
      signal_expected tb photons wavelength direction n_substrate n_substrate 1
        (si_implant s) (si_eta0 s) (si_temperature s)
  end.

(** [photons_absorbed]: 1627-1633, 2176-2205 *)
Definition material_photons_absorbed (tb : pair_table) (m : sensor_material) (electrons wavelength : R)
    (direction : C) : option R :=
  match m with
  | Ideal => Some electrons
  | Silicon s =>
      let* absorption := absorption_effective wavelength (si_n s wavelength) direction in
      let* iqy := quantum_yield_ideal tb wavelength (si_temperature s) in
      let* cce := charge_collection_efficiency absorption (si_implant s) (si_eta0 s) in
      odiv electrons (iqy * cce)
  end.

(** [uncertainty]: 1635-1643, 2207-2229 *)
Definition material_uncertainty (tb : pair_table) (m : sensor_material) (electrons wavelength : R)
    (direction : C) : option R :=
  match m with
  | Ideal => osqrt electrons
  | Silicon s =>
      let n_substrate := si_n s wavelength in
      let* vmr := vmr_signal tb wavelength direction n_substrate n_substrate (si_implant s) (si_eta0 s)
                    (si_temperature s) true true true in
      osqrt (vmr * electrons)
  end.

(** [direction_refracted]: 1603-1616, 2030-2047 *)
Definition direction_refracted (m : sensor_material) (wavelength : R) (direction : vec3) (n : C) (normal : vec3)
    : option C :=
  let cos_incidence := RtoC (dot (vopp direction) normal) in
  match m with
  | Ideal => Some cos_incidence
  | Silicon s => snells_law_scalar cos_incidence n (si_n s wavelength)
  end.

(** ** _sensors.py *)

(** [AbstractImagingSensor], the attributes used below; [timedelta=None] is [sn_exposure]. *)
Record imaging_sensor := mkSensor {
  sn_width_x : R;
  sn_width_y : R;
  sn_num_x : nat;
  sn_num_y : nat;
  sn_exposure : R;
  sn_read_noise : R;
  sn_material : sensor_material }.

(** Lines 84-90, 143-148: the edges of the pixels along one axis, from [-half_width] to
    [half_width]. *)
Definition pixel_edges (width : R) (num : nat) : list R :=
  let half_width := width * INR num / 2 in
  let start := - half_width in
  let stop := half_width in
  map (fun i => start + INR i * ((stop - start) / INR num)) (seq 0 (num + 1)).

(** The bin of [named_arrays.histogram] (as in numpy) containing a coordinate: [e0 <= x < e1],
    the last bin including its upper edge. *)
Fixpoint bin_from (k : nat) (x : R) (edges : list R) : option nat :=
  match edges with
  | e0 :: rest =>
      match rest with
      | [] => None
      | e1 :: rest' =>
          if Rle_dec e0 x then
            if Rlt_dec x e1 then Some k
            else match rest' with
                 | [] => if Req_EM_T x e1 then Some k else None
                 | _ => bin_from (S k) x rest
                 end
          else None
      end
  | [] => None
  end.
Definition bin_index (edges : list R) (x : R) : option nat := bin_from 0 x edges.

(** A pixel of the image: wavelength bin, column, row. *)
Definition cell : Type := nat * nat * nat.
Definition cell_eqb (a b : cell) : bool :=
  let '(a1, a2, a3) := a in let '(b1, b2, b3) := b in
  Nat.eqb a1 b1 && (Nat.eqb a2 b2 && Nat.eqb a3 b3).

(** Lines 150-153.  A NaN position is in no bin. *)
Definition ray_cell (s : imaging_sensor) (wavelengths : list R) (r : ray) : option cell :=
  let* k := bin_index wavelengths (r_wavelength r) in
  let* p := r_position r in
  let* i := bin_index (pixel_edges (sn_width_x s) (sn_num_x s)) (vx p) in
  let* j := bin_index (pixel_edges (sn_width_y s) (sn_num_y s)) (vy p) in
  Some (k, i, j).

(** Sums in which a NaN summand makes the sum NaN. *)
Definition osum (l : list (option R)) : option R :=
  fold_right (fun a b => let* a := a in let* b := b in Some (a + b)) (Some 0) l.
Definition obool (b : bool) : R := if b then 1 else 0.

(** [na.histogram] with weights, the value of one cell. *)
Definition histogram {A} (cell_of : A -> option cell) (weight : A -> option R) (l : list A) (c : cell)
    : option R :=
  osum (map weight (filter (fun a => match cell_of a with Some c' => cell_eqb c' c | None => false end) l)).

(** rays.n, rays/_ray_vectors.py:74-87 *)
Definition ray_n (r : ray) : C := (r_index r, r_attenuation r * r_wavelength r / (4 * PI)).

(** Lines 125-139; each ray comes with its value of [where]. *)
Definition ray_where (rw : ray * bool) : bool := snd rw && r_unvignetted (fst rw).
Definition ray_flux (rw : ray * bool) : option R :=
  let* i := r_intensity (fst rw) in Some (i * obool (ray_where rw)).
(** [NoSag.normal] is (0, 0, -1) everywhere (sags/_flat.py). *)
Definition ray_cosine (s : imaging_sensor) (rw : ray * bool) : option C :=
  let r := fst rw in
  let* d := r_direction r in
  direction_refracted (sn_material s) (r_wavelength r) d (ray_n r) (V3 0 0 (-1)).

(** Lines 92-171, [collect]: the image and the cosine of one cell. *)
Definition collect_image (s : imaging_sensor) (wavelengths : list R) (rays : list (ray * bool)) (c : cell)
    : option R :=
  histogram (fun rw => ray_cell s wavelengths (fst rw)) ray_flux rays c.
Definition weighted (part : C -> R) (s : imaging_sensor) (rw : ray * bool) : option R :=
  let* f := ray_flux rw in let* d := ray_cosine s rw in Some (f * part d).
Definition collect_direction (s : imaging_sensor) (wavelengths : list R) (rays : list (ray * bool)) (c : cell)
    : option C :=
  let image := collect_image s wavelengths rays c in
  let moment part := histogram (fun rw => ray_cell s wavelengths (fst rw)) (weighted part s) rays c in
  let nonempty := match image with Some i => if Rlt_dec 0 i then true else false | None => false end in
  let mean part empty :=
    if nonempty then let* m := moment part in let* i := image in odiv m i else Some empty in
  let* re := mean Re 1 in
  let* im := mean Im 0 in
  Some (re, im).

(** Lines 173-252, [expose] with [noise=False]; the wavelength is the centre of the bin. *)
Definition expose (tb : pair_table) (s : imaging_sensor) (timedelta : option R) (flux wavelength : R)
    (direction : C) : option R :=
  let dt := match timedelta with Some t => t | None => sn_exposure s end in
  material_signal tb (sn_material s) (flux * dt) wavelength direction.

(** Lines 254-315, [photons_absorbed] *)
Definition sensor_photons_absorbed (tb : pair_table) (s : imaging_sensor) (timedelta : option R)
    (electrons wavelength : R) (direction : C) : option R :=
  let dt := match timedelta with Some t => t | None => sn_exposure s end in
  let* photons := material_photons_absorbed tb (sn_material s) electrons wavelength direction in
  odiv photons dt.

(** Lines 317-372, [uncertainty] *)
Definition sensor_uncertainty (tb : pair_table) (s : imaging_sensor) (electrons wavelength : R) (direction : C)
    : option R :=
  let* u := material_uncertainty tb (sn_material s) electrons wavelength direction in
  osqrt (u * u + sn_read_noise s * sn_read_noise s).
