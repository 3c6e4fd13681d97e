(** optika/systems/_sequential.py:1002-1206, [_rayfunction_from_vertices] and [image] up to the
    photons that reach the pixels of the sensor; [expose] is in [SensorModel]. *)
From Coq Require Import Reals List Bool.
From Verif Require Import Vec Num RayModel SurfaceModel SystemModel CellModel SensorModel.
Import ListNotations.
Open Scope R_scope.
Open Scope opt_scope.

(** A cell of the scene and pupil grids: wavelength, two field and two pupil indices. *)
Record cell5 := mkCell { c_w : nat; c_i : nat; c_j : nat; c_k : nat; c_l : nat }.
Definition cells5 (nw n1 n2 m1 m2 : nat) : list cell5 :=
  flat_map (fun w => flat_map (fun i => flat_map (fun j => flat_map (fun k => map (fun l =>
    mkCell w i j k l) (seq 0 m2)) (seq 0 m1)) (seq 0 n2)) (seq 0 n1)) (seq 0 nw).

(** Lines 1053-1085 for one cell: the grid is already physical ([_denormalize_grid] is
    [SystemModel.denormalize_grid]); [center] is the random point of the cell of
    [cell_centers(random=True)], an external draw; [radiance] is the spectral radiance of the
    cell.  The ray is that of [rayfunction], in sensor coordinates; [None] is an exception. *)
Section rays.
Variable sys : system.
Variables area_field area_pupil : point2 -> point2 -> point2 -> point2 -> R.
Variable g : object_grid.
Variable radiance : cell5 -> R.
Variable center : cell5 -> grid_point.

Definition cell_flux (c : cell5) : R :=
  radiance c * cell_area area_field area_pupil g (c_w c) (c_i c) (c_j c) (c_k c) (c_l c).
Definition cell_ray (c : cell5) : option ray :=
  at_sensor sys (trace sys (set_intensity (Some (cell_flux c)) (launch sys (center c)))).
End rays.

(** Lines 1190-1198: with [integrate] one bin from the least to the greatest wavelength. *)
Definition image_edges (integrate : bool) (wavelengths : list R) : option (list R) :=
  if integrate then
    let* mn := list_min wavelengths in
    let* mx := list_max wavelengths in
    Some [mn; mx]
  else Some wavelengths.

(** Lines 1178-1206 and _sensors.py:374-441, [measure], as far as [collect] (with its default
    [where=True]): the photons of each pixel. *)
Definition photon_image (sys : system) (sensor : imaging_sensor)
    (area_field area_pupil : point2 -> point2 -> point2 -> point2 -> R) (g : object_grid)
    (radiance : cell5 -> R) (center : cell5 -> grid_point) (nw n1 n2 m1 m2 : nat) (integrate : bool)
    (pixel : cell) : option R :=
  let* rays := all_some (map (cell_ray sys area_field area_pupil g radiance center) (cells5 nw n1 n2 m1 m2)) in
  let* edges := image_edges integrate (map (CellModel.g_wavelength g) (seq 0 (nw + 1))) in
  collect_image sensor edges (map (fun r => (r, true)) rays) pixel.

(** sensors/materials/_materials.py:1705-1719, [AbstractSiliconSensorMaterial]: the light stays
    in the medium in front of the sensor.  [efficiency] is the absorbance of the coating
    (lines 1790-1870), here an argument. *)
Definition silicon_surface (efficiency : ray -> option vec3 -> option R) : material :=
  mkMaterial r_index r_attenuation efficiency false.
