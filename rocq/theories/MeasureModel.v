(** The electrons of an image: optika/sensors/_sensors.py, [measure], and
    optika/systems/_sequential.py, [image], both with [noise=False]. *)
From Coq Require Import Reals List Bool.
From Coquelicot Require Import Coquelicot.
From Verif Require Import Vec Num RayModel SurfaceModel SystemModel CellModel RamanathanModel SensorModel ImageModel.
Import ListNotations.
Open Scope R_scope.
Open Scope opt_scope.

(** _sensors.py:237, [image.inputs.wavelength.cell_centers(axis_wavelength)]: the wavelength at
    which a bin is exposed. *)
Definition bin_center (wavelengths : list R) (k : nat) : R :=
  (nth k wavelengths 0 + nth (S k) wavelengths 0) / 2.

(** _sensors.py:374-428, [measure] with [noise=False], one pixel.  [IdealSensorMaterial.signal]
    (materials/_materials.py:1576-1601) does not read the cosine, which may then be NaN. *)
Definition measure (tb : pair_table) (s : imaging_sensor) (timedelta : option R) (wavelengths : list R)
    (rays : list (ray * bool)) (c : cell) : option R :=
  let* image := collect_image s wavelengths rays c in
  let* direction := match sn_material s with
                    | Ideal => Some (RtoC 1)
                    | Silicon _ => collect_direction s wavelengths rays c
                    end in
  expose tb s timedelta image (bin_center wavelengths (fst (fst c))) direction.

(** _sequential.py:1087-1206, [image] with [noise=False] and the cosine that [measure] uses, one
    pixel; the arguments are those of [photon_image]. *)
Definition image_rays (sys : system) (area_field area_pupil : point2 -> point2 -> point2 -> point2 -> R)
    (g : object_grid) (radiance : cell5 -> R) (center : cell5 -> grid_point) (nw n1 n2 m1 m2 : nat)
    : option (list (ray * bool)) :=
  let* rays := all_some (map (cell_ray sys area_field area_pupil g radiance center) (cells5 nw n1 n2 m1 m2)) in
  Some (map (fun r => (r, true)) rays).
Definition cosine_image (sys : system) (sensor : imaging_sensor)
    (area_field area_pupil : point2 -> point2 -> point2 -> point2 -> R) (g : object_grid)
    (radiance : cell5 -> R) (center : cell5 -> grid_point) (nw n1 n2 m1 m2 : nat) (integrate : bool)
    (pixel : cell) : option C :=
  let* rays := image_rays sys area_field area_pupil g radiance center nw n1 n2 m1 m2 in
  let* edges := image_edges integrate (map (CellModel.g_wavelength g) (seq 0 (nw + 1))) in
  collect_direction sensor edges rays pixel.
Definition electron_image (tb : pair_table) (sys : system) (sensor : imaging_sensor)
    (area_field area_pupil : point2 -> point2 -> point2 -> point2 -> R) (g : object_grid)
    (radiance : cell5 -> R) (center : cell5 -> grid_point) (nw n1 n2 m1 m2 : nat) (integrate : bool)
    (pixel : cell) : option R :=
  let* rays := image_rays sys area_field area_pupil g radiance center nw n1 n2 m1 m2 in
  let* edges := image_edges integrate (map (CellModel.g_wavelength g) (seq 0 (nw + 1))) in
  measure tb sensor None edges rays pixel.
