(** Specification of the sensor: pixels, flux, detector statistics. *)
From Coq Require Import Reals List Bool Sorted.
From Coquelicot Require Import Coquelicot.
From Verif Require Import Vec Num RayModel RamanathanModel SensorModel.
Import ListNotations.
Open Scope R_scope.

(** ** Collecting rays *)

(** A ray counts if it is not vignetted and the mask of the caller selects it. *)
Definition counted (rw : ray * bool) : Prop := r_unvignetted (fst rw) = true /\ snd rw = true.
Definition intensity_of (r : ray) : R := match r_intensity r with Some i => i | None => 0 end.

(** The grid: [num] pixels of the given width, centred on the axis, and bins between
    increasing wavelengths. *)
Definition good_grid (s : imaging_sensor) (wavelengths : list R) : Prop :=
  0 < sn_width_x s /\ 0 < sn_width_y s /\ (0 < sn_num_x s)%nat /\ (0 < sn_num_y s)%nat /\
  (2 <= length wavelengths)%nat /\ Sorted Rlt wavelengths.
Definition inside (s : imaging_sensor) (wavelengths : list R) (r : ray) : Prop :=
  nth 0 wavelengths 0 <= r_wavelength r <= last wavelengths 0 /\
  exists p, r_position r = Some p /\
    Rabs (vx p) <= sn_width_x s * INR (sn_num_x s) / 2 /\ Rabs (vy p) <= sn_width_y s * INR (sn_num_y s) / 2.
Definition grid_cells (s : imaging_sensor) (wavelengths : list R) : list cell :=
  list_prod (list_prod (seq 0 (length wavelengths - 1)) (seq 0 (sn_num_x s))) (seq 0 (sn_num_y s)).
(** The rectangle of a pixel. *)
Definition covers (s : imaging_sensor) (wavelengths : list R) (c : cell) (r : ray) : Prop :=
  let '(k, i, j) := c in
  nth k wavelengths 0 <= r_wavelength r <= nth (S k) wavelengths 0 /\
  exists p, r_position r = Some p /\
    sn_width_x s * (INR i - INR (sn_num_x s) / 2) <= vx p <= sn_width_x s * (INR i + 1 - INR (sn_num_x s) / 2) /\
    sn_width_y s * (INR j - INR (sn_num_y s) / 2) <= vy p <= sn_width_y s * (INR j + 1 - INR (sn_num_y s) / 2).

(** The mean of values with weights that are not all zero. *)
Definition is_weighted_mean {A} (weight value : A -> R) (l : list A) (m : R) : Prop :=
  0 < rsum (map weight l) /\ m * rsum (map weight l) = rsum (map (fun a => weight a * value a) l).
Definition scale_intensity (k : R) (rw : ray * bool) : ray * bool :=
  (set_intensity (omap (Rmult k) (r_intensity (fst rw))) (fst rw), snd rw).

(** ** Depth statistics *)

(** The differential collection efficiency at a depth: linear in the implant layer, one
    below it. *)
Definition differential_efficiency (eta0 W z : R) : R := if Rlt_dec z W then eta0 + (1 - eta0) * z / W else 1.
(** Photons are absorbed at depths with an exponential distribution. *)
Definition is_depth_mean (a : R) (g : R -> R) (v : R) : Prop :=
  (forall D, 0 <= D -> ex_RInt (fun z => g z * (a * exp (- a * z))) 0 D) /\
  is_lim (fun D => RInt (fun z => g z * (a * exp (- a * z))) 0 D) p_infty v.
(** Its restriction to a layer of thickness [D]. *)
Definition is_truncated_mean (a D : R) (g : R -> R) (v : R) : Prop :=
  is_RInt (fun z => g z * (a * exp (- a * z))) 0 D (v * (1 - exp (- a * D))).

(** The ray contributes to the pixel, with this refracted cosine. *)
Definition hits (s : imaging_sensor) (wavelengths : list R) (c : cell) (rw : ray * bool) : Prop :=
  counted rw /\ ray_cell s wavelengths (fst rw) = Some c.
Definition numeric (s : imaging_sensor) (rw : ray * bool) : Prop :=
  r_intensity (fst rw) <> None /\ ray_cosine s rw <> None.
Definition cosine_of (s : imaging_sensor) (rw : ray * bool) : C :=
  match ray_cosine s rw with Some d => d | None => RtoC 0 end.

(** ** Exposure and noise *)

(** The sensor absorbs light of this wavelength arriving with this refracted cosine, has an
    implant layer, and turns a photon into [q] pairs on average. *)
Definition working (tb : pair_table) (m : sensor_material) (wavelength : R) (direction : C) : Prop :=
  match m with
  | Ideal => True
  | Silicon s =>
      0 < wavelength /\ 0 < Re direction /\ 0 < Im (si_n s wavelength * direction)%C /\ 0 < si_implant s /\
      0 <= si_eta0 s <= 1 /\ exists q, quantum_yield_ideal tb wavelength (si_temperature s) = Some q /\ 0 < q
  end.
