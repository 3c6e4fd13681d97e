(** What it means for a ray of a scene to arrive, and what it brings. *)
From Coq Require Import Reals List Bool.
From Verif Require Import Vec Num RayModel SurfaceModel SequenceSpec SystemModel CellModel SensorModel SensorSpec ImageModel.
Import ListNotations.
Open Scope R_scope.

(** The ray with which a cell is traced, and the rays it becomes. *)
Definition start_ray sys flux (p : SystemModel.grid_point) : ray := set_intensity (Some flux) (launch sys p).

(** The ray is on the pixels of the sensor. *)
Definition on_pixels (s : imaging_sensor) (r : ray) : Prop :=
  exists p, r_position r = Some p /\
    Rabs (vx p) <= sn_width_x s * INR (sn_num_x s) / 2 /\ Rabs (vy p) <= sn_width_y s * INR (sn_num_y s) / 2.
(** It arrives there without being vignetted. *)
Definition arrives (s : imaging_sensor) (r : option ray) : Prop :=
  exists r', r = Some r' /\ r_unvignetted r' = true /\ on_pixels s r'.
(** All refractive indices on the way are positive, and the sensor is in vacuum, where the
    ray started. *)
Definition back_in_vacuum (sys : system) (r : ray) : Prop :=
  List.Forall (fun r' => 0 < r_index r') (trace sys r) /\ r_index (List.last (trace sys r) r) = 1.
(** The fraction of the flux that survives the path: [kept_product] of [SequenceSpec]. *)
Definition throughput (sys : system) (r : ray) (k : R) : Prop :=
  kept_product (map st_surface (surfaces_all sys)) (apply_inverse (sys_transformation sys) r) (trace sys r) = Some k.
(** The drawn point is in the wavelength range of its cell. *)
Definition drawn_in (g : object_grid) (c : cell5) (p : SystemModel.grid_point) : Prop :=
  CellModel.g_wavelength g (c_w c) <= SystemModel.g_wavelength p <= CellModel.g_wavelength g (S (c_w c)).
Definition drawn_strictly_in (g : object_grid) (c : cell5) (p : SystemModel.grid_point) : Prop :=
  CellModel.g_wavelength g (c_w c) <= SystemModel.g_wavelength p < CellModel.g_wavelength g (S (c_w c)).
Definition good_sensor (s : imaging_sensor) : Prop :=
  0 < sn_width_x s /\ 0 < sn_width_y s /\ (0 < sn_num_x s)%nat /\ (0 < sn_num_y s)%nat.
