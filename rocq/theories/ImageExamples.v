(** Concrete images. *)
From Coq Require Import Reals List Bool Lra Lia Arith.
From Verif Require Import Vec VecLemmas Num NumLemmas RayModel SnellModel SnellSpec SnellProofs SurfaceModel
  MaterialModel SagModel AngleModel AngleProofs SequenceSpec SequenceProofs SequenceExamples
  SystemModel SystemSpec SystemProofs SystemTraceProofs SystemExamples CellModel CellProofs
  SensorModel SensorSpec SensorCollectProofs ImageModel ImageSpec ImageProofs.
Import ListNotations.
Open Scope R_scope.
Open Scope opt_scope.

(** One pixel of 4 by 4. *)
Definition one_pixel : imaging_sensor := mkSensor 4 4 1 1 1 0 Ideal.
Lemma one_pixel_good : good_sensor one_pixel.
Proof. unfold good_sensor; cbn; repeat split; try lra; lia. Qed.

(** One cell of unit field and pupil areas between two wavelengths. *)
Definition unit_cell (w0 w1 : R) : object_grid :=
  CellModel.mkGrid (fun w => w0 + INR w * (w1 - w0)) (fun _ i j => (INR i, INR j)) (fun _ _ _ k l => (INR k, INR l)).
Lemma unit_area : forall w0 w1 w i j k l, cell_area quad_area quad_area (unit_cell w0 w1) w i j k l = w1 - w0.
Proof.
  intros. unfold cell_area, volume_cell_1d, volume_cell_2d, center1, unit_cell. cbn [CellModel.g_wavelength CellModel.g_field CellModel.g_pupil].
  assert (Q : forall a b : nat, quad_area (INR a, INR b) (INR (S a), INR b) (INR (S a), INR (S b)) (INR a, INR (S b)) = 1).
  { intros a b. unfold quad_area, cross2. cbn [fst snd]. rewrite !S_INR. field. }
  rewrite !Q, Rabs_R1, S_INR. field.
Qed.

(** The point of the cell that is drawn: the axis direction, position (1, 1). *)
Definition drawn (w : R) (a : R * R) (c : cell5) : SystemModel.grid_point := SystemModel.mkGrid w (1, 1) a.

Lemma launch_axis : forall sys w a f, sys_at_infinity sys = false -> sf_transformation (st_surface (sys_object sys)) = shift (V3 0 0 0) ->
  direction (fst a) (snd a) = on_axis ->
  start_ray sys f (SystemModel.mkGrid w (1, 1) a) = mkRay w (Some (V3 1 1 0)) (Some on_axis) (Some f) 0 1 true.
Proof.
  intros sys w a f I T D. unfold start_ray, launch. rewrite I, T.
  cbn [SystemModel.g_field SystemModel.g_pupil fst snd SystemModel.g_wavelength shift apply_transformation].
  rewrite D. unfold set_intensity, ray_transform, rigid_point, rigid_vector. cbn [r_wavelength r_position r_direction r_intensity r_attenuation r_index r_unvignetted omap rg_mat rg_shift].
  rewrite !mapply_mid. f_equal. f_equal. apply vec_eq; cbn; ring.
Qed.

(** [simple] of [SystemExamples]: two planes and the sensor, in vacuum. *)
Lemma simple_start : forall w a f, direction (fst a) (snd a) = on_axis ->
  start_ray simple f (SystemModel.mkGrid w (1, 1) a) = mkRay w (Some (V3 1 1 0)) (Some on_axis) (Some f) 0 1 true.
Proof. intros. apply launch_axis; try reflexivity; assumption. Qed.
Lemma simple_vacuum : forall w a f, direction (fst a) (snd a) = on_axis ->
  back_in_vacuum simple (start_ray simple f (SystemModel.mkGrid w (1, 1) a)).
Proof.
  intros w a f D. rewrite simple_start by exact D. unfold back_in_vacuum. rewrite simple_trace.
  cbn [List.last r_index]. split; [|reflexivity]. repeat (apply List.Forall_cons; [cbn; lra|]). apply List.Forall_nil.
Qed.
Lemma sensor_frame : forall sys v w p d f n rays r, omap (fun s => sf_transformation (st_surface s)) (sys_sensor sys) = Some (shift v) ->
  last_of rays = Some r -> r = mkRay w (Some p) (Some d) (Some f) 0 n true ->
  at_sensor sys rays = Some (mkRay w (Some (vsub p v)) (Some d) (Some f) 0 n true).
Proof.
  intros sys v w p d f n rays r S L ->. unfold at_sensor. destruct (sys_sensor sys) as [s|]; [|discriminate].
  cbn [omap obind] in *. injection S as S. rewrite L, S. cbn [obind shift apply_inverse].
  unfold ray_transform, rigid_inv, rigid_point, rigid_vector. cbn [r_wavelength r_position r_direction r_intensity r_attenuation r_index r_unvignetted omap rg_mat rg_shift].
  rewrite mid_trans, !mapply_mid. reflexivity.
Qed.
Lemma simple_ray : forall w a f g radiance c, direction (fst a) (snd a) = on_axis ->
  cell_flux quad_area quad_area g radiance c = f ->
  cell_ray simple quad_area quad_area g radiance (drawn w a) c = Some (mkRay w (Some (V3 1 1 0)) (Some on_axis) (Some f) 0 1 true).
Proof.
  intros w a f g radiance c D F. unfold cell_ray. rewrite F.
  change (set_intensity (Some f) (launch simple (drawn w a c))) with (start_ray simple f (SystemModel.mkGrid w (1, 1) a)).
  rewrite simple_start, simple_trace by exact D.
  erewrite (sensor_frame simple (V3 0 0 2) w (V3 1 1 2) on_axis f 1); [|reflexivity|reflexivity|reflexivity]. f_equal. f_equal. f_equal. apply vec_eq; cbn; ring.
Qed.
Lemma shift_rigid : forall v t, shift v = Some t -> is_rigid t.
Proof. intros v t E. injection E as <-. apply orthogonal_mid. Qed.
Lemma simple_rigid : List.Forall rigid_surface (map st_surface (surfaces_all simple)).
Proof. repeat (apply List.Forall_cons; [unfold rigid_surface; cbn; apply orthogonal_mid|]). apply List.Forall_nil. Qed.
Lemma simple_passive : List.Forall passive (map st_surface (surfaces_all simple)).
Proof.
  assert (P : forall t, passive (window t)).
  { intros t. split; [|split]; cbn; [intros r u e E; injection E as <-; lra|intros; lra|discriminate]. }
  repeat (apply List.Forall_cons; [apply P|]). apply List.Forall_nil.
Qed.

Definition one_cell : cell5 := mkCell 0 0 0 0 0.

(** The photons of the only pixel, when the ray of the only cell lands on it. *)
Lemma on_pixel_11 : forall w z f d n, on_pixels one_pixel (mkRay w (Some (V3 1 1 z)) d f 0 n true).
Proof. intros. exists (V3 1 1 z). split; [reflexivity|]. cbn. split; apply Rabs_le; lra. Qed.

(** The image of one ray. *)
Lemma one_ray_image : forall wl r f, good_grid one_pixel wl -> r_intensity r = Some f -> r_unvignetted r = true ->
  inside one_pixel wl r -> osum (map (collect_image one_pixel wl [(r, true)]) (grid_cells one_pixel wl)) = Some f.
Proof.
  intros wl r f G F U I.
  rewrite (flux_conserved one_pixel wl [(r, true)] G) with (b := fun rw => ray_where rw && match ray_cell one_pixel wl (fst rw) with Some _ => true | None => false end).
  - cbn [filter fst]. destruct (cell_exists _ _ _ G I) as [c0 E]. rewrite E. unfold ray_where. cbn [fst snd]. rewrite U. cbn.
    f_equal. unfold intensity_of. rewrite F. ring.
  - intros rw [<-|[]] _. cbn. congruence.
  - intros rw. rewrite andb_true_iff, where_iff. split; intros [W X]; (split; [exact W|]).
    + destruct (ray_cell _ _ (fst rw)) as [c|] eqn:E; [|discriminate]. apply (cell_some _ _ _ _ G E).
    + destruct (cell_exists _ _ _ G X) as [c ->]. reflexivity.
Qed.
Lemma lost_ray_image : forall wl r, good_grid one_pixel wl -> r_intensity r <> None ->
  ~ inside one_pixel wl r -> osum (map (collect_image one_pixel wl [(r, true)]) (grid_cells one_pixel wl)) = Some 0.
Proof.
  intros wl r G F I.
  rewrite (flux_conserved one_pixel wl [(r, true)] G) with (b := fun rw => ray_where rw && match ray_cell one_pixel wl (fst rw) with Some _ => true | None => false end).
  - cbn [filter fst]. destruct (ray_cell one_pixel wl r) as [c|] eqn:E; [exfalso; apply I, (cell_some _ _ _ _ G E)|].
    rewrite andb_false_r. reflexivity.
  - intros rw [<-|[]] _. exact F.
  - intros rw. rewrite andb_true_iff, where_iff. split; intros [W X]; (split; [exact W|]).
    + destruct (ray_cell _ _ (fst rw)) as [c|] eqn:E; [|discriminate]. apply (cell_some _ _ _ _ G E).
    + destruct (cell_exists _ _ _ G X) as [c ->]. reflexivity.
Qed.
Lemma one_cell_image : forall sys g radiance center r mn mx c, cell_ray sys quad_area quad_area g radiance center one_cell = Some r ->
  Rmin (CellModel.g_wavelength g 0) (CellModel.g_wavelength g 1) = mn -> Rmax (CellModel.g_wavelength g 0) (CellModel.g_wavelength g 1) = mx ->
  photon_image sys one_pixel quad_area quad_area g radiance center 1 1 1 1 1 true c = collect_image one_pixel [mn; mx] [(r, true)] c.
Proof.
  intros sys g radiance center r mn mx c E <- <-. unfold photon_image. cbn [cells5 seq flat_map map app].
  change (mkCell 0 0 0 0 0) with one_cell. rewrite E. cbn [all_some obind]. unfold image_edges. cbn [map seq Nat.add list_min list_max fold_left obind].
  reflexivity.
Qed.
Lemma good_pair : forall a b, a < b -> good_grid one_pixel [a; b].
Proof.
  intros a b L. destruct one_pixel_good as (A & B & C & E). repeat split; try assumption; [cbn; lia|]. repeat constructor. exact L.
Qed.

(** Decreasing wavelengths: a positive radiance gives a negative number of photons. *)
Lemma decreasing_image : exists a, direction (fst a) (snd a) = on_axis /\
  osum (map (photon_image simple one_pixel quad_area quad_area (unit_cell 2 1) (fun _ => 1) (drawn (3/2) a) 1 1 1 1 1 true)
    (grid_cells one_pixel [1; 2])) = Some (-1).
Proof.
  destruct on_axis_angles as (a & _ & D). exists a. split; [exact D|].
  set (r := mkRay (3/2) (Some (V3 1 1 0)) (Some on_axis) (Some (-1)) 0 1 true).
  rewrite (map_ext _ (collect_image one_pixel [1; 2] [(r, true)])).
  - apply one_ray_image; [apply good_pair; lra|reflexivity|reflexivity|]. split; [cbn; lra|]. apply on_pixel_11.
  - intros c. apply one_cell_image.
    + apply simple_ray; [exact D|]. unfold cell_flux. rewrite unit_area. ring.
    + cbn. rewrite Rmin_right; lra.
    + cbn. rewrite Rmax_left; lra.
Qed.

(** A sensor in water. *)
Definition silicon : surface := mkSurface plane (silicon_surface (fun _ _ => Some 1)) None None (shift (V3 0 0 2)).
Definition immersed : system :=
  mkSystem (win 0 true false) [mkStop (mkSurface plane water None None (shift (V3 0 0 1))) false true]
    (Some (mkStop silicon false false)) None false.

Lemma axis_snell : forall n n', 0 < n -> 0 < n' -> snells_law on_axis n n' false (V3 0 0 (-1)) = Some on_axis.
Proof.
  intros n n' N N'. apply snells_law_complete; try assumption; try apply on_axis_unit; try (unfold dot; cbn; lra).
  - unfold is_unit, norm2, dot; cbn; lra.
  - apply vec_eq; cbn; unfold tangential, dot; cbn; ring.
Qed.
(** Silicon behaves like a medium of the index of the ray. *)
Lemma silicon_step : forall w p, surface_propagate silicon (mkRay w (Some p) (Some on_axis) (Some 1) 0 (4/3) true)
  = mkRay (w / ((4/3) / (4/3))) (Some (vadd p (vscale ((2 - vz p) / vz on_axis) on_axis))) (Some on_axis) (Some 1) 0 (4/3) true.
Proof.
  intros w p.
  transitivity (surface_propagate (mkSurface plane (mkMaterial (fun _ => 4/3) (fun _ => 0) (fun _ _ => Some 1) false) None None (shift (V3 0 0 2)))
    (mkRay w (Some p) (Some on_axis) (Some 1) 0 (4/3) true)); [reflexivity|].
  apply refract_step; try reflexivity; try (cbn; lra); try lra. apply axis_snell; lra.
Qed.
Lemma immersed_trace : forall w, w <> 0 -> trace immersed (mkRay w (Some (V3 1 1 0)) (Some on_axis) (Some 1) 0 1 true)
  = [mkRay w (Some (V3 1 1 0)) (Some on_axis) (Some 1) 0 1 true;
     mkRay (4/3 * w) (Some (V3 1 1 1)) (Some on_axis) (Some 1) 0 (4/3) true;
     mkRay (4/3 * w) (Some (V3 1 1 2)) (Some on_axis) (Some 1) 0 (4/3) true].
Proof.
  intros w W. unfold trace. cbn [immersed sys_transformation apply_inverse surfaces_all sys_object sys_surfaces sys_sensor app existsb win st_field orb negb map st_surface].
  rewrite !accumulate_cons.
  rewrite window_shift by (try apply on_axis_unit; cbn; lra).
  replace (vadd (V3 1 1 0) _) with (V3 1 1 0) by (apply vec_eq; cbn; field).
  rewrite (refract_step water 1 w 1 (V3 1 1 0) on_axis on_axis) with (n' := 4/3); try reflexivity; try (cbn; lra); try lra.
  2:{ intros r E. apply water_index. rewrite E. exact W. }
  2:{ apply axis_snell; lra. }
  replace (vadd (V3 1 1 0) _) with (V3 1 1 1) by (apply vec_eq; cbn; field).
  rewrite silicon_step.
  replace (vadd (V3 1 1 1) _) with (V3 1 1 2) by (apply vec_eq; cbn; field).
  replace (w / (1 / (4/3))) with (4/3 * w) by field. replace (4/3 * w / (4/3 / (4/3))) with (4/3 * w) by field.
  reflexivity.
Qed.
(** A flux of one between the wavelengths 1 and 7/4. *)
Definition bright (c : cell5) : R := 4/3.
Lemma immersed_ray : forall a c, direction (fst a) (snd a) = on_axis ->
  cell_ray immersed quad_area quad_area (unit_cell 1 (7/4)) bright (drawn (3/2) a) c
  = Some (mkRay 2 (Some (V3 1 1 0)) (Some on_axis) (Some 1) 0 (4/3) true).
Proof.
  intros a c D. unfold cell_ray.
  replace (cell_flux quad_area quad_area (unit_cell 1 (7/4)) bright c) with 1 by (unfold cell_flux, bright; rewrite unit_area; field).
  change (set_intensity (Some 1) (launch immersed (drawn (3/2) a c))) with (start_ray immersed 1 (SystemModel.mkGrid (3/2) (1, 1) a)).
  rewrite launch_axis, immersed_trace by (try reflexivity; try exact D; lra).
  erewrite (sensor_frame immersed (V3 0 0 2) (4/3 * (3/2)) (V3 1 1 2) on_axis 1 (4/3)); [|reflexivity|reflexivity|reflexivity].
  f_equal. f_equal; [lra|]. f_equal. apply vec_eq; cbn; ring.
Qed.
Lemma immersed_image : exists a, direction (fst a) (snd a) = on_axis /\
  osum (map (photon_image immersed one_pixel quad_area quad_area (unit_cell 1 (7/4)) bright (drawn (3/2) a) 1 1 1 1 1 true)
    (grid_cells one_pixel [1; 7/4])) = Some 0.
Proof.
  destruct on_axis_angles as (a & _ & D). exists a. split; [exact D|].
  rewrite (map_ext _ (collect_image one_pixel [1; 7/4] [(mkRay 2 (Some (V3 1 1 0)) (Some on_axis) (Some 1) 0 (4/3) true, true)])).
  - apply lost_ray_image; [apply good_pair; lra|discriminate|]. intros [W _]. cbn in W. lra.
  - intros c. apply one_cell_image; [apply immersed_ray, D| |]; cbn; [rewrite Rmin_left; lra|rewrite Rmax_right; lra].
Qed.
Lemma immersed_rigid : List.Forall rigid_surface (map st_surface (surfaces_all immersed)).
Proof. repeat (apply List.Forall_cons; [unfold rigid_surface; cbn; apply orthogonal_mid|]). apply List.Forall_nil. Qed.
Lemma immersed_passive : List.Forall passive (map st_surface (surfaces_all immersed)).
Proof.
  apply List.Forall_cons; [|apply List.Forall_cons; [|apply List.Forall_cons; [|apply List.Forall_nil]]];
  (split; [|split]; cbn; [intros r u e E; injection E as <-; lra|intros; lra|discriminate]).
Qed.
