(** C82: imaging conserves flux. *)
From Coq Require Import Reals List Bool Lra Lia Arith.
From Verif Require Import Vec Num RayModel SurfaceModel SequenceSpec AngleModel SystemModel SystemExamples CellModel CellProofs SensorModel SensorSpec
  ImageModel ImageSpec ImageProofs ImageExamples.
Import ListNotations.
Open Scope R_scope.

(** Wavelengths increasing, every path back in vacuum at the sensor: the photons of all pixels
    together are the fluxes of the cells whose rays arrive, each times the throughput of its path. *)
Theorem C82_conserved_partial : forall sys s area_field area_pupil g radiance center,
  sys_sensor sys = Some s -> forall sensor nw n1 n2 m1 m2, good_sensor sensor -> (0 < nw)%nat ->
  (forall w, (w < nw)%nat -> CellModel.g_wavelength g w < CellModel.g_wavelength g (S w)) ->
  let cells := cells5 nw n1 n2 m1 m2 in
  let flux := cell_flux area_field area_pupil g radiance in
  let traced := cell_ray sys area_field area_pupil g radiance center in
  (forall c, In c cells -> drawn_in g c (center c)) ->
  (forall c, In c cells -> back_in_vacuum sys (start_ray sys (flux c) (center c))) ->
  (forall c, In c cells -> 0 <= radiance c) ->
  (forall c r, In c cells -> traced c = Some r -> on_pixels sensor r -> r_intensity r <> None) ->
  List.Forall rigid_surface (map st_surface (surfaces_all sys)) ->
  List.Forall passive (map st_surface (surfaces_all sys)) ->
  forall b, (forall c, b c = true <-> arrives sensor (traced c)) ->
  exists k total,
    (forall c, In c cells -> b c = true -> throughput sys (start_ray sys (flux c) (center c)) (k c)) /\
    osum (map (photon_image sys sensor area_field area_pupil g radiance center nw n1 n2 m1 m2 true)
      (grid_cells sensor [CellModel.g_wavelength g 0; CellModel.g_wavelength g nw])) = Some total /\
    total = rsum (map (fun c => flux c * k c) (filter b cells)) /\
    0 <= total <= rsum (map flux cells).
Proof. intros sys s af ap g ra ce HS. exact (image_total sys s HS af ap g ra ce). Qed.
Print Assumptions C82_conserved_partial.

(** Without integration, the photons of a wavelength bin depend on the radiance of that bin
    only. *)
Theorem C82_spectral_partial : forall sys sensor area_field area_pupil g radiance radiance' center nw n1 n2 m1 m2 w i j,
  sys_sensor sys <> None ->
  (forall w, (w < nw)%nat -> CellModel.g_wavelength g w < CellModel.g_wavelength g (S w)) ->
  let cells := cells5 nw n1 n2 m1 m2 in
  (forall c, In c cells -> drawn_strictly_in g c (center c)) ->
  (forall c f, In c cells -> back_in_vacuum sys (start_ray sys f (center c))) ->
  (forall c, In c cells -> c_w c = w -> radiance c = radiance' c) ->
  photon_image sys sensor area_field area_pupil g radiance center nw n1 n2 m1 m2 false (w, i, j)
  = photon_image sys sensor area_field area_pupil g radiance' center nw n1 n2 m1 m2 false (w, i, j).
Proof. exact spectral. Qed.
Print Assumptions C82_spectral_partial.

(** False when the sensor is not in vacuum: [collect] compares the wavelength of the ray in the
    medium with the wavelengths of the scene in vacuum.  The only ray of this scene arrives on
    the only pixel with its whole flux, and no photon is collected. *)
Theorem C82_immersed_refuted : exists sys sensor area_field area_pupil g radiance center,
  let traced := cell_ray sys area_field area_pupil g radiance center in
  good_sensor sensor /\
  (forall w, (w < 1)%nat -> CellModel.g_wavelength g w < CellModel.g_wavelength g (S w)) /\
  (forall c, In c (cells5 1 1 1 1 1) -> drawn_in g c (center c) /\ cell_flux area_field area_pupil g radiance c = 1 /\
     arrives sensor (traced c) /\ omap r_intensity (traced c) = Some (Some 1)) /\
  List.Forall rigid_surface (map st_surface (surfaces_all sys)) /\
  List.Forall passive (map st_surface (surfaces_all sys)) /\
  osum (map (photon_image sys sensor area_field area_pupil g radiance center 1 1 1 1 1 true)
      (grid_cells sensor [CellModel.g_wavelength g 0; CellModel.g_wavelength g 1])) = Some 0.
Proof.
  destruct immersed_image as (a & D & H).
  exists immersed, one_pixel, quad_area, quad_area, (unit_cell 1 (7/4)), bright, (drawn (3/2) a).
  cbn zeta. split; [exact one_pixel_good|]. split; [intros [|w] L; [cbn; lra|lia]|]. split.
  { intros c I. assert (c = one_cell) by (cbn in I; destruct I as [<-|[]]; reflexivity). subst c. split; [|split; [|split]].
    - unfold drawn_in. cbn. lra.
    - unfold cell_flux, bright. rewrite unit_area. field.
    - rewrite (immersed_ray a _ D). eexists. split; [reflexivity|]. split; [reflexivity|]. apply on_pixel_11.
    - rewrite (immersed_ray a _ D). reflexivity. }
  split; [exact immersed_rigid|]. split; [exact immersed_passive|].
  replace (CellModel.g_wavelength (unit_cell 1 (7/4)) 0) with 1 by (cbn; lra).
  replace (CellModel.g_wavelength (unit_cell 1 (7/4)) 1) with (7/4) by (cbn; lra). exact H.
Qed.
Print Assumptions C82_immersed_refuted.

(** False for decreasing wavelengths: a scene of radiance one has a negative image. *)
Theorem C82_decreasing_refuted : exists sys sensor area_field area_pupil g center,
  good_sensor sensor /\ CellModel.g_wavelength g 1 < CellModel.g_wavelength g 0 /\
  (forall c, In c (cells5 1 1 1 1 1) ->
     CellModel.g_wavelength g 1 <= SystemModel.g_wavelength (center c) <= CellModel.g_wavelength g 0 /\
     forall f, back_in_vacuum sys (start_ray sys f (center c))) /\
  List.Forall rigid_surface (map st_surface (surfaces_all sys)) /\
  List.Forall passive (map st_surface (surfaces_all sys)) /\
  osum (map (photon_image sys sensor area_field area_pupil g (fun _ => 1) center 1 1 1 1 1 true)
      (grid_cells sensor [CellModel.g_wavelength g 1; CellModel.g_wavelength g 0])) = Some (-1).
Proof.
  destruct decreasing_image as (a & D & H).
  exists simple, one_pixel, quad_area, quad_area, (unit_cell 2 1), (drawn (3/2) a).
  split; [exact one_pixel_good|]. split; [cbn; lra|]. split.
  { intros c I. split; [cbn; lra|]. intros f. apply simple_vacuum, D. }
  split; [exact simple_rigid|]. split; [exact simple_passive|].
  replace (CellModel.g_wavelength (unit_cell 2 1) 1) with 1 by (cbn; lra).
  replace (CellModel.g_wavelength (unit_cell 2 1) 0) with 2 by (cbn; lra). exact H.
Qed.
Print Assumptions C82_decreasing_refuted.

(** The hypotheses of the first two hold of [simple] with one cell of flux 2, and the image is
    not empty. *)
Example C82_nonvacuous : exists center b,
  let g := unit_cell 1 2 in let radiance := fun _ : cell5 => 2 in
  let traced := cell_ray simple quad_area quad_area g radiance center in
  sys_sensor simple <> None /\ good_sensor one_pixel /\
  (forall w, (w < 1)%nat -> CellModel.g_wavelength g w < CellModel.g_wavelength g (S w)) /\
  (forall c, In c (cells5 1 1 1 1 1) -> drawn_in g c (center c) /\ drawn_strictly_in g c (center c) /\
     forall f, back_in_vacuum simple (start_ray simple f (center c))) /\
  (forall c r, traced c = Some r -> r_intensity r <> None) /\
  List.Forall rigid_surface (map st_surface (surfaces_all simple)) /\
  List.Forall passive (map st_surface (surfaces_all simple)) /\
  (forall c, b c = true <-> arrives one_pixel (traced c)) /\
  osum (map (photon_image simple one_pixel quad_area quad_area g radiance center 1 1 1 1 1 true)
      (grid_cells one_pixel [1; 2])) = Some 2.
Proof.
  destruct on_axis_angles as (a & _ & D). exists (drawn (3/2) a), (fun _ => true). cbn zeta.
  assert (T : forall c, cell_ray simple quad_area quad_area (unit_cell 1 2) (fun _ => 2) (drawn (3/2) a) c
    = Some (mkRay (3/2) (Some (V3 1 1 0)) (Some on_axis) (Some 2) 0 1 true)).
  { intros c. apply simple_ray; [exact D|]. unfold cell_flux. rewrite unit_area. ring. }
  split; [discriminate|]. split; [exact one_pixel_good|]. split; [intros [|w] L; [cbn; lra|lia]|]. split.
  { intros c I. assert (c = one_cell) by (cbn in I; destruct I as [<-|[]]; reflexivity). subst c.
    split; [unfold drawn_in; cbn; lra|]. split; [unfold drawn_strictly_in; cbn; lra|]. intros f. apply simple_vacuum, D. }
  split. { intros c r E. rewrite T in E. injection E as <-. discriminate. }
  split; [exact simple_rigid|]. split; [exact simple_passive|]. split.
  { intros c. split; [intros _|reflexivity]. rewrite T. eexists. split; [reflexivity|]. split; [reflexivity|]. apply on_pixel_11. }
  rewrite (map_ext _ (collect_image one_pixel [1; 2] [(mkRay (3/2) (Some (V3 1 1 0)) (Some on_axis) (Some 2) 0 1 true, true)])).
  - apply one_ray_image; [apply good_pair; lra|reflexivity|reflexivity|]. split; [cbn; lra|]. apply on_pixel_11.
  - intros c. apply one_cell_image; [apply T| |]; cbn; [rewrite Rmin_left; lra|rewrite Rmax_right; lra].
Qed.
