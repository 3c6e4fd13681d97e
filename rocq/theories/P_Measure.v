(** C119: the image of two scenes together. *)
From Coq Require Import Reals List Bool Lra Lia Arith.
From Coquelicot Require Import Coquelicot.
From Verif Require Import Vec Num RayModel SurfaceModel SequenceSpec AngleModel SystemModel SystemExamples CellModel CellProofs RamanathanModel
  SensorModel SensorSpec SensorExamples ImageModel ImageSpec ImageExamples MeasureModel MeasureSpec MeasureProofs MeasureExamples.
Import ListNotations.
Open Scope R_scope.

(** The photons of every pixel. *)
Theorem C119_photons : forall sys, List.Forall linear_surface (map st_surface (surfaces_all sys)) ->
  forall area_field area_pupil g center sensor l1 l2 nw n1 n2 m1 m2 integrate pixel a b p1 p2,
  let image l := photon_image sys sensor area_field area_pupil g l center nw n1 n2 m1 m2 integrate pixel in
  sys_sensor sys <> None -> image l1 = Some p1 -> image l2 = Some p2 ->
  image (fun c => a * l1 c + b * l2 c) = Some (a * p1 + b * p2).
Proof. exact photons_superpose. Qed.
Print Assumptions C119_photons.

(** The electrons of every pixel of an ideal sensor. *)
Theorem C119_ideal : forall sys, List.Forall linear_surface (map st_surface (surfaces_all sys)) ->
  forall area_field area_pupil g center tb sensor l1 l2 nw n1 n2 m1 m2 integrate pixel a b e1 e2,
  let image l := electron_image tb sys sensor area_field area_pupil g l center nw n1 n2 m1 m2 integrate pixel in
  sys_sensor sys <> None -> sn_material sensor = Ideal -> image l1 = Some e1 -> image l2 = Some e2 ->
  image (fun c => a * l1 c + b * l2 c) = Some (a * e1 + b * e2).
Proof. exact ideal_superpose. Qed.
Print Assumptions C119_ideal.

(** A scene [k] times as bright: [k] times the electrons in every pixel of any sensor. *)
Theorem C119_scale : forall sys, List.Forall linear_surface (map st_surface (surfaces_all sys)) ->
  forall area_field area_pupil g center tb sensor radiance nw n1 n2 m1 m2 integrate pixel k,
  let image l := electron_image tb sys sensor area_field area_pupil g l center nw n1 n2 m1 m2 integrate pixel in
  sys_sensor sys <> None -> 0 < k -> image (fun c => k * radiance c) = omap (Rmult k) (image radiance).
Proof. exact electrons_scale. Qed.
Print Assumptions C119_scale.

(** A silicon sensor never makes more electrons of both scenes than of each, and exactly as many
    only if its back surface collects everything, if one scene leaves the pixel dark, or if the
    light of both is absorbed equally fast. *)
Theorem C119_silicon_partial : forall sys, List.Forall linear_surface (map st_surface (surfaces_all sys)) ->
  forall area_field area_pupil g center tb sensor m l1 l2 nw n1 n2 m1 m2 integrate pixel w p1 p2 d1 d2 e1 e2,
  let photons l := photon_image sys sensor area_field area_pupil g l center nw n1 n2 m1 m2 integrate pixel in
  let cosine l := cosine_image sys sensor area_field area_pupil g l center nw n1 n2 m1 m2 integrate pixel in
  let image l := electron_image tb sys sensor area_field area_pupil g l center nw n1 n2 m1 m2 integrate pixel in
  sys_sensor sys <> None ->
  List.Forall rigid_surface (map st_surface (surfaces_all sys)) ->
  List.Forall passive (map st_surface (surfaces_all sys)) ->
  (forall w, (w < nw)%nat -> CellModel.g_wavelength g w < CellModel.g_wavelength g (S w)) ->
  sn_material sensor = Silicon m -> 0 < sn_exposure sensor ->
  (forall c, 0 <= l1 c /\ 0 <= l2 c) -> exposed_at g nw integrate pixel w ->
  photons l1 = Some p1 -> photons l2 = Some p2 -> cosine l1 = Some d1 -> cosine l2 = Some d2 ->
  working tb (Silicon m) w d1 -> working tb (Silicon m) w d2 ->
  image l1 = Some e1 -> image l2 = Some e2 ->
  exists e, image (fun c => l1 c + l2 c) = Some e /\ e <= e1 + e2 /\
    (e = e1 + e2 <-> si_eta0 m = 1 \/ p1 = 0 \/ p2 = 0 \/ steepness m w d1 = steepness m w d2).
Proof. exact silicon_superpose. Qed.
Print Assumptions C119_silicon_partial.

(** Two beams that reach one pixel of a silicon sensor at different angles: fewer electrons
    together than one by one. *)
Theorem C119_refuted : exists tb sys sensor area_field area_pupil g center nw n1 n2 m1 m2 integrate pixel l1 l2 e1 e2 e,
  let image l := electron_image tb sys sensor area_field area_pupil g l center nw n1 n2 m1 m2 integrate pixel in
  List.Forall linear_surface (map st_surface (surfaces_all sys)) /\ (forall c, 0 <= l1 c /\ 0 <= l2 c) /\
  image l1 = Some e1 /\ image l2 = Some e2 /\ image (fun c => l1 c + l2 c) = Some e /\ e < e1 + e2.
Proof.
  destruct beams_together as (a & a' & e1 & e2 & e & H).
  exists table_a, simple, (metal_sensor 0), quad_area, quad_area, (unit_cell 1 2), (two_beams (3/2) a a'), 1%nat, 1%nat, 1%nat, 2%nat, 1%nat,
    true, the_pixel, (only 0), (only 1), e1, e2, e.
  split; [exact simple_linear|]. split; [intros c; split; apply only_nonneg|]. exact H.
Qed.
Print Assumptions C119_refuted.

Example C119_nonvacuous : exists a a' d1 d2 e1 e2,
  let center := two_beams (3/2) a a' in
  let photons s l := photon_image simple s quad_area quad_area (unit_cell 1 2) l center 1 1 1 2 1 true the_pixel in
  let cosine s l := cosine_image simple s quad_area quad_area (unit_cell 1 2) l center 1 1 1 2 1 true the_pixel in
  let image s l := electron_image table_a simple s quad_area quad_area (unit_cell 1 2) l center 1 1 1 2 1 true the_pixel in
  let s := metal_sensor (1/2) in
  List.Forall linear_surface (map st_surface (surfaces_all simple)) /\ sys_sensor simple <> None /\
  List.Forall rigid_surface (map st_surface (surfaces_all simple)) /\
  List.Forall passive (map st_surface (surfaces_all simple)) /\
  (forall w, (w < 1)%nat -> CellModel.g_wavelength (unit_cell 1 2) w < CellModel.g_wavelength (unit_cell 1 2) (S w)) /\
  0 < sn_exposure s /\ (forall c, 0 <= only 0 c /\ 0 <= only 1 c) /\ exposed_at (unit_cell 1 2) 1 true the_pixel (3/2) /\
  photons s (only 0) = Some 1 /\ photons s (only 1) = Some 1 /\ cosine s (only 0) = Some d1 /\ cosine s (only 1) = Some d2 /\
  working table_a (Silicon (metal (1/2))) (3/2) d1 /\ working table_a (Silicon (metal (1/2))) (3/2) d2 /\
  image s (only 0) = Some e1 /\ image s (only 1) = Some e2.
Proof.
  destruct (beams_apart (1/2) ltac:(lra)) as (a & a' & d1 & d2 & e1 & e2 & P0 & P1 & C0 & C1 & K0 & K1 & Y0 & Y1 & S).
  exists a, a', d1, d2, e1, e2. cbv beta zeta. split; [exact simple_linear|]. split; [cbn; discriminate|]. split; [exact simple_rigid|]. split; [exact simple_passive|].
  split; [exact unit_increasing|]. split; [cbn; lra|]. split; [intros c; split; apply only_nonneg|]. split; [split; [reflexivity|cbn; field]|].
  split; [exact P0|]. split; [exact P1|]. split; [exact C0|]. split; [exact C1|]. split; [exact K0|]. split; [exact K1|]. split; [exact Y0|exact Y1].
Qed.
Example C119_nonvacuous_ideal : exists a a',
  let image l := electron_image table_a simple ideal_sensor quad_area quad_area (unit_cell 1 2) l (two_beams (3/2) a a') 1 1 1 2 1 true the_pixel in
  image (only 0) = Some 1 /\ image (only 1) = Some 1.
Proof. exact beams_ideal. Qed.
