(** C120: the integrated image and the images of the wavelength bins. *)
From Coq Require Import Reals List Bool Lra Lia Arith.
From Coquelicot Require Import Coquelicot.
From Verif Require Import Vec Num RayModel SurfaceModel AngleModel SystemModel SystemExamples CellModel CellProofs RamanathanModel
  SensorModel SensorSpec SensorExamples ImageModel ImageExamples MeasureModel MeasureSpec MeasureExamples IntegrateSpec IntegrateProofs IntegrateExamples.
Import ListNotations.
Open Scope R_scope.

(** The photons of every pixel; a NaN in one bin is a NaN in the integrated pixel. *)
Theorem C120_photons : forall sys area_field area_pupil g radiance center sensor nw n1 n2 m1 m2,
  (forall w, (w < nw)%nat -> CellModel.g_wavelength g w < CellModel.g_wavelength g (S w)) -> (0 < nw)%nat ->
  let photons := photon_image sys sensor area_field area_pupil g radiance center nw n1 n2 m1 m2 in
  forall i j, photons true (0, i, j)%nat = osum (map (fun k => photons false (k, i, j)) (seq 0 nw)).
Proof. exact photons_integrated. Qed.
Print Assumptions C120_photons.

(** The electrons of every pixel of an ideal sensor. *)
Theorem C120_ideal : forall sys area_field area_pupil g radiance center sensor nw n1 n2 m1 m2,
  (forall w, (w < nw)%nat -> CellModel.g_wavelength g w < CellModel.g_wavelength g (S w)) -> (0 < nw)%nat ->
  forall tb, let electrons := electron_image tb sys sensor area_field area_pupil g radiance center nw n1 n2 m1 m2 in
  sn_material sensor = Ideal ->
  forall i j, electrons true (0, i, j)%nat = osum (map (fun k => electrons false (k, i, j)) (seq 0 nw)).
Proof. exact ideal_integrated. Qed.
Print Assumptions C120_ideal.

(** A silicon sensor: the difference is what the photons of each bin are worth at the centre of
    their bin beyond what they are worth at the centre of the whole range. *)
Theorem C120_silicon_partial : forall sys area_field area_pupil g radiance center sensor nw n1 n2 m1 m2,
  (forall w, (w < nw)%nat -> CellModel.g_wavelength g w < CellModel.g_wavelength g (S w)) -> (0 < nw)%nat ->
  let photons := photon_image sys sensor area_field area_pupil g radiance center nw n1 n2 m1 m2 in
  forall tb, let electrons := electron_image tb sys sensor area_field area_pupil g radiance center nw n1 n2 m1 m2 in
  let cosine := cosine_image sys sensor area_field area_pupil g radiance center nw n1 n2 m1 m2 in
  forall m i j w0 d0 y0 (w : nat -> R) (d : nat -> C) (y p : nat -> R), sn_material sensor = Silicon m ->
  exposed_at g nw true (0, i, j)%nat w0 -> cosine true (0, i, j)%nat = Some d0 ->
  working tb (Silicon m) w0 d0 -> per_photon tb m w0 d0 y0 ->
  (forall k, (k < nw)%nat -> exposed_at g nw false (k, i, j) (w k) /\ photons false (k, i, j) = Some (p k) /\
     cosine false (k, i, j) = Some (d k) /\ working tb (Silicon m) (w k) (d k) /\ per_photon tb m (w k) (d k) (y k)) ->
  exists whole bins, electrons true (0, i, j)%nat = Some whole /\
    osum (map (fun k => electrons false (k, i, j)) (seq 0 nw)) = Some bins /\
    bins - whole = sn_exposure sensor * rsum (map (fun k => (y k - y0) * p k) (seq 0 nw)).
Proof. exact silicon_integrated. Qed.
Print Assumptions C120_silicon_partial.

(** Light of wavelength 3/2 in a range from 1 to 3, a third of an electron in four thirds lost
    although the sensor collects every electron. *)
Theorem C120_refuted : exists tb sys area_field area_pupil g radiance center sensor m nw n1 n2 m1 m2 i j whole bins,
  let electrons := electron_image tb sys sensor area_field area_pupil g radiance center nw n1 n2 m1 m2 in
  (forall w, (w < nw)%nat -> CellModel.g_wavelength g w < CellModel.g_wavelength g (S w)) /\ (0 < nw)%nat /\
  sn_material sensor = Silicon m /\ si_eta0 m = 1 /\ electrons true (0, i, j)%nat = Some whole /\
  osum (map (fun k => electrons false (k, i, j)) (seq 0 nw)) = Some bins /\ whole <> bins.
Proof.
  destruct colour_lost as (a & whole & bins & W & B & E).
  exists table_a, simple, quad_area, quad_area, (unit_cell 1 2), first_bin, (coloured a), (metal_sensor 1), (metal 1), 2%nat, 1%nat, 1%nat, 1%nat, 1%nat, 0%nat, 0%nat, whole, bins.
  split; [exact increasing_123|]. split; [lia|]. split; [reflexivity|]. split; [reflexivity|]. split; [exact W|]. split; [exact B|]. lra.
Qed.
Print Assumptions C120_refuted.

Example C120_nonvacuous : exists a,
  let g := unit_cell 1 2 in
  let photons := photon_image simple (metal_sensor 1) quad_area quad_area g first_bin (coloured a) 2 1 1 1 1 in
  let cosine := cosine_image simple (metal_sensor 1) quad_area quad_area g first_bin (coloured a) 2 1 1 1 1 in
  (forall w, (w < 2)%nat -> CellModel.g_wavelength g w < CellModel.g_wavelength g (S w)) /\
  photons true (0, 0, 0)%nat = Some 1 /\
  exposed_at g 2 true (0, 0, 0)%nat 2 /\ cosine true (0, 0, 0)%nat = Some (RtoC 1) /\
  working table_a (Silicon (metal 1)) 2 (RtoC 1) /\ per_photon table_a (metal 1) 2 (RtoC 1) (2 / 2) /\
  forall k, (k < 2)%nat -> exposed_at g 2 false (k, 0, 0)%nat (3/2 + INR k) /\
    photons false (k, 0, 0)%nat = Some (if Nat.eqb 0 k then 1 else 0) /\ cosine false (k, 0, 0)%nat = Some (RtoC 1) /\
    working table_a (Silicon (metal 1)) (3/2 + INR k) (RtoC 1) /\ per_photon table_a (metal 1) (3/2 + INR k) (RtoC 1) (2 / (3/2 + INR k)).
Proof.
  destruct (AngleProofs.direction_angles on_axis on_axis_unit) as (x & y & _ & D). exists (x, y). cbv zeta. split; [exact increasing_123|]. split.
  - rewrite photons_integrated by (first [exact increasing_123 | lia]). cbn [seq map].
    destruct (bin_values (x, y) D 0 ltac:(lia)) as (_ & -> & _). destruct (bin_values (x, y) D 1 ltac:(lia)) as (_ & -> & _). cbn. f_equal. ring.
  - split; [exact whole_exposed|]. split; [apply whole_cosine; exact D|]. split; [apply metal_works; lra|]. split; [apply metal_yield; lra|]. apply bin_values. exact D.
Qed.
