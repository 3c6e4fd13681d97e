(** A scene of one colour seen through two wavelength bins. *)
From Coq Require Import Reals List Bool Sorted Lra Lia Arith.
From Coquelicot Require Import Coquelicot.
From Verif Require Import Vec VecLemmas Num NumLemmas RayModel ComplexModel ComplexLemmas SurfaceModel AngleModel AngleProofs SequenceSpec SystemModel SystemSpec SystemProofs SystemExamples
  CellModel CellProofs RamanathanModel SensorModel SensorSpec SensorCollectProofs SensorProofs SensorExamples
  ImageModel ImageSpec ImageProofs ImageExamples MeasureModel MeasureSpec MeasureProofs MeasureExamples IntegrateSpec IntegrateProofs.
Import ListNotations.
Open Scope R_scope.
Open Scope opt_scope.

Definition coloured (a : R * R) (c : cell5) : SystemModel.grid_point := SystemModel.mkGrid (3/2 + INR (c_w c)) (1, 1) a.
Definition first_bin (c : cell5) : R := if Nat.eqb (c_w c) 0 then 1 else 0.

Lemma coloured_rays : forall a, direction (fst a) (snd a) = on_axis ->
  image_rays simple quad_area quad_area (unit_cell 1 2) first_bin (coloured a) 2 1 1 1 1 = Some [(axis_at (3/2) 1, true); (axis_at (5/2) 0, true)].
Proof.
  intros a D. unfold image_rays. rewrite (all_rays simple _ eq_refl). cbn [obind]. f_equal. rewrite map_map.
  cbn [cells5 seq flat_map map app]. unfold coloured. cbn [c_w].
  rewrite !(fun w => simple_any w 1 1 a on_axis) by (first [exact D | apply on_axis_unit | reflexivity | cbn; lra]).
  assert (F : forall c, cell_flux quad_area quad_area (unit_cell 1 2) first_bin c = first_bin c).
  { intros c. unfold cell_flux. rewrite unit_area. ring. }
  rewrite !F. unfold axis_at, first_bin. cbn [c_w Nat.eqb].
  replace (V3 (1 + 2 / vz on_axis * vx on_axis) (1 + 2 / vz on_axis * vy on_axis) 0) with (V3 1 1 0) by (apply vec_eq; cbn; field).
  replace (3/2 + INR 0) with (3/2) by (cbn; ring). replace (3/2 + INR 1) with (5/2) by (cbn; field). reflexivity.
Qed.

Lemma place : bin_index (pixel_edges 4 1) 1 = Some 0%nat.
Proof.
  destruct (pixel_bin_exists 4 1 1) as [i E]; [lra|lia|cbn; rewrite Rabs_pos_eq; lra|].
  destruct (pixel_bin_some 4 1 1 i) as [L _]; [lra|lia|exact E|]. replace i with 0%nat in E by lia. exact E.
Qed.
Lemma axis_cell : forall eta0 wl w f, ray_cell (metal_sensor eta0) wl (axis_at w f) = omap (fun k => (k, 0%nat, 0%nat)) (bin_index wl w).
Proof.
  intros. unfold ray_cell. cbn [axis_at r_wavelength r_position obind vx vy metal_sensor sn_width_x sn_width_y sn_num_x sn_num_y]. rewrite place.
  destruct (bin_index wl w); reflexivity.
Qed.
Lemma axis_image : forall eta0 wl k1 k2 k, bin_index wl (3/2) = Some k1 -> bin_index wl (5/2) = Some k2 ->
  collect_image (metal_sensor eta0) wl [(axis_at (3/2) 1, true); (axis_at (5/2) 0, true)] (k, 0, 0)%nat = Some (if Nat.eqb k1 k then 1 else 0).
Proof.
  intros eta0 wl k1 k2 k B1 B2. unfold collect_image, histogram. cbn [filter fst]. rewrite !axis_cell, B1, B2. cbn [omap cell_eqb Nat.eqb].
  rewrite !andb_true_r. destruct (Nat.eqb k1 k), (Nat.eqb k2 k); cbn; f_equal; ring.
Qed.
Lemma axis_direction : forall eta0 wl k1 k2 k, bin_index wl (3/2) = Some k1 -> bin_index wl (5/2) = Some k2 ->
  collect_direction (metal_sensor eta0) wl [(axis_at (3/2) 1, true); (axis_at (5/2) 0, true)] (k, 0, 0)%nat = Some (RtoC 1).
Proof.
  intros eta0 wl k1 k2 k B1 B2. unfold collect_direction. rewrite (axis_image eta0 wl k1 k2) by assumption.
  unfold histogram. cbn [filter fst]. rewrite !axis_cell, B1, B2. cbn [omap cell_eqb Nat.eqb]. rewrite !andb_true_r.
  destruct (Nat.eqb k1 k).
  - destruct (Rlt_dec 0 1); [|lra]. destruct (Nat.eqb k2 k); cbn [map]; unfold weighted; rewrite !axis_cosine; cbn;
      rewrite !odiv_nz by lra; cbn; unfold RtoC; do 2 f_equal; field.
  - destruct (Rlt_dec 0 0); [lra|]. reflexivity.
Qed.

Lemma bins_123 : map (CellModel.g_wavelength (unit_cell 1 2)) (seq 0 (2 + 1)) = [1; 2; 3].
Proof. cbn. f_equal; [lra|]. f_equal; [lra|]. f_equal. lra. Qed.
Lemma increasing_123 : forall w, (w < 2)%nat -> CellModel.g_wavelength (unit_cell 1 2) w < CellModel.g_wavelength (unit_cell 1 2) (S w).
Proof. intros w _. cbn [unit_cell CellModel.g_wavelength]. rewrite S_INR. lra. Qed.
Lemma in_bins : bin_index [1; 2; 3] (3/2) = Some 0%nat /\ bin_index [1; 2; 3] (5/2) = Some 1%nat /\ bin_index [1; 3] (3/2) = Some 0%nat /\ bin_index [1; 3] (5/2) = Some 0%nat.
Proof.
  unfold bin_index, bin_from. repeat split;
  repeat (match goal with |- context [Rle_dec ?x ?y] => destruct (Rle_dec x y); [|lra] | |- context [Rlt_dec ?x ?y] => destruct (Rlt_dec x y); [|try lra] end); try lra; reflexivity.
Qed.
Lemma edges_13 : image_edges true [1; 2; 3] = Some [1; 3].
Proof.
  assert (H := edges_integrated (unit_cell 1 2) 2 increasing_123). rewrite bins_123 in H. rewrite H. cbn. f_equal. f_equal; [lra|]. f_equal. lra.
Qed.

Lemma metal_works : forall w, 1 < w -> working table_a (Silicon (metal 1)) w (RtoC 1).
Proof.
  intros w W. cbn [working metal si_n si_implant si_eta0 si_temperature]. split; [lra|]. split; [cbn; lra|]. split; [unfold n_m, RtoC, Im, Cmult; cbn [fst snd]; lra|].
  split; [lra|]. split; [lra|]. exists (2 / w). split; [apply yield_long; exact W|]. apply Rdiv_lt_0_compat; lra.
Qed.
Lemma metal_yield : forall w, 1 < w -> per_photon table_a (metal 1) w (RtoC 1) (2 / w).
Proof.
  intros w W. unfold per_photon. cbn [metal si_temperature si_implant si_eta0]. exists (2 / w). eexists. split; [apply yield_long; exact W|]. split; [reflexivity|]. ring.
Qed.

Section spectrum.
Variable a : R * R.
Hypothesis D : direction (fst a) (snd a) = on_axis.
Let photons := photon_image simple (metal_sensor 1) quad_area quad_area (unit_cell 1 2) first_bin (coloured a) 2 1 1 1 1.
Let cosine := cosine_image simple (metal_sensor 1) quad_area quad_area (unit_cell 1 2) first_bin (coloured a) 2 1 1 1 1.
Lemma whole_cosine : cosine true (0, 0, 0)%nat = Some (RtoC 1).
Proof.
  unfold cosine, cosine_image. rewrite coloured_rays by exact D. cbn [obind]. rewrite bins_123, edges_13. cbn [obind]. destruct in_bins as (_ & _ & B1 & B2).
  apply (axis_direction 1 _ 0 0); assumption.
Qed.
Lemma bin_values : forall k, (k < 2)%nat -> exposed_at (unit_cell 1 2) 2 false (k, 0, 0)%nat (3/2 + INR k) /\
  photons false (k, 0, 0)%nat = Some (if Nat.eqb 0 k then 1 else 0) /\ cosine false (k, 0, 0)%nat = Some (RtoC 1) /\
  working table_a (Silicon (metal 1)) (3/2 + INR k) (RtoC 1) /\ per_photon table_a (metal 1) (3/2 + INR k) (RtoC 1) (2 / (3/2 + INR k)).
Proof.
  intros k K. destruct in_bins as (B1 & B2 & _). assert (P := pos_INR k). split; [|split; [|split; [|split]]].
  - split; [exact K|]. cbn [fst unit_cell CellModel.g_wavelength]. rewrite S_INR. field.
  - unfold photons. rewrite photon_rays, coloured_rays by exact D. cbn [obind image_edges]. rewrite bins_123. apply (axis_image 1 _ 0 1); assumption.
  - unfold cosine, cosine_image. rewrite coloured_rays by exact D. cbn [obind image_edges]. rewrite bins_123. apply (axis_direction 1 _ 0 1); assumption.
  - apply metal_works. lra.
  - apply metal_yield. lra.
Qed.
Lemma whole_exposed : exposed_at (unit_cell 1 2) 2 true (0, 0, 0)%nat 2.
Proof. split; [reflexivity|]. cbn. field. Qed.
End spectrum.

(** The whole band is exposed at wavelength 2, the light has wavelength 3/2. *)
Lemma colour_lost : exists a whole bins,
  let electrons := electron_image table_a simple (metal_sensor 1) quad_area quad_area (unit_cell 1 2) first_bin (coloured a) 2 1 1 1 1 in
  electrons true (0, 0, 0)%nat = Some whole /\ osum (map (fun k => electrons false (k, 0, 0)%nat) (seq 0 2)) = Some bins /\ bins - whole = 1 / 3.
Proof.
  destruct (direction_angles on_axis on_axis_unit) as (x & y & _ & D). exists (x, y).
  destruct (silicon_integrated simple quad_area quad_area (unit_cell 1 2) first_bin (coloured (x, y)) (metal_sensor 1) 2 1 1 1 1 increasing_123 ltac:(lia) table_a
    (metal 1) 0 0 2 (RtoC 1) (2/2) (fun k => 3/2 + INR k) (fun _ => RtoC 1) (fun k => 2 / (3/2 + INR k)) (fun k => if Nat.eqb 0 k then 1 else 0)) as (whole & bins & W & B & E).
  - reflexivity.
  - exact whole_exposed.
  - apply whole_cosine. exact D.
  - apply metal_works. lra.
  - apply metal_yield. lra.
  - apply bin_values. exact D.
  - exists whole, bins. cbv zeta. split; [exact W|]. split; [exact B|]. rewrite E. cbn. field.
Qed.
