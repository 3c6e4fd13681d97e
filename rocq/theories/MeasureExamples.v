(** Images of two beams on a silicon sensor of one pixel. *)
From Coq Require Import Reals List Bool Lra Lia Arith.
From Coquelicot Require Import Coquelicot.
From Verif Require Import Vec VecLemmas Num NumLemmas ExtNum RayModel ComplexModel ComplexLemmas LayerModel LayerProofs SnellModel SurfaceModel
  MaterialModel SagModel AngleModel AngleProofs SequenceSpec SequenceProofs SequenceExamples SystemModel SystemSpec SystemProofs SystemTraceProofs SystemExamples
  CellModel CellProofs RamanathanModel DistSpec DistProofs SensorModel SensorSpec SensorCollectProofs SensorProofs SensorStatProofs SensorExamples
  ImageModel ImageSpec ImageProofs ImageExamples MeasureModel MeasureSpec MeasureProofs.
Import ListNotations.
Open Scope R_scope.
Open Scope opt_scope.

(** A sensor of the size of [one_pixel], of an absorbing material with an implant layer. *)
Definition n_m : C := (3/5, 16/25).
Definition metal (eta0 : R) : SensorModel.silicon := mkSilicon (fun _ => n_m) 1 eta0 0.
Definition metal_sensor (eta0 : R) : imaging_sensor := mkSensor 4 4 1 1 1 0 (Silicon (metal eta0)).

Lemma n_m_nonzero : n_m <> RtoC 0.
Proof. intros E. apply (f_equal fst) in E. cbn in E. lra. Qed.

(** The table of [table_a] below its energy. *)
Lemma yield_long : forall w, 1 < w -> quantum_yield_ideal table_a w 0 = Some (2 / w).
Proof.
  intros w W. unfold quantum_yield_ideal, energy_pair, table_a. cbn [map]. unfold row_energy_pair. cbn [row_energy row_0K row_100K row_300K].
  assert (H := hc_pos).
  assert (P : photon_energy w < hc). { unfold photon_energy. apply Rmult_lt_reg_r with w; [lra|]. unfold Rdiv. rewrite Rmult_assoc, Rinv_l by lra. nra. }
  unfold einterp. destruct (Rlt_dec (photon_energy w) hc); [|contradiction].
  rewrite temperature_0. unfold pair_cost, ediv_pos.
  replace (RamanathanModel.moment1 [1/2; 0; 1/2]) with 2 by (unfold RamanathanModel.moment1; cbn; lra).
  destruct (Req_EM_T 2 0); [lra|]. cbn [ediv]. destruct (Req_EM_T (hc / 2) 0); [lra|]. cbn. f_equal. unfold photon_energy. field. lra.
Qed.

(** Rays of [simple] with any direction. *)
Lemma simple_any : forall w x y a d f, direction (fst a) (snd a) = d -> is_unit d -> vz d <> 0 ->
  forall s0, sys_sensor simple = Some s0 ->
  final_of simple s0 (start_ray simple f (SystemModel.mkGrid w (x, y) a))
  = mkRay w (Some (V3 (x + 2 / vz d * vx d) (y + 2 / vz d * vy d) 0)) (Some d) (Some f) 0 1 true.
Proof.
  intros w x y a d f D U Z s0 S. cbn in S. injection S as <-.
  assert (L : start_ray simple f (SystemModel.mkGrid w (x, y) a) = mkRay w (Some (V3 x y 0)) (Some d) (Some f) 0 1 true).
  { unfold start_ray, launch. cbn [simple sys_at_infinity SystemModel.g_field SystemModel.g_pupil fst snd SystemModel.g_wavelength sys_object win st_surface window sf_transformation shift apply_transformation].
    rewrite D. unfold set_intensity, ray_transform, rigid_point, rigid_vector. cbn [r_wavelength r_position r_direction r_intensity r_attenuation r_index r_unvignetted omap rg_mat rg_shift].
    rewrite !mapply_mid. do 2 f_equal. apply vec_eq; cbn; ring. }
  rewrite L. unfold final_of, propagate_rays.
  cbn [simple sys_transformation apply_inverse surfaces_all sys_object sys_surfaces sys_sensor app existsb win st_field orb negb map st_surface as_list propagate_list].
  rewrite !window_shift by assumption. cbn [window sf_transformation shift apply_inverse].
  unfold ray_transform, rigid_inv, rigid_point, rigid_vector. cbn [r_wavelength r_position r_direction r_intensity r_attenuation r_index r_unvignetted omap rg_mat rg_shift].
  rewrite mid_trans, !mapply_mid. do 2 f_equal. apply vec_eq; cbn; field; exact Z.
Qed.

Lemma simple_linear : List.Forall linear_surface (map st_surface (surfaces_all simple)).
Proof.
  assert (P : forall t, linear_surface (window t)).
  { intros t. split; [|split; [|split]]; cbn; [reflexivity|reflexivity|reflexivity|discriminate]. }
  repeat (apply List.Forall_cons; [apply P|]). apply List.Forall_nil.
Qed.

(** One beam along the axis and one inclined to it. *)
Definition inclined : vec3 := V3 (3/5) 0 (4/5).
Lemma inclined_unit : is_unit inclined. Proof. unfold is_unit, norm2, dot; cbn; lra. Qed.
Definition two_beams (w : R) (a a' : R * R) (c : cell5) : SystemModel.grid_point :=
  if Nat.eqb (c_k c) 0 then SystemModel.mkGrid w (1, 1) a else SystemModel.mkGrid w (0, 0) a'.
Definition only (k : nat) (c : cell5) : R := if Nat.eqb (c_k c) k then 1 else 0.

Definition axis_at (w f : R) : ray := mkRay w (Some (V3 1 1 0)) (Some on_axis) (Some f) 0 1 true.
Definition inclined_at (w f : R) : ray := mkRay w (Some (V3 (3/2) 0 0)) (Some inclined) (Some f) 0 1 true.

Lemma two_rays : forall w a a' radiance, direction (fst a) (snd a) = on_axis -> direction (fst a') (snd a') = inclined ->
  image_rays simple quad_area quad_area (unit_cell 1 2) radiance (two_beams w a a') 1 1 1 2 1 =
  Some [(axis_at w (radiance (mkCell 0 0 0 0 0)), true); (inclined_at w (radiance (mkCell 0 0 0 1 0)), true)].
Proof.
  intros w a a' radiance D D'. unfold image_rays. rewrite (all_rays simple _ eq_refl). cbn [obind]. f_equal. rewrite map_map.
  cbn [cells5 seq flat_map map app]. unfold two_beams. cbn [c_k Nat.eqb].
  rewrite (simple_any w 1 1 a on_axis) by (first [exact D | apply on_axis_unit | reflexivity | cbn; lra]).
  rewrite (simple_any w 0 0 a' inclined) by (first [exact D' | apply inclined_unit | reflexivity | cbn; lra]).
  assert (F : forall c, cell_flux quad_area quad_area (unit_cell 1 2) radiance c = radiance c).
  { intros c. unfold cell_flux. rewrite unit_area. ring. }
  rewrite !F. unfold axis_at, inclined_at. 
  replace (V3 (1 + 2 / vz on_axis * vx on_axis) (1 + 2 / vz on_axis * vy on_axis) 0) with (V3 1 1 0) by (apply vec_eq; cbn; field).
  replace (V3 (0 + 2 / vz inclined * vx inclined) (0 + 2 / vz inclined * vy inclined) 0) with (V3 (3/2) 0 0) by (apply vec_eq; cbn; field).
  reflexivity.
Qed.

Definition the_pixel : cell := (0, 0, 0)%nat.
Lemma the_cell : forall eta0 r, inside (metal_sensor eta0) [1; 2] r -> ray_cell (metal_sensor eta0) [1; 2] r = Some the_pixel.
Proof.
  intros eta0 r H.
  assert (G : good_grid (metal_sensor eta0) [1; 2]).
  { unfold good_grid. cbn. repeat split; try lra; try lia. repeat constructor; lra. }
  destruct (cell_exists _ _ _ G H) as [c E]. destruct (cell_some _ _ _ _ G E) as (C & _). cbn in C. destruct C as [<-|[]]. exact E.
Qed.
Lemma axis_inside : forall eta0 w f, 1 <= w <= 2 -> inside (metal_sensor eta0) [1; 2] (axis_at w f).
Proof. intros eta0 w f W. split; [exact W|]. eexists. split; [reflexivity|]. cbn. split; apply Rabs_le; lra. Qed.
Lemma inclined_inside : forall eta0 w f, 1 <= w <= 2 -> inside (metal_sensor eta0) [1; 2] (inclined_at w f).
Proof. intros eta0 w f W. split; [exact W|]. eexists. split; [reflexivity|]. cbn. split; apply Rabs_le; lra. Qed.

Definition c_inclined : C := (500/481, 108/481).
Lemma axis_cosine : forall eta0 w f, ray_cosine (metal_sensor eta0) (axis_at w f, true) = Some (RtoC 1).
Proof.
  intros eta0 w f. unfold ray_cosine. cbn [fst axis_at r_direction obind sn_material metal_sensor direction_refracted metal si_n r_wavelength].
  rewrite snell_value by apply n_m_nonzero. f_equal. unfold cos_in, tangential2. apply csqrt_unique; [|left; cbn; lra].
  replace (dot (vopp on_axis) (V3 0 0 (-1))) with 1 by (unfold dot; cbn; ring).
  replace (1 - RtoC 1 * RtoC 1)%C with (RtoC 0) by (unfold RtoC, Cminus, Cmult, Cplus, Copp; cbn; f_equal; ring).
  field. exact n_m_nonzero.
Qed.
Lemma inclined_cosine : forall eta0 w f, ray_cosine (metal_sensor eta0) (inclined_at w f, true) = Some c_inclined.
Proof.
  intros eta0 w f. unfold ray_cosine. cbn [fst inclined_at r_direction obind sn_material metal_sensor direction_refracted metal si_n r_wavelength].
  rewrite snell_value by apply n_m_nonzero. f_equal. unfold cos_in, tangential2. apply csqrt_unique; [|left; cbn; lra].
  replace (dot (vopp inclined) (V3 0 0 (-1))) with (4/5) by (unfold dot; cbn; field).
  assert (I : forall g, ray_n (inclined_at w g) = RtoC 1) by (intros g; unfold ray_n, RtoC, inclined_at; cbn [r_index r_attenuation r_wavelength]; f_equal; unfold Rdiv; ring).
  rewrite I.
  assert (N := n_m_nonzero).
  assert (E : (n_m * n_m * (c_inclined * c_inclined) = n_m * n_m - (1 - RtoC (4/5) * RtoC (4/5)))%C).
  { unfold n_m, c_inclined, RtoC, Cminus, Cmult, Cplus, Copp. cbn. f_equal; field. }
  transitivity (n_m * n_m * (c_inclined * c_inclined) / (n_m * n_m))%C; [field; exact N|]. rewrite E. field. exact N.
Qed.

(** The image of the two beams with fluxes [f] and [f']. *)
Lemma two_image : forall eta0 w f f', 1 <= w <= 2 ->
  collect_image (metal_sensor eta0) [1; 2] [(axis_at w f, true); (inclined_at w f', true)] the_pixel = Some (f + f').
Proof.
  intros eta0 w f f' W. rewrite image_value by (intros rw [<-|[<-|[]]] _; cbn; discriminate).
  unfold sum_flux. cbn [filter].
  rewrite (proj2 (in_cell_iff (metal_sensor eta0) [1; 2] the_pixel (axis_at w f, true)) (the_cell eta0 _ (axis_inside eta0 w f W))).
  rewrite (proj2 (in_cell_iff (metal_sensor eta0) [1; 2] the_pixel (inclined_at w f', true)) (the_cell eta0 _ (inclined_inside eta0 w f' W))).
  cbn. f_equal. unfold intensity_of. cbn. ring.
Qed.
Lemma two_direction : forall eta0 w f f', 1 <= w <= 2 -> 0 < f + f' ->
  collect_direction (metal_sensor eta0) [1; 2] [(axis_at w f, true); (inclined_at w f', true)] the_pixel
  = Some ((f + f' * (500/481)) / (f + f'), f' * (108/481) / (f + f')).
Proof.
  intros eta0 w f f' W P.
  rewrite direction_value by (intros rw [<-|[<-|[]]] _; (split; [cbn; discriminate|rewrite ?axis_cosine, ?inclined_cosine; discriminate])).
  assert (S : sum_flux (metal_sensor eta0) [1; 2] [(axis_at w f, true); (inclined_at w f', true)] the_pixel = f + f').
  { assert (H := two_image eta0 w f f' W). rewrite image_value in H by (intros rw [<-|[<-|[]]] _; cbn; discriminate). congruence. }
  rewrite S. destruct (Rlt_dec 0 (f + f')); [|contradiction]. cbn [filter].
  rewrite (proj2 (in_cell_iff (metal_sensor eta0) [1; 2] the_pixel (axis_at w f, true)) (the_cell eta0 _ (axis_inside eta0 w f W))).
  rewrite (proj2 (in_cell_iff (metal_sensor eta0) [1; 2] the_pixel (inclined_at w f', true)) (the_cell eta0 _ (inclined_inside eta0 w f' W))).
  cbn [map rsum fold_right]. unfold cosine_of. rewrite axis_cosine, inclined_cosine. unfold flux_of, intensity_of, ray_where, c_inclined, RtoC.
  cbn. f_equal. f_equal; field; lra.
Qed.

Lemma metal_working : forall eta0 d, 0 <= eta0 <= 1 -> 0 < Re d -> 0 < Im (n_m * d)%C -> working table_a (Silicon (metal eta0)) (3/2) d.
Proof.
  intros eta0 d E R I. cbn [working metal si_n si_implant si_eta0 si_temperature]. split; [lra|]. split; [exact R|]. split; [exact I|].
  split; [lra|]. split; [exact E|]. exists (2 / (3/2)). split; [apply yield_long; lra|lra].
Qed.

Lemma edges_12 : image_edges true (map (CellModel.g_wavelength (unit_cell 1 2)) (seq 0 (1 + 1))) = Some [1; 2].
Proof.
  rewrite edges_integrated; [|intros [|w] L; [cbn; lra|lia]]. cbn. do 2 f_equal; [lra|f_equal; lra].
Qed.
Section two.
Variables (eta0 w : R) (a a' : R * R) (radiance : cell5 -> R).
Hypothesis E0 : 0 <= eta0 <= 1.
Hypothesis W : 1 <= w <= 2.
Hypothesis D : direction (fst a) (snd a) = on_axis.
Hypothesis D' : direction (fst a') (snd a') = inclined.
Let f := radiance (mkCell 0 0 0 0 0).
Let f' := radiance (mkCell 0 0 0 1 0).
Lemma two_photons : photon_image simple (metal_sensor eta0) quad_area quad_area (unit_cell 1 2) radiance (two_beams w a a') 1 1 1 2 1 true the_pixel = Some (f + f').
Proof. rewrite photon_rays, (two_rays w a a') by assumption. cbn [obind]. rewrite edges_12. cbn [obind]. apply two_image. exact W. Qed.
Lemma two_cosine : 0 < f + f' ->
  cosine_image simple (metal_sensor eta0) quad_area quad_area (unit_cell 1 2) radiance (two_beams w a a') 1 1 1 2 1 true the_pixel
  = Some ((f + f' * (500/481)) / (f + f'), f' * (108/481) / (f + f')).
Proof. intros P. unfold cosine_image. rewrite (two_rays w a a') by assumption. cbn [obind]. rewrite edges_12. cbn [obind]. apply two_direction; assumption. Qed.
Lemma two_electrons : 0 <= f -> 0 <= f' -> 0 < f + f' -> exists e,
  electron_image table_a simple (metal_sensor eta0) quad_area quad_area (unit_cell 1 2) radiance (two_beams w a a') 1 1 1 2 1 true the_pixel = Some e.
Proof.
  intros F F' P. unfold electron_image. rewrite (two_rays w a a') by assumption. cbn [obind]. rewrite edges_12. cbn [obind].
  unfold measure. rewrite two_image by exact W. cbn [obind]. cbn [metal_sensor sn_material]. fold (metal_sensor eta0). fold f f'. rewrite two_direction by assumption. cbn [obind].
  unfold bin_center. cbn [the_pixel fst nth]. replace ((1 + 2) / 2) with (3/2) by field. eexists. apply (expose_silicon _ _ (metal eta0)); [reflexivity| |apply yield_long; lra].
  apply metal_working; [exact E0| |].
  - cbn [Re fst]. apply Rdiv_lt_0_compat; nra.
  - unfold n_m, Im, Cmult. cbn [fst snd]. replace (3 / 5 * (f' * (108 / 481) / (f + f')) + 16 / 25 * ((f + f' * (500 / 481)) / (f + f')))
      with ((16/25 * f + 4/5 * f') / (f + f')) by (field; lra). apply Rdiv_lt_0_compat; nra.
Qed.
End two.

Lemma two_directions : exists a a' : R * R, direction (fst a) (snd a) = on_axis /\ direction (fst a') (snd a') = inclined.
Proof.
  destruct (direction_angles on_axis on_axis_unit) as (x & y & _ & D). destruct (direction_angles inclined inclined_unit) as (x' & y' & _ & D').
  exists (x, y), (x', y'). split; assumption.
Qed.
Lemma only_nonneg : forall k c, 0 <= only k c. Proof. intros k c. unfold only. destruct (Nat.eqb _ _); lra. Qed.
Lemma unit_increasing : forall w, (w < 1)%nat -> CellModel.g_wavelength (unit_cell 1 2) w < CellModel.g_wavelength (unit_cell 1 2) (S w).
Proof. intros [|w] L; [cbn; lra|lia]. Qed.

(** Each beam alone, and what [silicon_superpose] asks of them. *)
Lemma beams_apart : forall eta0, 0 <= eta0 <= 1 -> exists a a' d1 d2 e1 e2,
  let center := two_beams (3/2) a a' in
  let s := metal_sensor eta0 in
  photon_image simple s quad_area quad_area (unit_cell 1 2) (only 0) center 1 1 1 2 1 true the_pixel = Some 1 /\
  photon_image simple s quad_area quad_area (unit_cell 1 2) (only 1) center 1 1 1 2 1 true the_pixel = Some 1 /\
  cosine_image simple s quad_area quad_area (unit_cell 1 2) (only 0) center 1 1 1 2 1 true the_pixel = Some d1 /\
  cosine_image simple s quad_area quad_area (unit_cell 1 2) (only 1) center 1 1 1 2 1 true the_pixel = Some d2 /\
  working table_a (Silicon (metal eta0)) (3/2) d1 /\ working table_a (Silicon (metal eta0)) (3/2) d2 /\
  electron_image table_a simple s quad_area quad_area (unit_cell 1 2) (only 0) center 1 1 1 2 1 true the_pixel = Some e1 /\
  electron_image table_a simple s quad_area quad_area (unit_cell 1 2) (only 1) center 1 1 1 2 1 true the_pixel = Some e2 /\
  steepness (metal eta0) (3/2) d1 <> steepness (metal eta0) (3/2) d2.
Proof.
  intros eta0 E0. destruct two_directions as (a & a' & D & D'). exists a, a'.
  assert (W : 1 <= 3/2 <= 2) by lra.
  assert (P0 := two_photons eta0 (3/2) a a' (only 0) W D D'). assert (P1 := two_photons eta0 (3/2) a a' (only 1) W D D').
  assert (C0 := two_cosine eta0 (3/2) a a' (only 0) W D D'). assert (C1 := two_cosine eta0 (3/2) a a' (only 1) W D D').
  assert (X0 := two_electrons eta0 (3/2) a a' (only 0) E0 W D D'). assert (X1 := two_electrons eta0 (3/2) a a' (only 1) E0 W D D').
  unfold only in P0, P1, C0, C1, X0 at 1 2 3 4 5, X1 at 1 2 3 4 5. cbn [c_k Nat.eqb] in *.
  specialize (C0 ltac:(lra)). specialize (C1 ltac:(lra)).
  destruct (X0 ltac:(lra) ltac:(lra) ltac:(lra)) as [e1 Y0]. destruct (X1 ltac:(lra) ltac:(lra) ltac:(lra)) as [e2 Y1].
  replace ((1 + 0 * (500 / 481)) / (1 + 0), 0 * (108 / 481) / (1 + 0)) with (RtoC 1) in C0 by (unfold RtoC; f_equal; field).
  replace ((0 + 1 * (500 / 481)) / (0 + 1), 1 * (108 / 481) / (0 + 1)) with c_inclined in C1 by (unfold c_inclined; f_equal; field).
  replace (1 + 0) with 1 in P0 by ring. replace (0 + 1) with 1 in P1 by ring.
  exists (RtoC 1), c_inclined, e1, e2. cbv zeta.
  split; [exact P0|]. split; [exact P1|]. split; [exact C0|]. split; [exact C1|].
  split; [apply metal_working; [exact E0|cbn; lra|unfold n_m, RtoC, Im, Cmult; cbn [fst snd]; lra]|].
  split; [apply metal_working; [exact E0|cbn; lra|unfold n_m, c_inclined, Im, Cmult; cbn [fst snd]; lra]|].
  split; [exact Y0|]. split; [exact Y1|].
  unfold steepness, metal. cbn [si_n]. unfold n_m, c_inclined, RtoC, Im, Cmult. cbn [fst snd]. lra.
Qed.

(** Both together on a sensor that collects nothing at its back surface: fewer electrons. *)
Lemma beams_together : exists a a' e1 e2 e,
  let image l := electron_image table_a simple (metal_sensor 0) quad_area quad_area (unit_cell 1 2) l (two_beams (3/2) a a') 1 1 1 2 1 true the_pixel in
  image (only 0) = Some e1 /\ image (only 1) = Some e2 /\ image (fun c => only 0 c + only 1 c) = Some e /\ e < e1 + e2.
Proof.
  destruct (beams_apart 0 ltac:(lra)) as (a & a' & d1 & d2 & e1 & e2 & P0 & P1 & C0 & C1 & K0 & K1 & Y0 & Y1 & S).
  destruct (silicon_superpose simple simple_linear quad_area quad_area (unit_cell 1 2) (two_beams (3/2) a a') table_a (metal_sensor 0) (metal 0)
    (only 0) (only 1) 1 1 1 2 1 true the_pixel (3/2) 1 1 d1 d2 e1 e2) as (e & E & L & I); try assumption; try reflexivity.
  - cbn. discriminate.
  - exact simple_rigid.
  - exact simple_passive.
  - exact unit_increasing.
  - cbn. lra.
  - intros c. split; apply only_nonneg.
  - split; [reflexivity|]. cbn. field.
  - exists a, a', e1, e2, e. cbv zeta. split; [exact Y0|]. split; [exact Y1|]. split; [exact E|].
    destruct (Rle_lt_or_eq_dec _ _ L) as [H|H]; [exact H|]. apply I in H. cbn [metal si_eta0] in H. exfalso. destruct H as [H|[H|[H|H]]]; [lra|lra|lra|contradiction].
Qed.

(** The same pixels, ideal. *)
Definition ideal_sensor : imaging_sensor := mkSensor 4 4 1 1 1 0 Ideal.
Lemma beams_ideal : exists a a',
  let image l := electron_image table_a simple ideal_sensor quad_area quad_area (unit_cell 1 2) l (two_beams (3/2) a a') 1 1 1 2 1 true the_pixel in
  image (only 0) = Some 1 /\ image (only 1) = Some 1.
Proof.
  destruct two_directions as (a & a' & D & D'). exists a, a'. cbv beta zeta. assert (W : 1 <= 3/2 <= 2) by lra.
  rewrite !ideal_electrons by reflexivity.
  assert (P0 := two_photons 1 (3/2) a a' (only 0) W D D'). assert (P1 := two_photons 1 (3/2) a a' (only 1) W D D').
  change (photon_image simple (metal_sensor 1)) with (photon_image simple ideal_sensor) in P0, P1. rewrite P0, P1. cbn. split; f_equal; ring.
Qed.
