(** Concrete slices and tables. *)
From Coq Require Import Reals List ZArith Sorted Lra Lia.
From Coquelicot Require Import Coquelicot.
From Verif Require Import Num NumLemmas ComplexModel LayerModel LayerProofs RamanathanModel SensorModel SensorSpec SensorProofs SensorStatProofs SensorExamples
  WireProofs DepthProofs MonteCarloSpec MonteCarloProofs ParallelModel MonteCarloMeanSpec MonteCarloMeanProofs.
Import ListNotations.
Open Scope R_scope.

(** ** One photon on the first pixel of a row of two, making three pairs that spread *)
Definition pixel_m (photons : R) : mc_pixel := mkPixel photons 10 0 0 (1/2) 1 1 1 1 [1] [3%Z] 1 1.
Definition spread (e : nat) : Z := match e with 0%nat => 0 | 1%nat => 1 | _ => -1 end%Z.
Definition draws_m : photon_draws :=
  mkDraws (1/2) (fun mu _ => mu) (1/4) (fun n _ => n) 0 0 (fun e _ _ => IZR (spread e)) (fun _ _ _ => 0).
Definition slice_m : mc_slice := mkSlice (fun x _ => pixel_m (if Z.eqb x 0 then 1 else 0)) (fun _ _ _ => draws_m).

Lemma Int_part_IZR : forall k, Int_part (IZR k) = k.
Proof. intros k. symmetry. apply Int_part_spec. lra. Qed.
Lemma round_IZR : forall k, round_even (IZR k) = k.
Proof. intros k. unfold round_even. rewrite Int_part_IZR. destruct (Rlt_dec (IZR k - IZR k) (1 / 2)); [reflexivity | lra]. Qed.
Lemma int_of_IZR : forall k, (0 <= k)%Z -> int_of (IZR k) = k.
Proof. intros k K. unfold int_of. destruct (Rle_dec 0 (IZR k)) as [L|L]; [apply Int_part_IZR|]. exfalso. apply L. apply IZR_le in K. exact K. Qed.

Lemma depth_m : photon_depth 0 1 (1/4) = 1/4.
Proof. rewrite depth_transparent. field. Qed.
Lemma surviving_m : forall n, surviving (pixel_m n) draws_m = Some 3%Z.
Proof.
  intros n. unfold surviving, pair_count, pixel_m, draws_m. cbn [px_energy px_energy_pair_inf px_fano_inf px_p px_n dr_pair dr_binomial px_absorption px_substrate dr_depth px_eta0 px_implant].
  rewrite odiv_nz by lra. cbn [obind]. rewrite osqrt_nonneg by lra. cbn [obind]. destruct (Rle_dec 10 50); [|lra].
  assert (C : collection_probability 1 0 (photon_depth 0 1 (1 / 4)) = 1) by (unfold collection_probability; rewrite depth_m; destruct (Rlt_dec (1 / 4) 0); lra).
  rewrite C. destruct (Rle_dec 0 1); [|lra]. destruct (Rle_dec 1 1); [|lra]. reflexivity.
Qed.
Lemma displacement_m : forall n e, displacement (pixel_m n) draws_m e = (spread e, 0%Z).
Proof.
  intros n e. unfold displacement, pixel_m, draws_m. cbn [px_absorption px_substrate dr_depth px_depletion px_width_x px_width_y dr_gauss_x dr_gauss_y].
  rewrite depth_m. destruct (Rlt_dec (1 / 4) (1 - 1 / 2)); [|lra]. destruct (Rlt_dec 0 1); [|lra]. rewrite round_IZR.
  f_equal. exact (round_IZR 0).
Qed.

Lemma writes_m : forall wrap, slice_writes wrap 2 1 slice_m = Some (if wrap then [(0, 0); (1, 0); (1, 0)] else [(0, 0); (1, 0)])%Z.
Proof.
  intros wrap. unfold slice_writes. change (zrange 2) with [0; 1]%Z. change (zrange 1) with [0%Z].
  cbn [oconcat sl_pixel sl_draws slice_m Z.eqb]. cbn [pixel_m px_photons].
  rewrite (int_of_IZR 1), (int_of_IZR 0) by lia. change (Z.to_nat 1) with 1%nat. change (Z.to_nat 0) with 0%nat. cbn [seq oconcat].
  unfold photon_writes. rewrite (surviving_m 1). cbn [obind]. change (Z.to_nat 3) with 3%nat. cbn [seq map]. rewrite !displacement_m. destruct wrap; reflexivity.
Qed.

Lemma proper_m : proper_draws slice_m.
Proof. intros x y j n p N. cbn. lia. Qed.

(** ** Tables *)
Definition half : list R := [1/2; 1/2].
Definition table_m : pair_table := [mkRow 10 half half half].
Definition dark20 : list R := repeat 0 20.
Definition one20 : list R := 1 :: repeat 0 19.
(** No pairs at all at 1 eV, one pair at 2 eV. *)
Definition table_d : pair_table := [mkRow 1 dark20 dark20 dark20; mkRow 2 one20 one20 one20].

Lemma table_m_good : good_table table_m.
Proof. split; [repeat constructor|]. apply List.Forall_cons; [|apply List.Forall_nil]. cbn. repeat split; lra. Qed.
Lemma table_d_good : good_table table_d.
Proof.
  split; [repeat constructor; cbn; lra|]. apply List.Forall_cons; [cbn; repeat split; lra|]. apply List.Forall_cons; [cbn; repeat split; lra | apply List.Forall_nil].
Qed.

(** A medium in which the light of this wavelength has unit absorption. *)
Definition n_unit (wl : R) : C := (1, wl / (4 * PI)).
Lemma unit_absorption : forall wl, 0 < wl -> snells_law_scalar 1 (n_unit wl) (n_unit wl) = Some (RtoC 1) /\ absorption_effective wl (n_unit wl) 1 = Some 1.
Proof.
  intros wl W. assert (P := PI_RGT_0).
  assert (I : Im (n_unit wl * RtoC 1)%C = wl / (4 * PI)) by (unfold n_unit, Im; cbn; ring).
  split.
  - apply snell_identity; [|cbn; lra]. apply (index_nonzero _ 1). rewrite I. apply Rdiv_lt_0_compat; lra.
  - rewrite absorption_value by lra. rewrite I. f_equal. field. lra.
Qed.

Lemma energy_of : forall e, 0 < e -> photon_energy (hc / e) = e /\ 0 < hc / e.
Proof. intros e E. assert (H := hc_pos). split; [unfold photon_energy; field; lra | apply Rdiv_lt_0_compat; lra]. Qed.

Lemma exp_1_bounds : / 3 <= exp (- (1)) < / 2.
Proof.
  assert (H := exp_ineq1 1 ltac:(lra)). assert (E : exp (- (1)) = / exp 1) by apply exp_Ropp. rewrite E. split.
  - apply Rinv_le_contravar; [apply exp_pos | apply exp_le_3].
  - apply Rinv_lt_contravar; lra.
Qed.

(** The layer in which electrons recombine is as thick as the sensor. *)
Lemma truncation_gap : exists s px m, signal_expected table_m 1 (hc / 10) 1 (n_unit (hc / 10)) (n_unit (hc / 10)) 1 1 0 300 = Some s /\
  measured_pixel table_m 1 (hc / 10) 1 1 1 1 0 0 0 300 = Some px /\ is_signal_mean (1 * 1) px m /\ 0 < s /\ m <= 3 / 4 * s.
Proof.
  destruct (energy_of 10 ltac:(lra)) as [E WP]. destruct (unit_absorption _ WP) as [S A].
  assert (R1 : rsum half = 1) by (unfold rsum, half; cbn; lra).
  assert (M1 : moment1 half = 3 / 2) by (unfold moment1, half; cbn; lra).
  destruct (methods_compared table_m 300 row_300K (mkRow 10 half half half) (hc / 10) 1 (n_unit (hc / 10)) (n_unit (hc / 10)) 1 1 1 1 1 1 1 0 0 0 1)
    as (s & px & m & c & H1 & H2 & H3 & H4 & H5 & H6); try assumption; try lra.
  - apply table_m_good.
  - right; right. split; reflexivity.
  - left. reflexivity.
  - discriminate.
  - repeat (apply List.Forall_cons; [lra|]). apply List.Forall_nil.
  - exists s, px, m. split; [exact H1|]. split; [exact H2|]. split; [apply H3; reflexivity|].
    assert (Y : quantum_yield_ideal table_m (hc / 10) 300 = Some (moment1 half)).
    { apply (yield_node table_m 300 row_300K (mkRow 10 half half half)); [apply table_m_good | right; right; split; reflexivity | left; reflexivity | exact E]. }
    apply (proj1 (expected_value table_m 1 (hc / 10) 1 _ _ 1 1 0 300 _ 1 _ s S A Y Rlt_0_1 Rlt_0_1)) in H1.
    rewrite M1 in H1.
    rewrite cce_value in H4 by lra. injection H4 as H4. unfold cce, phi in *.
    assert (X := exp_1_bounds). replace (- (1 * 1)) with (- (1)) in * by ring. replace (- (1) * 1) with (- (1)) in * by ring.
    set (e := exp (- (1))) in *.
    assert (C : c = 1 - e) by lra. assert (SP : s = 3 / 2 * (1 - e)) by (rewrite H1; field).
    rewrite C in H6.
    assert (Q : 1 / 4 <= e * (1 - (1 - e)) / ((1 - e) * (1 - e))).
    { apply (proj1 (Rcomplements.Rle_div_r (1 / 4) (e * (1 - (1 - e))) ((1 - e) * (1 - e)) ltac:(nra))). nra. }
    split; [lra|]. nra.
Qed.

(** Below the band gap. *)
Lemma bandgap_gap : forall N, exists s px m, signal_expected table_d N (hc / 1) 1 (n_unit (hc / 1)) (n_unit (hc / 1)) 1 1 1 300 = Some s /\
  measured_pixel table_d 1 (hc / 1) 1 1 1 1 0 0 1 300 = Some px /\ is_signal_mean (1 * N) px m /\ s = 0 /\ m = 20 * N.
Proof.
  intros N. destruct (energy_of 1 ltac:(lra)) as [E WP]. destruct (unit_absorption _ WP) as [S A].
  assert (T : tabulated 300 row_300K) by (right; right; split; reflexivity).
  assert (I : In (mkRow 1 dark20 dark20 dark20) table_d) by (left; reflexivity).
  assert (M1 : moment1 dark20 = 0) by (unfold moment1; cbn; ring).
  assert (R1 : rsum dark20 = 0) by (cbn; ring).
  destruct (measured_node table_d 300 row_300K _ 1 (hc / 1) 1 1 1 1 0 0 1 table_d_good T I E) as (px & M & _).
  exists 0, px, (20 * N). split; [|split; [exact M|]].
  - apply (proj2 (expected_value table_d N (hc / 1) 1 _ _ 1 1 1 300 _ 1 _ 0 S A (yield_node _ _ _ _ _ table_d_good T I E) Rlt_0_1 Rlt_0_1)). cbn [row_300K]. rewrite M1. ring.
  - split; [|split; reflexivity].
    apply (signal_mean_node table_d 300 row_300K _ 1 (hc / 1) 1 1 1 1 0 0 1 (1 * N) px (20 * N) table_d_good T I E); try assumption; try lra.
    + discriminate.
    + cbn. repeat (apply List.Forall_cons; [lra|]). apply List.Forall_nil.
    + cbn [row_300K]. rewrite R1. lra.
    + cbn [row_300K]. rewrite M1, R1. change (length dark20) with 20%nat. unfold truncated_cce, cce, phi.
      assert (F := absorbed_pos 1 1 ltac:(lra) ltac:(lra)). cbn [INR]. field. lra.
Qed.

(** ** The same photon without a grid *)
Lemma single_writes_m : forall wrap, slice_writes wrap 1 1 (mkSlice (fun _ _ => pixel_m 1) (fun _ _ _ => draws_m)) =
  Some (if wrap then [(0, 0); (0, 0); (0, 0)] else [(0, 0)])%Z.
Proof.
  intros wrap. unfold slice_writes. change (zrange 1) with [0%Z]. cbn [oconcat sl_pixel sl_draws]. cbn [pixel_m px_photons].
  rewrite (int_of_IZR 1) by lia. change (Z.to_nat 1) with 1%nat. cbn [seq oconcat].
  unfold photon_writes. rewrite (surviving_m 1). cbn [obind]. change (Z.to_nat 3) with 3%nat. cbn [seq map]. rewrite !displacement_m. destruct wrap; reflexivity.
Qed.
Lemma single_m : measured_single false (pixel_m 1) (fun _ => draws_m) = Some 1%Z.
Proof. unfold measured_single, run_slice. rewrite single_writes_m. reflexivity. Qed.
Lemma single_wrapped_m : measured_single true (pixel_m 1) (fun _ => draws_m) = Some 3%Z.
Proof. unfold measured_single, run_slice. rewrite single_writes_m. reflexivity. Qed.
Lemma single_survivors_m : let s := mkSlice (fun _ _ => pixel_m 1) (fun _ _ _ => draws_m) in
  (1 < zsum (map (survivors s 0 0) (seq 0 (photons s 0 0))))%Z.
Proof.
  unfold photons, survivors. cbn [sl_pixel sl_draws]. cbn [pixel_m px_photons]. rewrite (int_of_IZR 1) by lia. change (Z.to_nat 1) with 1%nat. cbn [seq map].
  rewrite (surviving_m 1). reflexivity.
Qed.
