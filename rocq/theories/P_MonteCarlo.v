(** Theorems on the Monte Carlo model of a sensor: C53 to C56, C76. *)
From Coq Require Import Reals List ZArith Lra Lia.
From Coquelicot Require Import Coquelicot.
From Verif Require Import Num NumLemmas ComplexModel LayerModel DiffusionSpec RamanathanModel SensorModel SensorSpec SensorProofs SensorExamples
  MonteCarloSpec MonteCarloProofs ParallelModel ParallelProofs DepthProofs MonteCarloMeanSpec MonteCarloMeanProofs MonteCarloExamples
  MonteCarloClaimProofs.
Import ListNotations.
Open Scope R_scope.

(** ** C53 *)

(** Each element counts exactly the electrons that end up on its pixel. *)
Theorem C53_counts : forall wrap nx ny s g, (0 < nx)%Z -> (0 < ny)%Z -> run_slice wrap nx ny s = Some g ->
  forall x y, in_grid nx ny (x, y) ->
  number_of (fun el => is_electron nx ny s el /\ on_pixel wrap nx ny (x, y) (position s el)) (g x y).
Proof. exact image_counts. Qed.
Print Assumptions C53_counts.

(** Nothing is written outside the array. *)
Theorem C53_in_range : forall wrap nx ny s w, (0 < nx)%Z -> (0 < ny)%Z -> slice_writes wrap nx ny s = Some w ->
  forall p, In p w -> in_grid nx ny p.
Proof. exact writes_in_grid. Qed.
Print Assumptions C53_in_range.

Theorem C53_wrapped : forall nx ny s g, (0 < nx)%Z -> (0 < ny)%Z -> proper_draws s -> run_slice true nx ny s = Some g ->
  grid_total nx ny g = freed nx ny s.
Proof. exact wrap_total. Qed.
Print Assumptions C53_wrapped.

Theorem C53_bounded : forall nx ny s g, (0 < nx)%Z -> (0 < ny)%Z -> proper_draws s -> run_slice false nx ny s = Some g ->
  (grid_total nx ny g <= freed nx ny s)%Z /\
  ((forall el, is_electron nx ny s el -> in_grid nx ny (position s el)) -> grid_total nx ny g = freed nx ny s).
Proof. exact lost_total. Qed.
Print Assumptions C53_bounded.

(** An electron freed in the field-free region is counted on the pixel that contains its diffused
    position, every other one on the pixel of its photon. *)
Theorem C53_pixel : forall px d e,
  let z := photon_depth (px_absorption px) (px_substrate px) (dr_depth d) in
  let f := px_substrate px - px_depletion px in
  (z < f -> 0 < px_width_x px -> 0 < px_width_y px ->
    nearest (dr_gauss_x d e (dr_u d) (diffusion_width f z / px_width_x px)) (fst (displacement px d e)) /\
    nearest (dr_gauss_y d e (dr_v d) (diffusion_width f z / px_width_y px)) (snd (displacement px d e))) /\
  (f <= z \/ px_width_x px <= 0 \/ px_width_y px <= 0 -> displacement px d e = (0, 0)%Z).
Proof. exact electron_pixel. Qed.
Print Assumptions C53_pixel.

(** A photon above 50 eV frees the whole number of pairs nearest to its normal draw. *)
Theorem C53_pairs : forall px d n, 50 < px_energy px -> pair_count px d = Some n ->
  exists mean, mean * px_energy_pair_inf px = px_energy px /\ nearest (dr_normal d mean (sqrt (px_fano_inf px * mean))) n.
Proof. exact energetic_pairs. Qed.
Print Assumptions C53_pairs.

(** Three electrons; one of them diffuses off the left edge. *)
Example C53_nonvacuous : proper_draws slice_m /\ freed 2 1 slice_m = 3%Z /\
  (exists g, run_slice true 2 1 slice_m = Some g /\ g 0%Z 0%Z = 1%Z /\ g 1%Z 0%Z = 2%Z) /\
  (exists g, run_slice false 2 1 slice_m = Some g /\ g 0%Z 0%Z = 1%Z /\ g 1%Z 0%Z = 1%Z).
Proof.
  split; [apply proper_m|]. assert (W : exists g, run_slice true 2 1 slice_m = Some g /\ g 0%Z 0%Z = 1%Z /\ g 1%Z 0%Z = 2%Z).
  { unfold run_slice. rewrite writes_m. eexists. split; [reflexivity|]. split; reflexivity. }
  split; [|split; [exact W|]].
  - destruct W as (g & G & G0 & G1). rewrite <- (wrap_total 2 1 slice_m g ltac:(lia) ltac:(lia) proper_m G).
    unfold grid_total. change (zrange 2) with [0; 1]%Z. change (zrange 1) with [0%Z]. cbn [map zsum fold_right]. rewrite G0, G1. reflexivity.
  - unfold run_slice. rewrite writes_m. eexists. split; [reflexivity|]. split; reflexivity.
Qed.

(** ** C54 *)

(** Whatever the schedule, once all iterations have finished the array holds the result of
    running each slice alone. *)
Theorem C54_schedule : forall wrap nx ny ss ks m ts, run_parallel wrap nx ny ss ks = Some (m, ts) ->
  (forall t, In t ts -> th_code t = []) ->
  forall i s, nth_error ss i = Some s -> exists g, run_slice wrap nx ny s = Some g /\ forall x y, m i x y = g x y.
Proof. exact parallel_result. Qed.
Print Assumptions C54_schedule.

(** Every partial schedule can be finished. *)
Theorem C54_finishes : forall wrap nx ny ss, (forall s, In s ss -> exists g, run_slice wrap nx ny s = Some g) ->
  forall ks, exists ks' m ts, run_parallel wrap nx ny ss (ks ++ ks') = Some (m, ts) /\ forall t, In t ts -> th_code t = [].
Proof. exact parallel_exists. Qed.
Print Assumptions C54_finishes.

(** Two slices whose loads and stores alternate. *)
Example C54_nonvacuous : exists m ts, run_parallel true 2 1 [slice_m; slice_m] [0; 1; 0; 1; 1; 0; 1; 1; 0; 0; 0; 1]%nat = Some (m, ts) /\
  (forall t, In t ts -> th_code t = []) /\ m 0%nat 1%Z 0%Z = 2%Z /\ m 1%nat 1%Z 0%Z = 2%Z.
Proof.
  unfold run_parallel. cbn [all_writes]. rewrite writes_m. cbn [obind]. eexists. eexists. split; [reflexivity|].
  split; [|split; reflexivity]. cbn. intros t [<-|[<-|[]]]; reflexivity.
Qed.

(** ** C55 *)

Theorem C55_range : forall a D y, 0 <= a -> 0 < D -> 0 <= y < 1 -> 0 <= photon_depth a D y < D.
Proof. exact depth_range. Qed.
Print Assumptions C55_range.

Theorem C55_increasing : forall a D x y, 0 <= a -> 0 < D -> x < y -> y <= 1 -> photon_depth a D x < photon_depth a D y.
Proof. exact depth_increasing. Qed.
Print Assumptions C55_increasing.

(** The depth is at most [z] for exactly a fraction [truncated_cdf a D z] of the draws. *)
Theorem C55_distribution : forall a D y z, 0 <= a -> 0 < D -> 0 <= y < 1 -> 0 <= z <= D ->
  photon_depth a D y <= z <-> y <= truncated_cdf a D z.
Proof. exact depth_cdf_iff. Qed.
Print Assumptions C55_distribution.

Theorem C55_limit : forall D y, 0 < D -> 0 <= y <= 1 -> forall eps, 0 < eps -> exists delta, 0 < delta /\
  forall a, 0 < a < delta -> Rabs (photon_depth a D y - photon_depth 0 D y) < eps.
Proof. exact depth_limit. Qed.
Print Assumptions C55_limit.

Theorem C55_probability : forall h0 W z, 0 <= h0 <= 1 -> 0 <= W -> 0 <= z -> h0 <= collection_probability h0 W z <= 1.
Proof. exact collection_range. Qed.
Print Assumptions C55_probability.

Example C55_nonvacuous : photon_depth 0 2 (1/4) = 1/2 /\ photon_depth (ln 2) 1 (1/2) = ln (4/3) / ln 2 /\ collection_probability (1/2) 1 (1/2) = 3/4.
Proof.
  split; [rewrite depth_transparent; lra|]. assert (L := ln_lt_2). split.
  - rewrite depth_absorbing by lra. replace (- ln 2 * 1) with (- ln 2) by ring. rewrite exp_Ropp, exp_ln by lra.
    replace (1 - 1 / 2 * (1 - / 2)) with (/ (4 / 3)) by field. rewrite ln_Rinv by lra. field. lra.
  - unfold collection_probability. destruct (Rlt_dec (1/2) 1); lra.
Qed.

(** ** C56 *)

(** At a tabulated energy whose probabilities add up to one: [m] is the mean of the Monte
    Carlo method for a Poisson number of photons of mean [A * N], and the result [s] of the
    other method exceeds it by the stated fraction, which vanishes as the substrate becomes
    thick or the collection efficiency becomes one.  The full statement asks for [s = m]. *)
Theorem C56_expected_partial : forall tb T get r wl d n ns ds a A N W Dp D wx wy h0 photons,
  good_table tb -> tabulated T get -> In r tb -> photon_energy wl = row_energy r ->
  get r <> [] -> List.Forall (fun q => 0 <= q) (get r) -> rsum (get r) = 1 ->
  snells_law_scalar d n ns = Some ds -> absorption_effective wl ns ds = Some a -> 0 < a -> 0 < W <= D -> 0 <= h0 <= 1 ->
  exists s px m c, signal_expected tb N wl d n ns A W h0 T = Some s /\
    measured_pixel tb photons wl a W Dp D wx wy h0 T = Some px /\
    (forall v, is_signal_mean (A * N) px v <-> v = m) /\
    charge_collection_efficiency a W h0 = Some c /\ 0 < c <= 1 /\
    s - m = s * (exp (- a * D) * (1 - c) / (c * (1 - exp (- a * D)))).
Proof. exact methods_compared. Qed.
Print Assumptions C56_expected_partial.

(** The closed form averages over all depths, the Monte Carlo method over those in the
    substrate: a quarter of the signal can be missing. *)
Theorem C56_truncation_refuted : exists tb wl d n ns a A N W D h0 T s px m,
  snells_law_scalar d n ns = Some d /\ absorption_effective wl ns d = Some a /\ 0 < a /\
  signal_expected tb N wl d n ns A W h0 T = Some s /\
  measured_pixel tb 1 wl a W D D 0 0 h0 T = Some px /\ is_signal_mean (A * N) px m /\ 0 < s /\ m <= 3 / 4 * s.
Proof.
  destruct (energy_of 10 ltac:(lra)) as [_ WP]. destruct (unit_absorption _ WP) as [S A]. destruct truncation_gap as (s & px & m & H).
  exists table_m, (hc / 10), (RtoC 1), (n_unit (hc / 10)), (n_unit (hc / 10)), 1, 1, 1, 1, 1, 0, 300, s, px, m.
  split; [exact S|]. split; [exact A|]. split; [lra | exact H].
Qed.
Print Assumptions C56_truncation_refuted.

(** Below the band gap the table holds no pairs: the closed form gives zero electrons, the
    Monte Carlo method the largest number in the table for every photon. *)
Theorem C56_bandgap_refuted : exists tb wl d n ns a A W D h0 T, 
  snells_law_scalar d n ns = Some d /\ absorption_effective wl ns d = Some a /\ 0 < a /\
  forall N, exists s px m, signal_expected tb N wl d n ns A W h0 T = Some s /\
    measured_pixel tb 1 wl a W D D 0 0 h0 T = Some px /\ is_signal_mean (A * N) px m /\ s = 0 /\ m = 20 * N.
Proof.
  destruct (energy_of 1 ltac:(lra)) as [_ WP]. destruct (unit_absorption _ WP) as [S A].
  exists table_d, (hc / 1), (RtoC 1), (n_unit (hc / 1)), (n_unit (hc / 1)), 1, 1, 1, 1, 1, 300.
  split; [exact S|]. split; [exact A|]. split; [lra | exact bandgap_gap].
Qed.
Print Assumptions C56_bandgap_refuted.

Example C56_nonvacuous : good_table table_m /\ tabulated 300 row_300K /\ rsum half = 1 /\ photon_energy (hc / 10) = 10 /\
  snells_law_scalar 1 (n_unit (hc / 10)) (n_unit (hc / 10)) = Some (RtoC 1) /\ absorption_effective (hc / 10) (n_unit (hc / 10)) 1 = Some 1.
Proof.
  destruct (energy_of 10 ltac:(lra)) as [E WP]. destruct (unit_absorption _ WP) as [S A].
  split; [apply table_m_good|]. split; [right; right; split; reflexivity|]. split; [unfold rsum, half; cbn; lra|]. tauto.
Qed.

(** ** C76 *)

(** Without a pixel grid no electron is lost if the boundary is periodic, if there is no
    field-free region, or if the pixels have no width.  The full statement has no such
    condition. *)
Theorem C76_no_grid_partial : forall wrap px draws v, (forall j n p, (0 <= n -> 0 <= dr_binomial (draws j) n p <= n)%Z) ->
  measured_single wrap px draws = Some v ->
  let s := mkSlice (fun _ _ => px) (fun _ _ j => draws j) in
  (v <= zsum (map (survivors s 0 0) (seq 0 (photons s 0 0))))%Z /\
  (wrap = true \/
   (0 <= px_absorption px /\ 0 < px_substrate px /\ (forall j, 0 <= dr_depth (draws j) < 1) /\
    (px_substrate px <= px_depletion px \/ px_width_x px <= 0 \/ px_width_y px <= 0)) ->
   v = zsum (map (survivors s 0 0) (seq 0 (photons s 0 0)))).
Proof. exact single_measured. Qed.
Print Assumptions C76_no_grid_partial.

(** Otherwise charge diffuses although there is no grid, and is lost. *)
Theorem C76_no_grid_refuted : exists px draws v, (forall j n p, (0 <= n -> 0 <= dr_binomial (draws j) n p <= n)%Z) /\
  0 <= px_absorption px /\ 0 < px_depletion px < px_substrate px /\ 0 < px_width_x px /\ 0 < px_width_y px /\
  (forall j, 0 <= dr_depth (draws j) < 1) /\ measured_single false px draws = Some v /\
  let s := mkSlice (fun _ _ => px) (fun _ _ j => draws j) in
  (v < zsum (map (survivors s 0 0) (seq 0 (photons s 0 0))))%Z.
Proof.
  exists (pixel_m 1), (fun _ => draws_m), 1%Z. split; [intros j n p N; cbn; lia|]. cbn [pixel_m px_absorption px_depletion px_substrate px_width_x px_width_y].
  repeat (split; [try lra; intros; cbn; lra|]).
  split; [apply single_m | apply single_survivors_m].
Qed.
Print Assumptions C76_no_grid_refuted.

Example C76_nonvacuous : measured_single true (pixel_m 1) (fun _ => draws_m) = Some 3%Z.
Proof. exact single_wrapped_m. Qed.
