(** When the Monte Carlo run of a slice ends in an error (C104). *)
From Coq Require Import Reals Lra Psatz List Bool ZArith Lia Sorting.Sorted.
From Verif Require Import Num NumLemmas ExtNum MaterialModel RamanathanModel PairData PairTableModel PairTableSpec SiliconSpec SiliconProofs
  MonteCarloSpec MonteCarloProofs DepthProofs MonteCarloMeanSpec MonteCarloMeanProofs MonteCarloClaimProofs MonteCarloExamples PairTableProofs PairYieldProofs PairDrawProofs
  PairFinishSpec.
Import ListNotations.
Open Scope R_scope.
Open Scope opt_scope.

(** ** Loops *)
Lemma oconcat_none : forall {A B} (f : A -> option (list B)) l, oconcat f l = None <-> exists a, In a l /\ f a = None.
Proof.
  intros A B f l. induction l as [|a l IH]; cbn [oconcat].
  - split; [discriminate|]. intros (a & [] & _).
  - destruct (f a) as [u|] eqn:E; cbn [obind].
    + destruct (oconcat f l) as [v|]; cbn [obind].
      * split; [discriminate|]. intros (b & [<-|I] & N); [rewrite E in N; discriminate|]. discriminate (proj2 IH (ex_intro _ b (conj I N))).
      * split; [|reflexivity]. intros _. destruct (proj1 IH eq_refl) as (b & I & N). exists b. split; [right; exact I|exact N].
    + split; [|reflexivity]. intros _. exists a. split; [left; reflexivity|exact E].
Qed.

Lemma slice_none : forall wrap nx ny s, run_slice wrap nx ny s = None <->
  exists x y j, in_grid nx ny (x, y) /\ (j < photons s x y)%nat /\ surviving (sl_pixel s x y) (sl_draws s x y j) = None.
Proof.
  intros wrap nx ny s. unfold run_slice, slice_writes. split.
  - intros H. destruct (oconcat _ _) eqn:E in H; [discriminate|]. apply oconcat_none in E. destruct E as (x & X & E).
    apply oconcat_none in E. destruct E as (y & Y & E). apply oconcat_none in E. destruct E as (j & J & E).
    apply zrange_in in X. apply zrange_in in Y. apply in_seq in J. exists x, y, j. split; [split; assumption|]. split; [unfold photons; lia|].
    unfold photon_writes in E. destruct (surviving _ _); [discriminate|reflexivity].
  - intros (x & y & j & [X Y] & J & E). cbn [fst snd] in X, Y.
    rewrite (proj2 (oconcat_none _ _)); [reflexivity|]. exists x. split; [apply zrange_in; exact X|].
    apply oconcat_none. exists y. split; [apply zrange_in; exact Y|]. apply oconcat_none. exists j. split; [apply in_seq; unfold photons in J; lia|].
    unfold photon_writes. rewrite E. reflexivity.
Qed.

(** ** A whole number is negative when rounded from below -1/2 *)
Lemma round_negative : forall x, (round_even x < 0)%Z <-> x < - (1 / 2).
Proof.
  intros x. destruct (round_nearest x) as [A B]. set (k := round_even x) in *. split; intros H.
  - assert (K : (k <= -1)%Z) by lia. apply IZR_le in K.
    destruct (Rlt_dec x (- (1 / 2))) as [|N]; [assumption|exfalso].
    assert (C : x - IZR k >= 1 / 2) by lra. rewrite Rabs_pos_eq in A, B by lra.
    assert (E : IZR k = -1) by lra. apply eq_IZR in E. destruct (B ltac:(lra)) as [m M]. lia.
  - destruct (Z.lt_ge_cases k 0) as [|N]; [assumption|exfalso]. apply IZR_le in N. rewrite Rabs_left in A by lra. lra.
Qed.

(** ** Numbers of pairs from the tables *)
Lemma select_some : forall x p n, p <> [] -> length n = length p -> (forall m, In m n -> (0 <= m)%Z) ->
  forall acc, exists m, select_pairs x (cumsum acc p) n = Some m /\ (0 <= m)%Z.
Proof.
  intros x p. induction p as [|q p IH]; intros n N L P acc; [contradiction|]. destruct n as [|m n]; [discriminate|].
  cbn [cumsum]. destruct p as [|q' p].
  - exists m. split; [reflexivity|apply P; left; reflexivity].
  - destruct n as [|m' n]; [discriminate|].
    destruct (IH (m' :: n) ltac:(discriminate) ltac:(cbn in L |- *; lia) ltac:(intros k K; apply P; right; exact K) (acc + q)) as (k & K & K0).
    change (cumsum (acc + q) (q' :: p)) with ((acc + q + q') :: cumsum (acc + q + q') p) in *.
    change (select_pairs x ((acc + q) :: (acc + q + q') :: cumsum (acc + q + q') p) (m :: m' :: n)) with
      (if Rlt_dec x (acc + q) then Some m else select_pairs x ((acc + q + q') :: cumsum (acc + q + q') p) (m' :: n)).
    destruct (Rlt_dec x (acc + q)); [exists m; split; [reflexivity|apply P; left; reflexivity]|exists k; split; [exact K|exact K0]].
Qed.

Lemma shipped_probabilities : forall w T,
  exists p, osequence (map (probability_of_pairs shipped (photon_energy w) T) (seq 0 (num_electron shipped))) = Some p /\ length p = 20%nat.
Proof.
  intros w T. destruct (temperature_mean T) as (g & h & c & G & H & C & E). rewrite shipped_electrons.
  set (v := fun r k => (1 - c) * nth k (g r) 0 + c * nth k (h r) 0).
  assert (S := shipped_sorted). rewrite shipped_head in S.
  destruct (interp_mean row_energy (photon_energy w) _ _ S) as (r & s & d & _ & _ & _ & M).
  exists (map (mix d (v r) (v s)) (seq 0 20)). split; [|rewrite map_length, seq_length; reflexivity].
  rewrite (map_ext _ (fun k => Some (mix d (v r) (v s) k))).
  - rewrite <- (map_map (mix d (v r) (v s)) Some). apply osequence_some.
  - intros k. rewrite (probability_rows shipped _ T k (fun r => v r k)) by (intros; apply E). rewrite shipped_head. apply (M (fun r => v r k)).
Qed.

Lemma measured_defined : forall photons w a W Dp D wx wy h0 T, 0 <= T <= 300 ->
  exists px, measured_pixel shipped photons w a W Dp D wx wy h0 T = Some px.
Proof.
  intros photons w a W Dp D wx wy h0 T H. destruct (shipped_probabilities w T) as (p & P & _).
  destruct (shipped_pixel photons w a W Dp D wx wy h0 T p H P) as (e & f & E & _). eexists. exact E.
Qed.

Lemma depth_positive : forall a D y, 0 <= a -> 0 < D -> 0 <= y <= 1 -> 0 <= photon_depth a D y.
Proof.
  intros a D y A P [[L| <-] U]; [|rewrite depth_0; lra]. assert (I := depth_increasing a D 0 y A P L U). rewrite depth_0 in I. lra.
Qed.
Lemma collection_bounds : forall h0 W z, 0 <= h0 <= 1 -> 0 <= z -> 0 <= collection_probability h0 W z <= 1.
Proof.
  intros h0 W z H Z. unfold collection_probability. destruct (Rlt_dec z W) as [L|]; [|lra].
  assert (B : 0 <= z / W <= 1).
  { split; [apply Rmult_le_pos; [exact Z|apply Rlt_le, Rinv_0_lt_compat; lra]|].
    apply (proj2 (Rcomplements.Rle_div_l z 1 W ltac:(lra))). lra. }
  replace ((1 - h0) * z / W) with ((1 - h0) * (z / W)) by (unfold Rdiv; ring). nra.
Qed.

Lemma surviving_none : forall px d, silicon_pixel px -> 0 <= dr_depth d <= 1 ->
  surviving px d = None <-> 50 < px_energy px /\ dr_normal d (pairs_mean px) (pairs_deviation px) < - (1 / 2).
Proof.
  intros px d (ph & w & a & W & Dp & D & wx & wy & h0 & T & W0 & HT & A0 & D0 & H0 & M) U.
  destruct (shipped_probabilities w T) as (p & P & L).
  destruct (shipped_pixel ph w a W Dp D wx wy h0 T p HT P) as (e & f & E & EB & FB).
  rewrite M in E. injection E as ->. clear M.
  assert (X : 0 < hc / w) by (apply Rdiv_lt_0_compat; [unfold hc; lra|exact W0]).
  unfold surviving, pair_count, pairs_mean, pairs_deviation. cbn [px_energy px_energy_pair_inf px_fano_inf px_p px_n px_absorption px_substrate px_eta0 px_implant].
  assert (CB := collection_bounds h0 W _ H0 (depth_positive a D (dr_depth d) A0 D0 U)).
  destruct (Rle_dec 0 (collection_probability h0 W (photon_depth a D (dr_depth d)))); [|lra].
  destruct (Rle_dec (collection_probability h0 W (photon_depth a D (dr_depth d))) 1); [|lra].
  rewrite odiv_nz by lra. cbn [obind]. rewrite osqrt_nonneg by (apply Rmult_le_pos; [lra|apply Rlt_le, Rdiv_lt_0_compat; lra]). cbn [obind].
  destruct (Rle_dec (hc / w) 50) as [LE|GT].
  - destruct (select_some (dr_pair d) p (pair_numbers p)) with (acc := 0) as (m & S & S0).
    + intros ->. discriminate L.
    + unfold pair_numbers. rewrite map_length, seq_length. reflexivity.
    + intros m I. unfold pair_numbers in I. apply in_map_iff in I. destruct I as (k & <- & _). lia.
    + rewrite S. cbn [obind]. destruct (Z.ltb_spec m 0); [lia|]. split; [discriminate|]. intros [? _]. lra.
  - cbn [obind]. rewrite <- round_negative. destruct (Z.ltb_spec (round_even (dr_normal d (hc / w / e) (sqrt (f * (hc / w / e))))) 0) as [N|N].
    + split; [intros _|reflexivity]. split; [lra|exact N].
    + split; [discriminate|]. intros [_ Q]. exfalso. exact (Zlt_not_le _ _ Q N).
Qed.

Lemma run_fails : forall wrap nx ny s, (forall x y, silicon_pixel (sl_pixel s x y)) -> uniform_depths s ->
  run_slice wrap nx ny s = None <->
  exists x y j, in_grid nx ny (x, y) /\ (j < photons s x y)%nat /\ 50 < px_energy (sl_pixel s x y) /\
    dr_normal (sl_draws s x y j) (pairs_mean (sl_pixel s x y)) (pairs_deviation (sl_pixel s x y)) < - (1 / 2).
Proof.
  intros wrap nx ny s H U. rewrite slice_none. split.
  - intros (x & y & j & G & J & E). exists x, y, j. split; [exact G|]. split; [exact J|]. apply (surviving_none _ _ (H x y) (U x y j)), E.
  - intros (x & y & j & G & J & E). exists x, y, j. split; [exact G|]. split; [exact J|]. apply (surviving_none _ _ (H x y) (U x y j)), E.
Qed.

Lemma run_finishes : forall wrap nx ny s, (forall x y, silicon_pixel (sl_pixel s x y)) -> uniform_depths s ->
  (forall x y j, in_grid nx ny (x, y) -> 50 < px_energy (sl_pixel s x y) ->
    0 <= dr_normal (sl_draws s x y j) (pairs_mean (sl_pixel s x y)) (pairs_deviation (sl_pixel s x y))) ->
  exists g, run_slice wrap nx ny s = Some g.
Proof.
  intros wrap nx ny s H U D. destruct (run_slice wrap nx ny s) as [g|] eqn:E; [exists g; reflexivity|exfalso].
  apply (run_fails _ _ _ _ H U) in E. destruct E as (x & y & j & G & _ & E & N). specialize (D x y j G E). lra.
Qed.

(** A negative draw is more than ten standard deviations below the mean. *)
Lemma deviations : forall px, silicon_pixel px -> 50 < px_energy px ->
  0 < pairs_deviation px /\ 10 < pairs_mean px / pairs_deviation px.
Proof.
  intros px (ph & w & a & W & Dp & D & wx & wy & h0 & T & W0 & HT & _ & _ & _ & M) X.
  destruct (shipped_probabilities w T) as (p & P & L).
  destruct (shipped_pixel ph w a W Dp D wx wy h0 T p HT P) as (e & f & E & EB & FB).
  rewrite M in E. injection E as ->. clear M. unfold pairs_mean, pairs_deviation in *. cbn [px_energy px_energy_pair_inf px_fano_inf] in *.
  set (m := hc / w / e) in *.
  assert (M : 13.4 < m) by (unfold m; apply (proj1 (Rcomplements.Rlt_div_r 13.4 (hc / w) e ltac:(lra))); nra).
  assert (V : 0 < f * m) by nra. assert (S := sqrt_lt_R0 _ V). split; [exact S|].
  apply (proj1 (Rcomplements.Rlt_div_r 10 m _ S)).
  apply Rsqr_incrst_0; [|lra|lra]. unfold Rsqr. assert (Q := sqrt_sqrt (f * m) ltac:(lra)). nra.
Qed.

(** ** A slice that fails: one photon of 100 eV and a draw more than ten deviations below the mean. *)
Definition low_draws : photon_draws := mkDraws 0 (fun m s => -1) 0 (fun n p => 0%Z) 0 0 (fun _ _ _ => 0) (fun _ _ _ => 0).

Lemma slice_fails : exists s, (forall x y, silicon_pixel (sl_pixel s x y)) /\ uniform_depths s /\ photons s 0 0 = 1%nat /\ 50 < px_energy (sl_pixel s 0%Z 0%Z) /\
  forall wrap, run_slice wrap 1 1 s = None.
Proof.
  destruct (shipped_probabilities (hc / 100) 300) as (p & P & _).
  destruct (shipped_pixel 1 (hc / 100) 1 1 1 1 1 1 1 300 p ltac:(lra) P) as (e & f & E & _).
  assert (HC : hc <> 0) by (unfold hc; lra).
  set (px := mkPixel 1 (hc / (hc / 100)) 1 1 1 1 1 1 1 p (pair_numbers p) e f) in *.
  assert (S : silicon_pixel px).
  { exists 1, (hc / 100), 1, 1, 1, 1, 1, 1, 1, 300. split; [unfold hc; lra|]. split; [lra|]. split; [lra|]. split; [lra|]. split; [lra|exact E]. }
  assert (X : 50 < px_energy px) by (unfold px; cbn [px_energy]; replace (hc / (hc / 100)) with 100 by (field; exact HC); lra).
  assert (N : photons (mkSlice (fun _ _ => px) (fun _ _ _ => low_draws)) 0 0 = 1%nat).
  { unfold photons, px. cbn [sl_pixel px_photons]. rewrite (int_of_IZR 1) by lia. reflexivity. }
  exists (mkSlice (fun _ _ => px) (fun _ _ _ => low_draws)). assert (UD : uniform_depths (mkSlice (fun _ _ => px) (fun _ _ _ => low_draws))) by (intros x y j; cbn; lra).
  split; [intros; exact S|]. split; [exact UD|]. split; [exact N|]. split; [exact X|].
  intros wrap. apply (run_fails wrap 1 1 (mkSlice (fun _ _ => px) (fun _ _ _ => low_draws)) (fun _ _ => S) UD). exists 0%Z, 0%Z, 0%nat. split; [split; cbn; lia|]. split; [rewrite N; lia|].
  split; [exact X|]. cbn [sl_draws low_draws dr_normal]. lra.
Qed.
