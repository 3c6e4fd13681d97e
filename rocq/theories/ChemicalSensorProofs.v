From Coq Require Import Reals Lra Lia List Sorting.Sorted QArith Qreals Bool.
From Coquelicot Require Import Coquelicot.
From Verif Require Import Num NumLemmas Vec RayModel ComplexModel ComplexLemmas LayerModel LayerSpec SensorModel QuantumModel QuantumSpec DiffusionModel
  LayerProofs QuantumProofs TableModel TableSpec TableProofs ChemicalData ChemicalModel ChemicalSpec ChemicalProofs
  RamanathanModel PairTableModel PairYieldProofs SensorProofs QuantumMethodProofs.
Import ListNotations.
Open Scope R_scope.
Open Scope opt_scope.

Lemma silicon_sorted : StronglySorted (fun a b => nk_wavelength a < nk_wavelength b) silicon_table.
Proof. exact (ordered_sorted Qlt_b Rlt _ Qlt_b_R Rlt_trans silicon_ordered). Qed.
Lemma oxide_sorted : StronglySorted (fun a b => nk_wavelength a < nk_wavelength b) oxide_table.
Proof. exact (ordered_sorted Qlt_b Rlt _ Qlt_b_R Rlt_trans oxide_ordered). Qed.
Lemma palik_sorted : StronglySorted (fun a b => nk_wavelength a <= nk_wavelength b) palik_table.
Proof. exact (ordered_sorted Qle_bool Rle _ Qle_b_R Rle_trans palik_ordered). Qed.
Lemma silicon_data_some : silicon_data <> [].
Proof. destruct silicon_first as (d & l & E & _). rewrite E. discriminate. Qed.
Lemma oxide_data_some : oxide_data <> [].
Proof. intros E. assert (H : length oxide_data = 1557%nat) by (vm_compute; reflexivity). rewrite E in H. discriminate. Qed.
Lemma table_some l : l <> [] -> map nk_of_data l <> [].
Proof. destruct l; [congruence | discriminate]. Qed.

Lemma silicon_continuous : continuous_index (index_complex silicon_table).
Proof. apply index_continuous; [apply table_some, silicon_data_some | exact silicon_sorted]. Qed.
Lemma oxide_continuous : continuous_index (index_complex oxide_table).
Proof. apply index_continuous; [apply table_some, oxide_data_some | exact oxide_sorted]. Qed.

Ltac q2r := unfold Q2R; cbn [Qnum Qden].
Lemma silicon_within : index_within (index_complex silicon_table) 0.255 6.829 0 5.439.
Proof.
  assert (H := within_table _ _ _ _ _ silicon_data_some silicon_ordered silicon_ranges). intros w. destruct (H w) as (n & k & E & N & K).
  exists n, k. split; [exact E|]. revert N K. q2r. lra.
Qed.
Lemma oxide_within : index_within (index_complex oxide_table) 0.819896 2.027361 3.4588157e-12 0.742378.
Proof.
  assert (H := within_table _ _ _ _ _ oxide_data_some oxide_ordered oxide_ranges). intros w. destruct (H w) as (n & k & E & N & K).
  exists n, k. split; [exact E|]. revert N K. q2r. lra.
Qed.

(** The join of two measurements in the table of Palik *)
Lemma palik_split : palik_data = firstn 180 palik_data ++
  ((609838#1000), (59#100), (74#1000))%Q :: ((6199#10), (567#1000), (835#10000))%Q :: ((6199#10), (569#1000), (122#1000))%Q :: skipn 183 palik_data.
Proof. vm_compute. reflexivity. Qed.
Lemma palik_after : forallb (fun d => negb (Qeq_bool (row_w d) (6199#10))) (skipn 183 palik_data) = true.
Proof. vm_compute. reflexivity. Qed.
Lemma palik_jumps : ~ continuous_index (index_complex palik_table).
Proof.
  assert (S := palik_sorted). unfold palik_table in *. rewrite palik_split in *. rewrite map_app in *. cbn [map] in *.
  apply index_jump; [exact S | | reflexivity | | ]; cbn [nk_of_data nk_wavelength nk_n]; [q2r; lra | q2r; lra |].
  intros r I. apply in_map_iff in I as (d & <- & I). assert (H := palik_after). rewrite forallb_forall in H. specialize (H d I).
  rewrite nk_w. apply negb_true_iff in H. intros E. apply eqR_Qeq in E. apply Qeq_bool_iff in E. congruence.
Qed.

(** ** Absorption of silicon *)
Lemma absorbs_rows X l : forallb (absorbs_b X) l = true ->
  forall p, In p (k_table (map nk_of_data l)) -> 0 <= snd p /\ (fst p < Q2R X -> 0 < snd p).
Proof.
  rewrite forallb_forall. intros H p I. unfold k_table in I. rewrite map_map in I. apply in_map_iff in I as (d & <- & I).
  specialize (H d I). unfold absorbs_b in H. apply andb_true_iff in H as [A B]. cbn [fst snd]. rewrite nk_w, nk_k_.
  replace 0 with (Q2R 0) by (q2r; lra). split; [apply Qle_b_R, A|]. intros L. apply orb_true_iff in B as [B | B].
  - apply Qle_b_R in B. lra.
  - apply Qlt_b_R, B.
Qed.
Lemma silicon_absorbs : forall w, w < 11199.6 -> exists n k, index_complex silicon_table w = Some (n, k) /\ 0 < n /\ 0 < k.
Proof.
  intros w W. destruct (silicon_within w) as (n & k & E & N & _). exists n, k. split; [exact E|]. split; [lra|].
  assert (V := wavenumber_eq silicon_table w). unfold wavenumber in V. rewrite E in V. cbn [omap snd] in V.
  destruct silicon_first as (d & l & D & F). assert (H := absorbs_rows _ _ silicon_absorbs_rows). fold silicon_table in H.
  unfold silicon_table in H, V. rewrite D in H, V. unfold k_table in H, V. cbn [map] in H, V.
  apply Qlt_b_R in F.
  assert (Q : Q2R 11199.6 = 11199.6) by (q2r; lra).
  match type of V with _ = npinterp w ((?x, ?y) :: ?t) => destruct (positive_before (Q2R 11199.6) w x y t) as (v & V' & P) end.
  - rewrite nk_w. exact F.
  - lra.
  - exact H.
  - rewrite V' in V. congruence.
Qed.

Lemma existsb_in (f : chemical_row -> bool) l : existsb f l = true -> exists d, In d l /\ f d = true.
Proof. apply existsb_exists. Qed.
Lemma silicon_ends (f : nk_row -> R) : In (Q2R 11199.6) (map fst (map (fun r => (nk_wavelength r, f r)) silicon_table)) /\
  In (Q2R 25001) (map fst (map (fun r => (nk_wavelength r, f r)) silicon_table)).
Proof.
  assert (G : forall X, existsb (fun d => Qeq_bool (row_w d) X) silicon_data = true ->
    In (Q2R X) (map fst (map (fun r => (nk_wavelength r, f r)) silicon_table))).
  { intros X H. apply existsb_in in H as (d & I & H). apply Qeq_bool_iff in H. apply Qeq_eqR in H.
    unfold silicon_table. rewrite !map_map. apply in_map_iff. exists d. cbn [fst]. rewrite nk_w. auto. }
  destruct silicon_has_ends as [H1 H2]. auto.
Qed.
Lemma silicon_clear : forall w, 11199.6 <= w <= 25001 -> exists n, index_complex silicon_table w = Some (n, 0) /\ 3 <= n.
Proof.
  intros w W. destruct (silicon_within w) as (n & k & E & _ & _). exists n.
  assert (Q1 : Q2R 11199.6 = 11199.6) by (q2r; lra). assert (Q2 : Q2R 25001 = 25001) by (q2r; lra).
  assert (ROWS : forall r, In r silicon_table -> Q2R 11199.6 <= nk_wavelength r <= Q2R 25001 -> nk_k r = 0 /\ 3 <= nk_n r).
  { intros r I. unfold silicon_table in I. apply in_map_iff in I as (d & <- & I). rewrite nk_w, nk_k_, nk_n_.
    intros [L1 L2]. assert (H := silicon_clear_rows). rewrite forallb_forall in H. specialize (H d I). unfold clear_b in H.
    rewrite !orb_true_iff in H. destruct H as [[H | H] | H].
    + apply Qlt_b_R in H. lra.
    + apply Qlt_b_R in H. lra.
    + apply andb_true_iff in H as [H1 H2]. apply Qeq_bool_iff in H1. apply Qeq_eqR in H1. rewrite H1. split; [q2r; lra|].
      apply Qle_b_R in H2. revert H2. generalize (Q2R (row_n d)). intros x. q2r. lra. }
  assert (VK := wavenumber_eq silicon_table w). unfold wavenumber in VK. rewrite E in VK. cbn [omap snd] in VK.
  assert (VN := refraction_eq silicon_table w). unfold index_refraction in VN. rewrite E in VN. cbn [omap fst] in VN.
  assert (K : k = 0).
  { destruct (silicon_ends nk_k) as [I1 I2].
    apply (convex_between (fun y => y = 0) (Q2R 11199.6) (Q2R 25001) w (k_table silicon_table)); auto; [intros a b t -> -> _; ring | | lra | ].
    - exact (nk_increasing _ nk_k silicon_sorted).
    - intros p I. unfold k_table in I. apply in_map_iff in I as (r & <- & I). cbn [fst snd]. intros L. apply (ROWS r I L). }
  assert (N : 3 <= n).
  { destruct (silicon_ends nk_n) as [I1 I2].
    apply (convex_between (fun y => 3 <= y) (Q2R 11199.6) (Q2R 25001) w (n_table silicon_table)); auto; [intros a b t; intros; nra | | lra | ].
    - exact (nk_increasing _ nk_n silicon_sorted).
    - intros p I. unfold n_table in I. apply in_map_iff in I as (r & <- & I). cbn [fst snd]. intros L. apply (ROWS r I L). }
  rewrite E, K. auto.
Qed.
Lemma silicon_absorption : forall w, 0 < w -> w < 11199.6 -> exists a, absorption silicon_table w = Some a /\ 0 < a.
Proof.
  intros w W0 W. destruct (silicon_absorbs w W) as (n & k & E & _ & K). unfold absorption, wavenumber. rewrite E. cbn [omap snd obind].
  rewrite odiv_nz by lra. eexists. split; [reflexivity|]. assert (P := PI_RGT_0). apply Rdiv_lt_0_compat; [|exact W0]. nra.
Qed.
Lemma silicon_no_absorption : forall w, 11199.6 <= w <= 25001 -> absorption silicon_table w = Some 0.
Proof.
  intros w W. destruct (silicon_clear w W) as (n & E & _). unfold absorption, wavenumber. rewrite E. cbn [omap snd obind].
  rewrite odiv_nz by lra. f_equal. unfold Rdiv. ring.
Qed.

(** ** The sensor *)
Lemma absorbing_off n k K : 0 < n -> 0 < k -> off_critical (RtoC K) (n, k).
Proof. intros N P E. apply (f_equal Im) in E. cbn in E. nra. Qed.
Lemma absorbing_attenuation n k w n0 c0 a : 0 < n -> 0 < k -> 0 < w -> is_attenuation (n, k) w n0 c0 a -> 0 < a.
Proof.
  intros N K W (kz & E & R0 & I0 & ->). assert (I : 0 < Im kz).
  { destruct (Rle_lt_or_eq_dec _ _ I0) as [L | L]; [exact L|]. exfalso. apply (f_equal Im) in E. cbn in E. unfold Re, Im in *. cbn in *. rewrite <- L in E. nra. }
  assert (P := PI_RGT_0). apply Rmult_lt_0_compat; [lra|]. apply Rmult_lt_0_compat; [|exact I]. apply Rdiv_lt_0_compat; lra.
Qed.

Section Sensor.
Variables (oxide implant substrate eta0 temperature w n0 c0 : R).
Hypotheses (OX : 0 <= oxide) (IM : 0 < implant) (SU : 0 <= substrate) (ET : 0 <= eta0 <= 1) (W0 : 0 < w) (W1 : w < 11199.6)
  (N0 : 0 < n0) (C0 : 0 < c0 <= 1).
Notation q := (shipped_detector oxide implant substrate eta0 0 0 temperature).
Lemma shipped_smooth : smooth_sensor q w n0 c0.
Proof.
  destruct (silicon_absorbs w W1) as (n & k & E & N & K). destruct (oxide_within w) as (m & l & F & M & L).
  unfold smooth_sensor, shipped_detector. cbn [dt_oxide dt_substrate dt_rough_oxide dt_rough_substrate dt_n_oxide dt_n_substrate].
  unfold chemical_index. rewrite E, F.
  assert (L0 : 0 < l) by lra.
  repeat split; try (unfold Re, Im; cbn [fst snd]; lra); try lra; apply absorbing_off; lra.
Qed.
Lemma shipped_attenuation : exists a, is_attenuation (chemical_index silicon_table w) w n0 c0 a /\ 0 < a.
Proof.
  exists (alpha q w n0 c0). assert (A := alpha_attenuation q w n0 c0 shipped_smooth).
  split; [exact A|]. cbn [shipped_detector dt_n_substrate] in A. unfold chemical_index in *.
  destruct (silicon_absorbs w W1) as (n & k & E & N & K). rewrite E in A. exact (absorbing_attenuation n k w n0 c0 _ N K W0 A).
Qed.
Lemma shipped_efficiency : exists xs xp e, absorbance BeerLambert q w (RtoC c0) (RtoC n0) true = Some xs /\
  absorbance BeerLambert q w (RtoC c0) (RtoC n0) false = Some xp /\ quantum_efficiency_effective q w (RtoC c0) (RtoC n0) = Some e /\
  0 <= xs <= 1 /\ 0 <= xp <= 1 /\ eta0 * ((xs + xp) / 2) <= e <= (xs + xp) / 2.
Proof.
  destruct shipped_attenuation as (a & A & P).
  destruct (eqe_value q w n0 c0 a shipped_smooth A P IM ET) as (xs & xp & c & X1 & X2 & _ & V & B & _ & U).
  destruct (beer_lambert q w n0 c0 true shipped_smooth) as (t1 & _ & p1 & _ & _ & _ & _ & Y1 & B1 & T1).
  destruct (beer_lambert q w n0 c0 false shipped_smooth) as (t2 & _ & p2 & _ & _ & _ & _ & Y2 & B2 & T2).
  exists xs, xp, ((xs + xp) / 2 * c). rewrite Y1 in X1. rewrite Y2 in X2. injection X1 as <-. injection X2 as <-.
  repeat split; try assumption; try lra. rewrite (Rmult_comm eta0). apply Rmult_le_compat_l; [lra|]. cbn in B. lra.
Qed.
End Sensor.

(** ** The signal *)
Lemma signal_defined oxide implant substrate eta0 temperature photons w n0 c0 d :
  0 <= oxide -> 0 < implant -> 0 <= substrate -> 0 <= eta0 <= 1 -> 0 <= temperature <= 300 -> 0 < w -> w < 11199.6 -> 0 < n0 -> 0 < c0 <= 1 -> 0 <= photons ->
  snells_law_scalar (RtoC c0) (RtoC n0) (chemical_index silicon_table w) = Some d ->
  exists y c, quantum_yield_ideal shipped w temperature = Some y /\ eta0 <= c <= 1 /\
    material_cce (shipped_detector oxide implant substrate eta0 0 0 temperature) w (Some (V3 0 0 c0)) (RtoC n0) None = Some c /\
    material_signal shipped (shipped_silicon implant eta0 temperature) photons w d = Some (y * c * photons).
Proof.
  intros OX IM SU ET TE W0 W1 N0 C0 PH SN.
  destruct (shipped_yield w temperature W0 TE) as (y & Y & _).
  destruct (shipped_attenuation oxide implant substrate eta0 temperature w n0 c0) as (a & A & P); auto.
  pose (q := shipped_detector oxide implant substrate eta0 0 0 temperature).
  assert (SM : smooth_sensor q w n0 c0) by (apply shipped_smooth; auto).
  assert (E : alpha q w n0 c0 = a) by (exact (attenuation_unique _ _ _ _ _ _ (alpha_attenuation q w n0 c0 SM) A)).
  assert (NZ := ns_neq_0 q w n0 c0 SM). cbn [q shipped_detector dt_n_substrate] in NZ.
  assert (SS := snell_substrate q w n0 c0 SM). cbn [q shipped_detector dt_n_substrate] in SS. rewrite SN in SS. match type of SS with Some _ = Some ?x => assert (D : d = x) by congruence end. subst d.
  assert (AV := QuantumProofs.absorption_value q w n0 c0 SM). rewrite E in AV. cbn [q shipped_detector dt_n_substrate] in AV.
  assert (P' : 0 < a * implant) by (apply Rmult_lt_0_compat; assumption).
  assert (CV : charge_collection_efficiency a implant eta0 = Some (cce (a * implant) eta0)) by (apply cce_value; lra).
  exists y, (cce (a * implant) eta0). split; [exact Y|]. split; [apply cce_bounds; assumption|]. split.
  - exact (method_cce_value q w n0 c0 a (Some (V3 0 0 c0)) None SM A P IM eq_refl).
  - cbn [material_signal shipped_silicon si_n si_implant si_eta0 si_temperature]. unfold signal_expected.
    rewrite (snell_same _ _ NZ). cbn [obind].
 rewrite AV. cbn [obind]. rewrite Y. cbn [obind]. rewrite CV. cbn [obind]. f_equal. ring.
Qed.

(** Light that silicon does not absorb *)
Lemma clear_cosine n c0 : 3 <= n -> 0 < c0 <= 1 ->
  exists c, snells_law_scalar (RtoC c0) (RtoC 1) (n, 0) = Some (RtoC c) /\ 0 < c <= 1.
Proof.
  intros N C0. assert (NZ : (n, 0) <> RtoC 0) by (intros E; injection E; lra).
  set (s2 := (1 - c0 ^ 2) / n ^ 2).
  assert (S2 : 0 <= s2 < 1).
  { unfold s2. split; [apply Rmult_le_pos; [nra | left; apply Rinv_0_lt_compat; nra]|].
    apply Rmult_lt_reg_r with (n ^ 2); [nra|]. unfold Rdiv. rewrite Rmult_assoc, Rinv_l by nra. nra. }
  exists (sqrt (1 - s2)). split.
  - rewrite snell_value by exact NZ. f_equal. unfold cos_in, tangential2. apply csqrt_unique.
    + change (n, 0) with (RtoC n). rewrite <- RtoC_mult, sqrt_sqrt by lra. unfold s2.
      rewrite <- !RtoC_mult, <- !RtoC_minus, <- RtoC_mult, <- RtoC_div, <- RtoC_minus by nra. f_equal. field. lra.
    + left. cbn. apply sqrt_lt_R0. lra.
  - split; [apply sqrt_lt_R0; lra|]. rewrite <- sqrt_1 at 2. apply sqrt_le_1_alt. lra.
Qed.
Lemma clear_absorption w n c : 0 < w -> absorption_effective w (n, 0) (RtoC c) = Some 0.
Proof. intros W. unfold absorption_effective. rewrite odiv_nz by lra. f_equal. cbn. unfold Rdiv. ring. Qed.
Lemma clear_sensor oxide implant substrate eta0 ro rs temperature w c0 photons : 11199.6 <= w <= 25001 -> 0 < c0 <= 1 ->
  let q := shipped_detector oxide implant substrate eta0 ro rs temperature in
  quantum_efficiency_effective q w (RtoC c0) (RtoC 1) = None /\
  material_cce q w (Some (V3 0 0 c0)) (RtoC 1) None = None /\
  exists d, snells_law_scalar (RtoC c0) (RtoC 1) (chemical_index silicon_table w) = Some d /\
    material_signal shipped (shipped_silicon implant eta0 temperature) photons w d = None.
Proof.
  intros W C0 q. destruct (silicon_clear w W) as (n & E & N). assert (I : chemical_index silicon_table w = (n, 0)) by (unfold chemical_index; rewrite E; reflexivity).
  destruct (clear_cosine n c0 N C0) as (c & S & C1).
  assert (CE : forall e, charge_collection_efficiency 0 implant e = None) by (intros e; apply cce_none; ring).
  split; [|split].
  - unfold quantum_efficiency_effective. cbn [q shipped_detector dt_n_substrate dt_implant dt_eta0]. rewrite I, S. cbn [obind].
    rewrite clear_absorption by lra. cbn [obind]. rewrite CE. reflexivity.
  - unfold material_cce. cbn [q shipped_detector dt_n_substrate dt_implant dt_eta0]. rewrite I.
    rewrite (incidence_arrives (Some (V3 0 0 c0)) None c0 eq_refl), S. cbn [obind]. rewrite clear_absorption by lra. cbn [obind]. apply CE.
  - exists (RtoC c). rewrite I. split; [exact S|]. cbn [material_signal shipped_silicon si_n si_implant si_eta0 si_temperature].
    rewrite I. unfold signal_expected.
    assert (NZ : (n, 0) <> RtoC 0) by (intros Q; injection Q; lra).
    assert (SS : snells_law_scalar (RtoC c) (n, 0) (n, 0) = Some (RtoC c)).
    { rewrite snell_value in S by exact NZ. match type of S with Some ?x = Some _ => assert (D : RtoC c = x) by congruence end.
      rewrite D. apply snell_same, NZ. }
    rewrite SS. cbn [obind]. rewrite clear_absorption by lra. cbn [obind]. rewrite CE.
    destruct (quantum_yield_ideal shipped w temperature); reflexivity.
Qed.
Lemma clear_diffusion substrate depletion w : 11199.6 <= w <= 25001 -> width_charge_diffusion substrate depletion w = None.
Proof.
  intros W. unfold width_charge_diffusion. rewrite silicon_no_absorption by exact W. cbn [obind]. unfold charge_diffusion. cbv zeta.
  replace (0 * (1 - exp (- 0 * substrate))) with 0 by ring. rewrite odiv_0. reflexivity.
Qed.
