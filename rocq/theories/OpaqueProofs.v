(** What the bare surface of a chemical reflects. *)
From Coq Require Import Reals Lra Psatz List Bool QArith Qreals Sorting.Sorted.
From Coquelicot Require Import Coquelicot.
From Verif Require Import Num NumLemmas ComplexModel ComplexLemmas LayerModel LayerSpec LayerProofs LayerTrivialProofs LayerCaseProofs EnergyProofs
  TableModel TableSpec TableProofs ChemicalData ChemicalModel ChemicalSpec ChemicalProofs ChemicalSensorProofs OpaqueSpec.
Import ListNotations.
Open Scope R_scope.

(** ** Bare surfaces *)
Lemma real_q : forall s n0 c0, 0 < n0 -> 0 < c0 <= 1 -> exists q0, 0 < q0 /\ q_factor s (RtoC c0) (RtoC n0) = Some (RtoC q0).
Proof.
  intros s n0 c0 N C. destruct s.
  - exists (n0 * c0). split; [nra|]. rewrite q_s. f_equal. cring.
  - exists (c0 / n0). split; [apply Rdiv_lt_0_compat; lra|]. rewrite (q_p _ _ (RtoC (/ n0))).
    + f_equal. unfold Rdiv. cring.
    + apply RtoC_neq_0. lra.
    + rewrite <- RtoC_mult. rewrite Rinv_l by lra. reflexivity.
Qed.

Lemma real_sums : forall (q0 : R) (q : C), 0 < q0 -> 0 <= Re q -> 
  let r := Cmod ((RtoC q0 - q) / (RtoC q0 + q))%C ^ 2 in let t := Cmod (2 * RtoC q0 / (RtoC q0 + q))%C ^ 2 * Re (q / RtoC q0)%C in
  (RtoC q0 + q)%C <> RtoC 0 /\ r + t = 1 /\ t = 4 * q0 * Re q / ((q0 + Re q) ^ 2 + Im q ^ 2).
Proof.
  intros q0 q Q0 Q. cbv zeta. 
  assert (A : (RtoC q0 + q)%C <> RtoC 0) by (intros E; apply (f_equal Re) in E; unfold Re in Q; cbn in E; lra).
  assert (Z : RtoC q0 <> RtoC 0) by (apply RtoC_neq_0; lra).
  assert (D : 0 < (q0 + Re q) ^ 2 + Im q ^ 2) by (assert (X := pow2_ge_0 (Im q)); nra).
  assert (MD : Cmod (RtoC q0 + q)%C ^ 2 = (q0 + Re q) ^ 2 + Im q ^ 2) by (rewrite Cmod_sq; cparts; ring).
  assert (MN : Cmod (RtoC q0 - q)%C ^ 2 = (q0 - Re q) ^ 2 + Im q ^ 2) by (rewrite Cmod_sq; cparts; ring).
  assert (R1 : Re (q / RtoC q0)%C = Re q / q0).
  { replace (q / RtoC q0)%C with (RtoC (/ q0) * q)%C by (rewrite RtoC_inv by lra; field; exact Z). cparts. unfold Rdiv. ring. }
  assert (CD : Cmod (RtoC q0 + q)%C <> 0) by (intros E; apply Cmod_eq_0 in E; contradiction).
  assert (SQ : forall a b : R, b <> 0 -> (a / b) ^ 2 = a ^ 2 / b ^ 2) by (intros; field; assumption).
  assert (T : Cmod (2 * RtoC q0 / (RtoC q0 + q))%C ^ 2 * Re (q / RtoC q0)%C = 4 * q0 * Re q / ((q0 + Re q) ^ 2 + Im q ^ 2)).
  { rewrite Cmod_div by exact A. rewrite SQ by exact CD. rewrite MD, R1. rewrite Cmod_mult, !Cmod_R, Rpow_mult_distr, !pow2_abs. field. split; lra. }
  split; [exact A|]. split; [|exact T]. rewrite T. rewrite Cmod_div by exact A. rewrite SQ by exact CD. rewrite MD, MN. field. lra.
Qed.

Lemma bare_shares : forall index wl n0 c0 s n, 0 < wl -> 0 < n0 -> 0 < c0 <= 1 -> index wl = n -> n <> RtoC 0 ->
  forall q, q_factor s (cos_in (RtoC (n0 ^ 2 * (1 - c0 ^ 2))) n) n = Some q -> 0 <= Re q ->
  exists q0, 0 < q0 /\ surface_shares index wl n0 c0 s =
    (Some (1 - 4 * q0 * Re q / ((q0 + Re q) ^ 2 + Im q ^ 2)), Some (4 * q0 * Re q / ((q0 + Re q) ^ 2 + Im q ^ 2))).
Proof.
  intros index wl n0 c0 s n W N0 C0 I N q Q QR. destruct (real_q s n0 c0 N0 C0) as (q0 & Q0 & QE). exists q0. split; [exact Q0|].
  destruct (real_sums q0 q Q0 QR) as (A & S & T). cbv zeta in S, T. unfold surface_shares.
  assert (LN : layer_n (medium index) wl = n) by (cbn [medium layer_n ly_chemical]; exact I).
  rewrite (bare_substrate wl (RtoC c0) (RtoC n0) (medium index) s (RtoC q0) q).
  - rewrite <- T. f_equal. f_equal. lra.
  - lra.
  - reflexivity.
  - rewrite LN. exact N.
  - exact QE.
  - rewrite LN. intros c E. rewrite snell_value in E by exact N. destruct (real_ambient n0 c0 N0 C0) as (T0 & _). rewrite T0 in E. injection E as <-. exact Q.
  - apply RtoC_neq_0. lra.
  - exact A.
Qed.

(** ** A medium that absorbs and refracts *)
Lemma absorbing_surface : forall index wl n0 c0 s n k, 0 < wl -> 0 < n0 -> 0 < c0 <= 1 -> index wl = (n, k) -> 0 < n -> 0 < k ->
  exists r t, surface_shares index wl n0 c0 s = (Some r, Some t) /\ 0 <= r < 1 /\ 0 < t /\ r + t = 1.
Proof.
  intros index wl n0 c0 s n k W N0 C0 I N K. set (K2 := n0 ^ 2 * (1 - c0 ^ 2)).
  assert (KP : 0 <= K2) by (unfold K2; apply Rmult_le_pos; [apply pow2_ge_0 | nra]).
  assert (NZ : ((n, k) : C) <> RtoC 0) by (apply Cneq_pair; left; lra).
  assert (OC := absorbing_off n k K2 N K).
  destruct (wave_q s K2 (n, k) KP (conj N (Rlt_le _ _ K)) OC) as (q & Q & P & _).
  assert (QR := wave_pair_Re _ _ P).
  assert (Q1 : 0 < Re q).
  { destruct P as (_ & KR & KI & r & R0 & E). set (kap := ((n, k) * cos_in (RtoC K2) (n, k))%C) in *.
    assert (SQ : (kap * kap)%C = ((n, k) * (n, k) - RtoC K2)%C).
    { unfold kap. replace ((n, k) * cos_in (RtoC K2) (n, k) * ((n, k) * cos_in (RtoC K2) (n, k)))%C with
        ((n, k) * (n, k) * (cos_in (RtoC K2) (n, k) * cos_in (RtoC K2) (n, k)))%C by ring. unfold cos_in. rewrite csqrt_sq. field. exact NZ. }
    apply (f_equal Im) in SQ. revert SQ. cparts. cbn [Re Im fst snd]. intros SQ.
    assert (X : 0 < Re kap) by nra. destruct E as [-> | ->]; cparts; nra. }
  destruct (bare_shares index wl n0 c0 s (n, k) W N0 C0 I NZ q Q QR) as (q0 & Q0 & E).
  exists (1 - 4 * q0 * Re q / ((q0 + Re q) ^ 2 + Im q ^ 2)), (4 * q0 * Re q / ((q0 + Re q) ^ 2 + Im q ^ 2)). split; [exact E|].
  assert (D : 0 < (q0 + Re q) ^ 2 + Im q ^ 2) by (assert (X := pow2_ge_0 (Im q)); nra).
  assert (T : 0 < 4 * q0 * Re q / ((q0 + Re q) ^ 2 + Im q ^ 2)) by (apply Rdiv_lt_0_compat; [nra | exact D]).
  assert (T1 : 4 * q0 * Re q / ((q0 + Re q) ^ 2 + Im q ^ 2) <= 1).
  { apply Rmult_le_reg_r with ((q0 + Re q) ^ 2 + Im q ^ 2); [exact D|]. unfold Rdiv. rewrite Rmult_assoc, Rinv_l by lra.
    assert (X := pow2_ge_0 (Im q)). assert (Y := pow2_ge_0 (q0 - Re q)). nra. }
  split; [lra|]. split; [exact T | ring].
Qed.

(** ** A medium without refraction *)
Lemma opaque_surface : forall index wl n0 c0 s k, 0 < wl -> 0 < n0 -> 0 < c0 <= 1 -> index wl = (0, k) -> 0 < k ->
  surface_shares index wl n0 c0 s = (Some 1, Some 0).
Proof.
  intros index wl n0 c0 s k W N0 C0 I K. set (K2 := n0 ^ 2 * (1 - c0 ^ 2)).
  assert (KP : 0 <= K2) by (unfold K2; apply Rmult_le_pos; [apply pow2_ge_0 | nra]).
  assert (NZ : ((0, k) : C) <> RtoC 0) by (apply Cneq_pair; right; lra).
  assert (KK : 0 <= K2 / k ^ 2) by (apply Rmult_le_pos; [exact KP | left; apply Rinv_0_lt_compat; nra]).
  assert (CI : cos_in (RtoC K2) (0, k) = RtoC (sqrt (1 + K2 / k ^ 2))).
  { unfold cos_in. apply csqrt_unique.
    - rewrite <- RtoC_mult, sqrt_sqrt by lra. 
      assert (IK : (((0, k) : C) * (0, k))%C = RtoC (- k ^ 2)) by (apply C_eq; cparts; cbn; ring).
      rewrite IK. rewrite <- RtoC_div by (assert (0 < k ^ 2) by (apply pow_lt; exact K); lra). rewrite <- RtoC_minus. f_equal. field. lra.
    - left. apply (sqrt_lt_R0 (1 + K2 / k ^ 2)). lra. }
  assert (Q : exists y, q_factor s (cos_in (RtoC K2) (0, k)) (0, k) = Some ((0, y) : C)).
  { rewrite CI. destruct s.
    - rewrite q_s. eexists. f_equal. apply C_eq; cparts; cbn; [ring | reflexivity].
    - rewrite (q_p _ _ (0, - / k)).
      + eexists. f_equal. apply C_eq; cparts; cbn; [ring | reflexivity].
      + exact NZ.
      + apply C_eq; cparts; cbn; field; lra. }
  destruct Q as (y & Q). destruct (bare_shares index wl n0 c0 s (0, k) W N0 C0 I NZ (0, y) Q ltac:(cbn; lra)) as (q0 & Q0 & E).
  rewrite E. cbn [Re Im fst snd]. 
  replace (4 * q0 * 0 / ((q0 + 0) ^ 2 + y ^ 2)) with 0 by (unfold Rdiv; ring). repeat f_equal. lra.
Qed.

(** ** Tables *)
Lemma strict_table : forall table, table <> [] -> StronglySorted (fun a b => nk_wavelength a <= nk_wavelength b) table ->
  (forall r, In r table -> 0 < nk_n r /\ 0 < nk_k r) -> forall w, exists n k, index_complex table w = Some (n, k) /\ 0 < n /\ 0 < k.
Proof.
  intros table T S H w. destruct (index_defined table w T) as (n & k & E). exists n, k. split; [exact E|].
  destruct (chemical_range _ w n k S E) as ((a & b & A & B & V) & (c & d & C & D & U)).
  destruct (H a A), (H b B), (H c C), (H d D). lra.
Qed.

Lemma table_surface : forall table, table <> [] -> StronglySorted (fun a b => nk_wavelength a <= nk_wavelength b) table ->
  (forall r, In r table -> 0 < nk_n r /\ 0 < nk_k r) -> forall w n0 c0 s, 0 < w -> 0 < n0 -> 0 < c0 <= 1 ->
  exists r t, surface_shares (chemical_index table) w n0 c0 s = (Some r, Some t) /\ 0 <= r < 1 /\ 0 < t /\ r + t = 1.
Proof.
  intros table T S H w n0 c0 s W N C. destruct (strict_table table T S H w) as (n & k & E & NP & KP).
  apply (absorbing_surface _ w n0 c0 s n k); try assumption. unfold chemical_index. rewrite E. reflexivity.
Qed.

Lemma silicon_surface : forall w n0 c0 s, 0 < w -> w < 11199.6 -> 0 < n0 -> 0 < c0 <= 1 ->
  exists r t, surface_shares (chemical_index silicon_table) w n0 c0 s = (Some r, Some t) /\ 0 <= r < 1 /\ 0 < t /\ r + t = 1.
Proof.
  intros w n0 c0 s W L N C. destruct (silicon_absorbs w L) as (n & k & E & NP & KP).
  apply (absorbing_surface _ w n0 c0 s n k); try assumption. unfold chemical_index. rewrite E. reflexivity.
Qed.

(** ** Aluminium arsenide *)
Lemma arsenide_ordered : ordered Qlt_b arsenide_data = true.
Proof. vm_compute. reflexivity. Qed.
Lemma arsenide_sorted : StronglySorted (fun a b => nk_wavelength a < nk_wavelength b) arsenide_table.
Proof. exact (ordered_sorted Qlt_b Rlt _ Qlt_b_R Rlt_trans arsenide_ordered). Qed.

Definition dark_b (X1 X2 : Q) (d : chemical_row) : bool :=
  Qlt_b (row_w d) X1 || Qlt_b X2 (row_w d) || (Qeq_bool (row_n d) 0 && Qlt_b 0 (row_k d)).
Lemma arsenide_dark_rows : forallb (dark_b (3935.87)%Q (4350.18)%Q) arsenide_data = true.
Proof. vm_compute. reflexivity. Qed.
Lemma arsenide_has_ends : existsb (fun d => Qeq_bool (row_w d) (3935.87)%Q) arsenide_data = true /\
  existsb (fun d => Qeq_bool (row_w d) (4350.18)%Q) arsenide_data = true.
Proof. split; vm_compute; reflexivity. Qed.

Lemma arsenide_ends (f : nk_row -> R) : In (Q2R 3935.87) (map fst (map (fun r => (nk_wavelength r, f r)) arsenide_table)) /\
  In (Q2R 4350.18) (map fst (map (fun r => (nk_wavelength r, f r)) arsenide_table)).
Proof.
  assert (Y : forall X, existsb (fun d => Qeq_bool (row_w d) X) arsenide_data = true ->
    In (Q2R X) (map fst (map (fun r => (nk_wavelength r, f r)) arsenide_table))).
  { intros X H. apply existsb_in in H as (d & I & H). apply Qeq_bool_iff in H. apply Qeq_eqR in H.
    unfold arsenide_table. rewrite !map_map. apply in_map_iff. exists d. cbn [fst]. rewrite nk_w. auto. }
  destruct arsenide_has_ends as [H1 H2]. auto.
Qed.

Lemma arsenide_dark : forall w, 3935.87 <= w <= 4350.18 -> exists k, index_complex arsenide_table w = Some (0, k) /\ 0 < k.
Proof.
  intros w W. destruct (index_defined arsenide_table w) as (n & k & E); [discriminate|]. exists k.
  assert (Q1 : Q2R 3935.87 = 3935.87) by (q2r; lra). assert (Q2 : Q2R 4350.18 = 4350.18) by (q2r; lra).
  assert (ROWS : forall r, In r arsenide_table -> Q2R 3935.87 <= nk_wavelength r <= Q2R 4350.18 -> nk_n r = 0 /\ 0 < nk_k r).
  { intros r I. unfold arsenide_table in I. apply in_map_iff in I as (d & <- & I). rewrite nk_w, nk_k_, nk_n_.
    intros [L1 L2]. assert (H := arsenide_dark_rows). rewrite forallb_forall in H. specialize (H d I). unfold dark_b in H.
    rewrite !orb_true_iff in H. destruct H as [[H | H] | H].
    + apply Qlt_b_R in H. lra.
    + apply Qlt_b_R in H. lra.
    + apply andb_true_iff in H as [H1 H2]. apply Qeq_bool_iff in H1. apply Qeq_eqR in H1. rewrite H1. split; [q2r; lra|].
      apply Qlt_b_R in H2. revert H2. generalize (Q2R (row_k d)). intros x. q2r. lra. }
  assert (VK := wavenumber_eq arsenide_table w). unfold wavenumber in VK. rewrite E in VK. cbn [omap snd] in VK.
  assert (VN := TableProofs.refraction_eq arsenide_table w). unfold index_refraction in VN. rewrite E in VN. cbn [omap fst] in VN.
  assert (N : n = 0).
  { destruct (arsenide_ends nk_n) as [I1 I2].
    apply (convex_between (fun y => y = 0) (Q2R 3935.87) (Q2R 4350.18) w (n_table arsenide_table)); auto; try lra.
    - intros a b t -> -> _. ring.
    - exact (nk_increasing _ nk_n arsenide_sorted).
    - intros p I. unfold n_table in I. apply in_map_iff in I as (r & <- & I). cbn [fst snd]. intros L. apply (ROWS r I L). }
  assert (K : 0 < k).
  { destruct (arsenide_ends nk_k) as [I1 I2].
    apply (convex_between (fun y => 0 < y) (Q2R 3935.87) (Q2R 4350.18) w (k_table arsenide_table)); auto; try lra.
    - intros a b t; intros; nra.
    - exact (nk_increasing _ nk_k arsenide_sorted).
    - intros p I. unfold k_table in I. apply in_map_iff in I as (r & <- & I). cbn [fst snd]. intros L. apply (ROWS r I L). }
  rewrite E, N. auto.
Qed.

Lemma arsenide_mirror : forall w n0 c0 s, 3935.87 <= w <= 4350.18 -> 0 < n0 -> 0 < c0 <= 1 ->
  (exists a, absorption arsenide_table w = Some a /\ 0 < a) /\
  surface_shares (chemical_index arsenide_table) w n0 c0 s = (Some 1, Some 0).
Proof.
  intros w n0 c0 s W N C. destruct (arsenide_dark w W) as (k & E & K). split.
  - unfold absorption, wavenumber. rewrite E. cbn [omap obind snd].
    rewrite odiv_nz by lra. eexists. split.
    + reflexivity.
    + assert (P := PI_RGT_0). apply Rdiv_lt_0_compat; [nra | lra].
  - apply (opaque_surface _ w n0 c0 s k); try assumption; [lra|]. unfold chemical_index. rewrite E. reflexivity.
Qed.
