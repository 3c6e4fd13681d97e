(** The simple materials. *)
From Coq Require Import Reals List Lra.
From Verif Require Import Vec VecLemmas Num NumLemmas RayModel SnellModel SnellSpec SnellProofs SurfaceModel SequenceSpec SequenceProofs MaterialModel MaterialSpec.
Import ListNotations.
Open Scope R_scope.

Lemma glass_value : forall b1 b2 b3 c1 c2 c3 w n, glass_index b1 b2 b3 c1 c2 c3 w = Some n <->
  w ^ 2 <> c1 /\ w ^ 2 <> c2 /\ w ^ 2 <> c3 /\ sellmeier b1 b2 b3 c1 c2 c3 w n.
Proof.
  intros b1 b2 b3 c1 c2 c3 w n. unfold glass_index, sellmeier_term, sellmeier. replace (w ^ 2) with (w * w) by ring.
  unfold odiv. destruct (Req_EM_T (w * w - c1) 0) as [E1 | N1]; cbn [obind]; [split; [discriminate | intros (H & _); lra]|].
  destruct (Req_EM_T (w * w - c2) 0) as [E2 | N2]; cbn [obind]; [split; [discriminate | intros (_ & H & _); lra]|].
  destruct (Req_EM_T (w * w - c3) 0) as [E3 | N3]; cbn [obind]; [split; [discriminate | intros (_ & _ & H & _); lra]|].
  set (x := 1 + (b1 * (w * w) / (w * w - c1) + b2 * (w * w) / (w * w - c2) + b3 * (w * w) / (w * w - c3))).
  replace (1 + b1 * (w * w) / (w * w - c1) + b2 * (w * w) / (w * w - c2) + b3 * (w * w) / (w * w - c3)) with x by (unfold x; ring).
  clearbody x. unfold osqrt. destruct (Rle_dec 0 x) as [P | P].
  - split.
    + intros E. injection E as <-. repeat split; try lra. * apply sqrt_pos. * rewrite pow2_sqrt by exact P. reflexivity.
    + intros (_ & _ & _ & N & E). f_equal. rewrite <- E. rewrite sqrt_pow2 by exact N. reflexivity.
  - split; [discriminate|]. intros (_ & _ & _ & N & E). exfalso. apply P. rewrite <- E. apply pow2_ge_0.
Qed.

Lemma term_decreases : forall b c x y, 0 <= b -> 0 <= c -> 0 < (x - c) * (y - c) -> x <= y -> b * y / (y - c) <= b * x / (x - c).
Proof.
  intros b c x y B C P L. assert (x - c <> 0) by (intros E; rewrite E in P; lra). assert (y - c <> 0) by (intros E; rewrite E in P; lra).
  assert (E : b * x / (x - c) - b * y / (y - c) = b * c * (y - x) / ((x - c) * (y - c))) by (field; auto).
  assert (0 <= b * c * (y - x) / ((x - c) * (y - c))); [|lra].
  apply Rmult_le_pos; [|left; apply Rinv_0_lt_compat, P]. apply Rmult_le_pos; [apply Rmult_le_pos; assumption | lra].
Qed.
Lemma term_decreases_strictly : forall b c x y, 0 < b -> 0 < c -> 0 < (x - c) * (y - c) -> x < y -> b * y / (y - c) < b * x / (x - c).
Proof.
  intros b c x y B C P L. assert (x - c <> 0) by (intros E; rewrite E in P; lra). assert (y - c <> 0) by (intros E; rewrite E in P; lra).
  assert (E : b * x / (x - c) - b * y / (y - c) = b * c * (y - x) / ((x - c) * (y - c))) by (field; auto).
  assert (0 < b * c * (y - x) / ((x - c) * (y - c))); [|lra].
  apply Rmult_lt_0_compat; [|apply Rinv_0_lt_compat, P]. apply Rmult_lt_0_compat; [apply Rmult_lt_0_compat; assumption | lra].
Qed.

Lemma normal_dispersion : forall b1 b2 b3 c1 c2 c3 w w' n n', 0 < b1 -> 0 <= b2 -> 0 <= b3 -> 0 < c1 -> 0 <= c2 -> 0 <= c3 ->
  0 < w < w' -> same_band c1 w w' -> same_band c2 w w' -> same_band c3 w w' ->
  glass_index b1 b2 b3 c1 c2 c3 w = Some n -> glass_index b1 b2 b3 c1 c2 c3 w' = Some n' -> n' < n.
Proof.
  intros b1 b2 b3 c1 c2 c3 w w' n n' B1 B2 B3 C1 C2 C3 W S1 S2 S3 G G'.
  apply glass_value in G. destruct G as (_ & _ & _ & P & E). apply glass_value in G'. destruct G' as (_ & _ & _ & P' & E').
  unfold same_band in *. assert (L : w ^ 2 < w' ^ 2) by nra.
  assert (T1 := term_decreases_strictly b1 c1 _ _ B1 C1 S1 L).
  assert (T2 := term_decreases b2 c2 _ _ B2 C2 S2 (Rlt_le _ _ L)). assert (T3 := term_decreases b3 c3 _ _ B3 C3 S3 (Rlt_le _ _ L)).
  assert (Q : n' ^ 2 < n ^ 2) by lra. destruct (Rlt_le_dec n' n) as [|H]; [assumption|]. exfalso. nra.
Qed.

(** Bounds of a glass at one wavelength. *)
Lemma glass_bounds : forall b1 b2 b3 c1 c2 c3 w lo hi, w ^ 2 <> c1 -> w ^ 2 <> c2 -> w ^ 2 <> c3 -> 0 <= lo -> 0 <= hi ->
  lo ^ 2 < 1 + b1 * w ^ 2 / (w ^ 2 - c1) + b2 * w ^ 2 / (w ^ 2 - c2) + b3 * w ^ 2 / (w ^ 2 - c3) < hi ^ 2 ->
  exists n, glass_index b1 b2 b3 c1 c2 c3 w = Some n /\ lo < n < hi.
Proof.
  intros b1 b2 b3 c1 c2 c3 w lo hi N1 N2 N3 LO HI H. set (x := 1 + _ + _ + _) in *. exists (sqrt x).
  assert (X : 0 <= x) by (assert (Z := pow2_ge_0 lo); lra).
  split.
  - apply glass_value. repeat split; auto; [apply sqrt_pos | rewrite pow2_sqrt by exact X; reflexivity].
  - assert (Q := pow2_sqrt x X). assert (S := sqrt_pos x). split; nra.
Qed.

Ltac glass_at := apply glass_bounds; unfold line_d, line_F, line_C; try lra.

Lemma bk7_d : exists n, n_bk7 line_d = Some n /\ 15168000 / 10000000 < n < 15168001 / 10000000.
Proof. unfold n_bk7. glass_at. Qed.
Lemma bk7_F : exists n, n_bk7 line_F = Some n /\ 15223762 / 10000000 < n < 15223763 / 10000000.
Proof. unfold n_bk7. glass_at. Qed.
Lemma bk7_C : exists n, n_bk7 line_C = Some n /\ 15143223 / 10000000 < n < 15143224 / 10000000.
Proof. unfold n_bk7. glass_at. Qed.
Lemma f2_d : exists n, f2 line_d = Some n /\ 16200401 / 10000000 < n < 16200402 / 10000000.
Proof. unfold f2. glass_at. Qed.
Lemma f2_F : exists n, f2 line_F = Some n /\ 16320814 / 10000000 < n < 16320815 / 10000000.
Proof. unfold f2. glass_at. Qed.
Lemma f2_C : exists n, f2 line_C = Some n /\ 16150316 / 10000000 < n < 16150317 / 10000000.
Proof. unfold f2. glass_at. Qed.
Lemma bk7_blue : exists n, n_bk7 (38 / 100) = Some n /\ 15 / 10 < n < 154 / 100.
Proof. unfold n_bk7. glass_at. Qed.
Lemma f2_red : exists n, f2 (75 / 100) = Some n /\ 161 / 100 < n < 162 / 100.
Proof. unfold f2. glass_at. Qed.
Lemma bk7_red : exists n, n_bk7 (75 / 100) = Some n /\ 151 / 100 < n < 152 / 100.
Proof. unfold n_bk7. glass_at. Qed.
Lemma f2_blue : exists n, f2 (38 / 100) = Some n /\ 165 / 100 < n < 166 / 100.
Proof. unfold f2. glass_at. Qed.

Lemma abbe_bounds : forall d F C ld ud lF uF lC uC v e, ld < d < ud -> lF < F < uF -> lC < C < uC -> uC < lF -> 1 < ld ->
  v - e <= (ld - 1) / (uF - lC) -> (ud - 1) / (lF - uC) <= v + e -> about e (abbe_number d F C) v.
Proof.
  intros d F C ld ud lF uF lC uC v e D HF HC G L1 LO HI. unfold about, abbe_number. apply Rabs_le.
  assert (P : 0 < F - C) by lra.
  assert (A : (ld - 1) / (uF - lC) <= (d - 1) / (F - C)).
  { unfold Rdiv. apply Rmult_le_compat; [lra | left; apply Rinv_0_lt_compat; lra | lra | apply Rinv_le_contravar; lra]. }
  assert (B : (d - 1) / (F - C) <= (ud - 1) / (lF - uC)).
  { unfold Rdiv. apply Rmult_le_compat; [lra | left; apply Rinv_0_lt_compat; lra | lra | apply Rinv_le_contravar; lra]. }
  lra.
Qed.

Lemma documented_glasses :
  (exists d F C, n_bk7 line_d = Some d /\ n_bk7 line_F = Some F /\ n_bk7 line_C = Some C /\
     about (5 / 100000) d (15168 / 10000) /\ about (5 / 100) (abbe_number d F C) (642 / 10)) /\
  (exists d F C, f2 line_d = Some d /\ f2 line_F = Some F /\ f2 line_C = Some C /\
     about (5 / 100000) d (16200 / 10000) /\ about (5 / 100) (abbe_number d F C) (364 / 10)).
Proof.
  destruct bk7_d as (d & ED & D), bk7_F as (F & EF & HF), bk7_C as (C & EC & HC).
  destruct f2_d as (d' & ED' & D'), f2_F as (F' & EF' & HF'), f2_C as (C' & EC' & HC').
  split.
  - exists d, F, C. repeat split; auto; [unfold about; apply Rabs_le; lra|].
    eapply abbe_bounds; [exact D | exact HF | exact HC | lra | lra | lra | lra].
  - exists d', F', C'. repeat split; auto; [unfold about; apply Rabs_le; lra|].
    eapply abbe_bounds; [exact D' | exact HF' | exact HC' | lra | lra | lra | lra].
Qed.

(** In the visible. *)
Lemma visible_defined : forall b1 b2 b3 c1 c2 c3 w w' n', 0 < b1 -> 0 <= b2 -> 0 <= b3 -> 0 < c1 -> 0 <= c2 -> 0 <= c3 ->
  0 < w <= w' -> same_band c1 w w' -> same_band c2 w w' -> same_band c3 w w' ->
  glass_index b1 b2 b3 c1 c2 c3 w' = Some n' -> exists n, glass_index b1 b2 b3 c1 c2 c3 w = Some n /\ n' <= n.
Proof.
  intros b1 b2 b3 c1 c2 c3 w w' n' B1 B2 B3 C1 C2 C3 W S1 S2 S3 G'.
  assert (N : forall c, same_band c w w' -> w ^ 2 <> c). { intros c H E. unfold same_band in H. rewrite E in H. lra. }
  apply glass_value in G'. destruct G' as (_ & _ & _ & P' & E'). unfold same_band in *.
  assert (L : w ^ 2 <= w' ^ 2) by nra.
  assert (T1 := term_decreases b1 c1 _ _ (Rlt_le _ _ B1) (Rlt_le _ _ C1) S1 L).
  assert (T2 := term_decreases b2 c2 _ _ B2 C2 S2 L). assert (T3 := term_decreases b3 c3 _ _ B3 C3 S3 L).
  set (x := 1 + b1 * w ^ 2 / (w ^ 2 - c1) + b2 * w ^ 2 / (w ^ 2 - c2) + b3 * w ^ 2 / (w ^ 2 - c3)).
  assert (Q : n' ^ 2 <= x) by (unfold x; lra). assert (X : 0 <= x) by (assert (Z := pow2_ge_0 n'); lra).
  exists (sqrt x). split.
  - apply glass_value. repeat split; try (apply N; assumption); [apply sqrt_pos | rewrite pow2_sqrt by exact X; reflexivity].
  - rewrite <- (sqrt_pow2 n' P'). apply sqrt_le_1_alt, Q.
Qed.

Lemma band_in : forall c lo hi w w', 0 <= lo -> lo <= w <= hi -> lo <= w' <= hi -> (c < lo ^ 2 \/ hi ^ 2 < c) -> same_band c w w'.
Proof.
  intros c lo hi w w' Z W W' [H | H]; unfold same_band.
  - assert (lo ^ 2 <= w ^ 2) by nra. assert (lo ^ 2 <= w' ^ 2) by nra. apply Rmult_lt_0_compat; lra.
  - assert (w ^ 2 <= hi ^ 2) by nra. assert (w' ^ 2 <= hi ^ 2) by nra.
    replace ((w ^ 2 - c) * (w' ^ 2 - c)) with ((c - w ^ 2) * (c - w' ^ 2)) by ring. apply Rmult_lt_0_compat; lra.
Qed.

Lemma visible_between : forall b1 b2 b3 c1 c2 c3 lo hi nlo nhi,
  glass_index b1 b2 b3 c1 c2 c3 lo = Some nlo -> glass_index b1 b2 b3 c1 c2 c3 hi = Some nhi ->
  forall w, 0 < b1 -> 0 <= b2 -> 0 <= b3 -> 0 < c1 -> 0 <= c2 -> 0 <= c3 ->
  0 < lo -> lo <= w <= hi -> (c1 < lo ^ 2 \/ hi ^ 2 < c1) -> (c2 < lo ^ 2 \/ hi ^ 2 < c2) -> (c3 < lo ^ 2 \/ hi ^ 2 < c3) ->
  exists n, glass_index b1 b2 b3 c1 c2 c3 w = Some n /\ nhi <= n <= nlo.
Proof.
  intros b1 b2 b3 c1 c2 c3 lo hi nlo nhi G H w B1 B2 B3 C1 C2 C3 L W D1 D2 D3.
  assert (HI : lo <= hi <= hi) by lra. assert (LO : lo <= lo <= hi) by lra. assert (Z : 0 <= lo) by lra.
  destruct (visible_defined b1 b2 b3 c1 c2 c3 w hi nhi) as (n & N & LE); auto; try lra; try (eapply band_in; eauto; fail).
  exists n. split; [exact N|]. split; [exact LE|].
  destruct (visible_defined b1 b2 b3 c1 c2 c3 lo w n) as (n2 & N2 & LE2); auto; try lra; try (eapply band_in; eauto; fail).
  rewrite G in N2. injection N2 as <-. exact LE2.
Qed.

Lemma crown_and_flint : forall w, 38 / 100 <= w <= 75 / 100 -> exists crown flint, n_bk7 w = Some crown /\ f2 w = Some flint /\
  151 / 100 < crown < 154 / 100 /\ 161 / 100 < flint < 166 / 100.
Proof.
  intros w W. destruct bk7_blue as (a & A & HA), bk7_red as (b & B & HB), f2_blue as (c & C & HC), f2_red as (d & D & HD).
  unfold n_bk7 in A, B. unfold f2 in C, D.
  destruct (visible_between _ _ _ _ _ _ (38 / 100) (75 / 100) a b A B w) as (n & N & I); try lra.
  destruct (visible_between _ _ _ _ _ _ (38 / 100) (75 / 100) c d C D w) as (m & M & J); try lra.
  exists n, m. repeat split; auto; lra.
Qed.

(** ** Nothing and mirrors *)
Lemma nothing_step : forall s r p d i q u, sf_rulings s = None -> sf_material s = vacuum -> sf_transformation s = None ->
  r_position r = Some p -> r_direction r = Some d -> is_unit d -> r_intensity r = Some i -> r_index r = 1 -> r_attenuation r = 0 ->
  sag_intercept (sf_sag s) p d = Some q -> sag_normal (sf_sag s) q = Some u ->
  surface_propagate s r = mkRay (r_wavelength r) (Some q) (Some d) (Some i) 0 1
    (match sf_aperture s with None => r_unvignetted r | Some a => andb (r_unvignetted r) (ap_accepts a (Some (if ap_on_position a then q else d))) end).
Proof.
  intros s r p d i q u G M T P D U I N A Q V. unfold surface_propagate, surface_local, surface_incident, surface_normal, surface_efficiency.
  rewrite G, M, T. cbn [apply_inverse apply_transformation]. unfold sag_propagate. rewrite P, D. cbn [obind]. rewrite Q. cbn [obind]. rewrite I. cbn [obind set_intensity set_position r_position r_wavelength r_direction r_intensity r_index r_attenuation r_unvignetted].
  rewrite V, A, D, N. cbn [obind mat_index mat_efficiency mat_attenuation mat_is_mirror vacuum].
  rewrite snells_law_transmit_same by (try lra; exact U).
  replace (exp (- 0 * vlen (vsub q p)) * i * 1) with i by (rewrite Ropp_0, Rmult_0_l, exp_0; ring).
  replace (r_wavelength r / (1 / 1)) with (r_wavelength r) by field.
  destruct (sf_aperture s) as [[b f]|]; [|reflexivity]. unfold clip_rays, set_unvignetted. cbn [ap_on_position ap_accepts r_position r_direction r_unvignetted r_wavelength r_intensity r_attenuation r_index].
  destruct b; reflexivity.
Qed.

Lemma mirror_step : forall s r p d i q u, sf_rulings s = None -> sf_material s = mirror -> sf_transformation s = None ->
  r_position r = Some p -> r_direction r = Some d -> is_unit d -> r_intensity r = Some i -> r_index r <> 0 ->
  sag_intercept (sf_sag s) p d = Some q -> sag_normal (sf_sag s) q = Some u -> is_unit u ->
  let r' := surface_propagate s r in
  r_position r' = Some q /\ r_direction r' = Some (mirror_image u d) /\ r_intensity r' = Some (i * exp (- r_attenuation r * vlen (vsub q p))) /\
  r_wavelength r' = r_wavelength r /\ r_index r' = r_index r /\ r_attenuation r' = r_attenuation r.
Proof.
  intros s r p d i q u G M T P D U I N Q V UU. unfold surface_propagate, surface_local, surface_incident, surface_normal, surface_efficiency.
  rewrite G, M, T. cbn [apply_inverse apply_transformation]. unfold sag_propagate. rewrite P, D. cbn [obind]. rewrite Q. cbn [obind]. rewrite I. cbn [obind set_intensity set_position r_position r_wavelength r_direction r_intensity r_index r_attenuation r_unvignetted].
  rewrite V, D. cbn [obind mat_index mat_efficiency mat_attenuation mat_is_mirror mirror r_index r_attenuation].
  rewrite snells_law_reflect by assumption.
  destruct (sf_aperture s) as [a|]; unfold clip_rays, set_unvignetted; cbn [r_position r_direction r_unvignetted r_wavelength r_intensity r_attenuation r_index];
    repeat split; try (f_equal; ring); cbn [set_intensity set_position r_index]; field; exact N.
Qed.

Lemma plain_step : forall s r, plain s -> r_index r = 1 -> r_attenuation r = 0 ->
  let r' := surface_propagate s r in
  r_index r' = 1 /\ r_attenuation r' = 0 /\ r_wavelength r' = r_wavelength r /\ (r_intensity r' = None \/ r_intensity r' = r_intensity r).
Proof.
  intros s r [G M] N A. unfold surface_propagate.
  assert (K : forall t x, r_index (apply_transformation t x) = r_index x /\ r_attenuation (apply_transformation t x) = r_attenuation x /\
    r_wavelength (apply_transformation t x) = r_wavelength x /\ r_intensity (apply_transformation t x) = r_intensity x) by (intros [t|] x; repeat split).
  assert (K' : forall t x, r_index (apply_inverse t x) = r_index x /\ r_attenuation (apply_inverse t x) = r_attenuation x /\
    r_wavelength (apply_inverse t x) = r_wavelength x /\ r_intensity (apply_inverse t x) = r_intensity x) by (intros [t|] x; repeat split).
  cbv zeta. destruct (K (sf_transformation s) (surface_local s (apply_inverse (sf_transformation s) r))) as (-> & -> & -> & ->).
  destruct (K' (sf_transformation s) r) as (N' & A' & W' & I'). set (x := apply_inverse (sf_transformation s) r) in *. clearbody x.
  rewrite <- W', <- I'. rewrite N in N'. rewrite A in A'.
  unfold surface_local, surface_incident, surface_efficiency. rewrite G. unfold sag_propagate.
  set (p := obind (r_position x) _). clearbody p.
  cbn [set_intensity set_position r_position r_wavelength r_direction r_intensity r_index r_attenuation r_unvignetted]. rewrite N', A'.
  set (nn := surface_normal _ _). clearbody nn.
  assert (C : forall b y, r_index (match b with None => y | Some ap => clip_rays ap y end) = r_index y /\ r_attenuation (match b with None => y | Some ap => clip_rays ap y end) = r_attenuation y /\
    r_wavelength (match b with None => y | Some ap => clip_rays ap y end) = r_wavelength y /\ r_intensity (match b with None => y | Some ap => clip_rays ap y end) = r_intensity y) by (intros [b|] y; repeat split).
  match goal with |- context [match sf_aperture s with None => ?y | Some _ => _ end] => destruct (C (sf_aperture s) y) as (-> & -> & -> & ->) end.
  cbn [r_wavelength r_intensity r_index r_attenuation].
  assert (I : obind (obind (obind p (fun q => obind (r_position x) (fun x0 => Some (exp (- 0 * vlen (vsub q x0)))))) (fun f => obind (r_intensity x) (fun i => Some (f * i)))) (fun i1 => Some (i1 * 1)) = None \/
    obind (obind (obind p (fun q => obind (r_position x) (fun x0 => Some (exp (- 0 * vlen (vsub q x0)))))) (fun f => obind (r_intensity x) (fun i => Some (f * i)))) (fun i1 => Some (i1 * 1)) = r_intensity x).
  { destruct p as [q|]; cbn [obind]; [|left; reflexivity]. destruct (r_position x) as [y|]; cbn [obind]; [|left; reflexivity].
    destruct (r_intensity x) as [i|]; cbn [obind]; [|left; reflexivity]. right. f_equal. rewrite Ropp_0, Rmult_0_l, exp_0. ring. }
  destruct M as [-> | ->]; cbn [vacuum mirror mat_index mat_attenuation mat_efficiency r_index r_attenuation obind]; rewrite ?N', ?A'; repeat split; try exact I; cbn [set_intensity set_position r_index r_attenuation]; rewrite ?N', ?A'; auto; field.
Qed.

Lemma plain_systems : forall ss r, Forall plain ss -> r_index r = 1 -> r_attenuation r = 0 ->
  let r' := propagate_list surface_propagate ss r in
  r_index r' = 1 /\ r_attenuation r' = 0 /\ r_wavelength r' = r_wavelength r /\ (r_intensity r' = None \/ r_intensity r' = r_intensity r).
Proof.
  induction ss as [|s ss IH]; intros r F N A; [cbn; auto|]. inversion F; subst. cbn [propagate_list].
  destruct (plain_step s r) as (N1 & A1 & W1 & I1); auto. destruct (IH (surface_propagate s r)) as (N2 & A2 & W2 & I2); auto.
  cbv zeta. rewrite W1 in W2. repeat split; auto. destruct I2 as [I2 | I2]; [left; exact I2|]. rewrite I2. exact I1.
Qed.
