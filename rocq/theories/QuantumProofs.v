(** Transmittance, absorbance and quantum efficiency. *)
From Coq Require Import Reals Lra Psatz List Bool ZArith Lia.
From Coquelicot Require Import Coquelicot.
From Verif Require Import Vec VecLemmas Num NumLemmas RayModel ComplexModel ComplexLemmas ProfileModel LayerModel LayerSpec LayerProofs
  LayerTrivialProofs EnergyProofs AbsorbanceProofs LayerCaseProofs RamanathanModel SensorModel SensorSpec SensorProofs QuantumModel QuantumSpec.
Import ListNotations.
Open Scope R_scope.
Open Scope opt_scope.

(** ** Smooth surfaces *)
Lemma smooth_refraction : forall w d d' s n n', w <> 0 ->
  refraction w d d' s n n' (Some (Erf 0)) = refraction w d d' s n n' None.
Proof.
  intros w d d' s n n' W. unfold refraction.
  assert (E : profile_reflectivity (Erf 0) w (polarized s d) n = Some 1).
  { unfold profile_reflectivity. rewrite cdiv_nz by (apply RtoC_neq_0; exact W). cbn [obind]. cbv zeta. unfold profile_dft.
    f_equal. rewrite Rmult_0_r, pow_i by lia. replace (- 0 / 2) with 0 by lra. apply exp_0. }
  rewrite E. reflexivity.
Qed.

Definition bare (c : R -> C) (h : R) : layer := Layer (Some c) h None.
Lemma smooth_layer : forall w s c h st, w <> 0 ->
  layer_transfer w s (Layer (Some c) h (Some (Erf 0))) st = layer_transfer w s (bare c h) st.
Proof.
  intros w s c h st W. unfold layer_transfer. cbn [ly_interface ly_thickness bare].
  change (layer_n (Layer (Some c) h (Some (Erf 0))) w) with (layer_n (bare c h) w).
  destruct (st_where st); [|reflexivity]. destruct (st_direction st) as [d|]; [|reflexivity]. cbn [obind].
  destruct (snells_law_scalar d (st_n st) (layer_n (bare c h) w)) as [d'|]; [|reflexivity]. cbn [obind].
  rewrite smooth_refraction by exact W. reflexivity.
Qed.

Section Detector.
Variables (q : detector) (w n0 c0 : R).
Hypothesis S : smooth_sensor q w n0 c0.
Let k := n0 ^ 2 * (1 - c0 ^ 2).
Let nx := dt_n_oxide q w.
Let ns := dt_n_substrate q w.
Let st0 := LState (RtoC n0) (Some (RtoC c0)) true.
Let ox := bare (dt_n_oxide q) (dt_oxide q).
Let si h := bare (dt_n_substrate q) h.

Lemma w_pos : 0 < w.
Proof. apply S. Qed.
Lemma smooth_oxide : oxide_layer q = Layer (Some (dt_n_oxide q)) (dt_oxide q) (Some (Erf 0)).
Proof. destruct S as (_ & _ & _ & _ & _ & R1 & _). unfold oxide_layer. rewrite R1. reflexivity. Qed.
Lemma smooth_silicon : silicon_layer q = Layer (Some (dt_n_substrate q)) (dt_substrate q) (Some (Erf 0)).
Proof. destruct S as (_ & _ & _ & _ & _ & _ & R2 & _). unfold silicon_layer. rewrite R2. reflexivity. Qed.

Lemma smooth_matrix : forall s, 
  multilayer_matrix w (RtoC c0) (RtoC n0) (ASequence [ALayer (oxide_layer q)]) (Some (silicon_layer q)) s =
  multilayer_matrix w (RtoC c0) (RtoC n0) (ASequence [ALayer ox]) (Some (si (dt_substrate q))) s.
Proof.
  intros s. assert (W := w_pos). rewrite smooth_oxide, smooth_silicon. unfold multilayer_matrix.
  rewrite !transfer_single. cbn [transfer]. rewrite smooth_layer by lra. fold ox.
  unfold substrate_layer. cbn [ly_chemical ly_interface bare si]. rewrite smooth_layer by lra. reflexivity.
Qed.

Lemma ideal_detector : ideal_stack passive w n0 c0 (ASequence [ALayer ox]) (Some (si (dt_substrate q))).
Proof.
  destruct S as (N & C0 & W & O & D & _ & _ & P1 & P2 & X1 & X2).
  split; [exact N|]. split; [exact C0|]. split; [exact W|]. split; [cbn; auto|].
  cbn [layers_of app]. apply Forall_cons; [|apply Forall_cons; [|apply Forall_nil]].
  - split; [exact P2|]. split; [cbn; lra|]. split; [reflexivity | exact X2].
  - split; [exact P1|]. split; [exact O|]. split; [reflexivity | exact X1].
Qed.

Lemma transmittance_bounds : forall s, exists r t,
  multilayer_efficiency w (RtoC c0) (RtoC n0) (ASequence [ALayer (oxide_layer q)]) (Some (silicon_layer q)) s = (Some r, Some t) /\
  transmittance q w (RtoC c0) (RtoC n0) s = Some t /\ 0 <= r /\ 0 <= t /\ r + t <= 1.
Proof.
  intros s. destruct (ideal_efficiency passive w n0 c0 _ _ s (fun n H => H) ideal_detector) as (r & t & E & A & B & C1 & _).
  exists r, t.
  assert (M : multilayer_efficiency w (RtoC c0) (RtoC n0) (ASequence [ALayer (oxide_layer q)]) (Some (silicon_layer q)) s = (Some r, Some t)).
  { rewrite <- E. unfold multilayer_efficiency, multilayer_coefficients.
    change (multilayer_matrix w (RtoC c0) (RtoC n0) (ASequence [ALayer (oxide_layer q)]) (Some (substrate_layer (Some (silicon_layer q)))) s)
      with (multilayer_matrix w (RtoC c0) (RtoC n0) (ASequence [ALayer (oxide_layer q)]) (Some (silicon_layer q)) s).
    change (multilayer_matrix w (RtoC c0) (RtoC n0) (ASequence [ALayer ox]) (Some (substrate_layer (Some (si (dt_substrate q))))) s)
      with (multilayer_matrix w (RtoC c0) (RtoC n0) (ASequence [ALayer ox]) (Some (si (dt_substrate q))) s).
    rewrite smooth_matrix. reflexivity. }
  split; [exact M|]. split; [unfold transmittance; rewrite M; reflexivity|]. auto.
Qed.

(** ** The wave in the substrate *)
Lemma k_nonneg : 0 <= k.
Proof. destruct S as (N & C0 & _). unfold k. apply Rmult_le_pos; [apply pow2_ge_0 | nra]. Qed.
Lemma ns_neq_0 : ns <> RtoC 0.
Proof. destruct S as (_ & _ & _ & _ & _ & _ & _ & _ & (P & _) & _). fold ns in P. intros E. rewrite E in P. cbn in P. lra. Qed.
Lemma snell_substrate : snells_law_scalar (RtoC c0) (RtoC n0) ns = Some (cos_in (RtoC k) ns).
Proof.
  rewrite snell_value by apply ns_neq_0. destruct S as (N & C0 & _). destruct (real_ambient n0 c0 N C0) as (T & _). rewrite T. reflexivity.
Qed.
Definition alpha : R := 4 * PI * Im (ns * cos_in (RtoC k) ns)%C / w.
Lemma absorption_value : absorption_effective w ns (cos_in (RtoC k) ns) = Some alpha.
Proof. assert (W := w_pos). unfold absorption_effective. apply odiv_nz. lra. Qed.
Lemma alpha_attenuation : is_attenuation ns w n0 c0 alpha.
Proof.
  assert (W := w_pos). destruct S as (_ & _ & _ & _ & _ & _ & _ & _ & P & _ & X).
  destruct (wave_in_medium k ns k_nonneg P X) as (_ & A & B & _).
  exists (ns * cos_in (RtoC k) ns)%C. split; [|split; [exact A | split; [exact B|]]].
  - fold k. rewrite <- (cos_in_sq (RtoC k) ns ns_neq_0). ring.
  - unfold alpha. field. lra.
Qed.
Lemma alpha_nonneg : 0 <= alpha.
Proof.
  assert (W := w_pos). destruct alpha_attenuation as (kz & _ & _ & I & ->). assert (P := PI_RGT_0).
  apply Rmult_le_pos; [lra|]. apply Rmult_le_pos; [|exact I]. apply Rmult_le_pos; [lra | left; apply Rinv_0_lt_compat, W].
Qed.
End Detector.

Lemma attenuation_unique : forall n w n0 c0 a b, is_attenuation n w n0 c0 a -> is_attenuation n w n0 c0 b -> a = b.
Proof.
  intros n w n0 c0 a b (x & X & RX & IX & ->) (y & Y & RY & IY & ->). do 2 f_equal.
  assert (E : (x * x = y * y)%C) by congruence. clear X Y.
  assert (ER := f_equal Re E). assert (EI := f_equal Im E). cbn in ER, EI. unfold Re, Im in *.
  destruct x as [a1 a2], y as [b1 b2]. cbn [fst snd] in *.
  assert (M : (a1 * a1 + a2 * a2) ^ 2 = (b1 * b1 + b2 * b2) ^ 2).
  { replace ((a1 * a1 + a2 * a2) ^ 2) with ((a1 * a1 - a2 * a2) ^ 2 + (a1 * a2 + a2 * a1) ^ 2) by ring.
    rewrite ER, EI. ring. }
  assert (N : a1 * a1 + a2 * a2 = b1 * b1 + b2 * b2).
  { rewrite <- !Rsqr_pow2 in M. apply Rsqr_inj in M; [exact M | nra | nra]. }
  apply Rsqr_inj; [assumption | assumption | unfold Rsqr; lra].
Qed.

Lemma absorbed_value : forall a D, is_absorbed a D (1 - exp (- a * D)).
Proof.
  intros a D. unfold is_absorbed.
  assert (H := is_RInt_derive (V := R_CompleteNormedModule) (fun z => - exp (- a * z)) (fun z => a * exp (- a * z)) 0 D).
  assert (E : minus (- exp (- a * D)) (- exp (- a * 0)) = 1 - exp (- a * D)).
  { unfold minus, plus, opp; cbn. rewrite Rmult_0_r, exp_0. ring. }
  rewrite <- E. apply H.
  - intros x _. auto_derive; [exact I | ring].
  - intros x _. apply (ex_derive_continuous (fun z => a * exp (- a * z))). auto_derive. exact I.
Qed.
Lemma absorbed_unique : forall a D p, is_absorbed a D p -> p = 1 - exp (- a * D).
Proof.
  intros a D p H. assert (X := absorbed_value a D). unfold is_absorbed in *.
  apply (is_RInt_unique (V := R_CompleteNormedModule)) in H. apply (is_RInt_unique (V := R_CompleteNormedModule)) in X. congruence.
Qed.

Lemma exp_unit : forall x, 0 <= x -> 0 <= 1 - exp (- x) < 1.
Proof.
  intros x X. assert (P := exp_pos (- x)). split; [|lra]. destruct X as [X| <-]; [left; assert (Y := exp_neg_lt1 x X); lra|]. rewrite Ropp_0, exp_0. lra.
Qed.

Lemma beer_lambert : forall q w n0 c0 s, smooth_sensor q w n0 c0 ->
  exists t a p, transmittance q w (RtoC c0) (RtoC n0) s = Some t /\ is_attenuation (dt_n_substrate q w) w n0 c0 a /\
    is_absorbed a (dt_substrate q) p /\ 0 <= p < 1 /\ absorbance BeerLambert q w (RtoC c0) (RtoC n0) s = Some (t * p) /\
    0 <= t * p <= t /\ t <= 1.
Proof.
  intros q w n0 c0 s S. destruct (transmittance_bounds q w n0 c0 S s) as (r & t & _ & T & R0 & T0 & RT).
  assert (A := alpha_nonneg q w n0 c0 S). set (a := alpha q w n0 c0) in *.
  assert (D : 0 <= dt_substrate q) by apply S.
  assert (P : 0 <= 1 - exp (- a * dt_substrate q) < 1).
  { replace (- a * dt_substrate q) with (- (a * dt_substrate q)) by ring. apply exp_unit. apply Rmult_le_pos; assumption. }
  exists t, a, (1 - exp (- a * dt_substrate q)). split; [exact T|]. split; [apply alpha_attenuation, S|]. split; [apply absorbed_value|]. split; [exact P|].
  split; [|split; [nra | lra]].
  unfold absorbance. rewrite T. cbn [obind]. cbv zeta. rewrite (snell_substrate q w n0 c0 S). cbn [obind].
  rewrite (absorption_value q w n0 c0 S). cbn [obind]. fold a. f_equal. ring.
Qed.

Lemma with_substrate_smooth : forall q w n0 c0 h, smooth_sensor q w n0 c0 -> 0 <= h -> smooth_sensor (with_substrate q h) w n0 c0.
Proof. intros q w n0 c0 h S H. destruct S as (A & B & C1 & D & _ & E). repeat (split; [assumption|]). exact E. Qed.

Lemma thickness_grows : forall q w n0 c0 s h1 h2, smooth_sensor q w n0 c0 -> 0 <= h1 <= h2 ->
  exists a1 a2, absorbance BeerLambert (with_substrate q h1) w (RtoC c0) (RtoC n0) s = Some a1 /\
    absorbance BeerLambert (with_substrate q h2) w (RtoC c0) (RtoC n0) s = Some a2 /\ a1 <= a2.
Proof.
  intros q w n0 c0 s h1 h2 S H.
  assert (S1 := with_substrate_smooth q w n0 c0 h1 S ltac:(lra)). assert (S2 := with_substrate_smooth q w n0 c0 h2 S ltac:(lra)).
  destruct (beer_lambert _ _ _ _ s S1) as (t & a & p & T & A & P & _ & E & _ & _).
  destruct (beer_lambert _ _ _ _ s S2) as (t2 & a2 & p2 & T2 & A2 & P2 & _ & E2 & B2 & _).
  change (transmittance (with_substrate q h1) w (RtoC c0) (RtoC n0) s) with (transmittance q w (RtoC c0) (RtoC n0) s) in T.
  change (transmittance (with_substrate q h2) w (RtoC c0) (RtoC n0) s) with (transmittance q w (RtoC c0) (RtoC n0) s) in T2.
  rewrite T in T2. injection T2 as <-.
  assert (a2 = a) by (eapply attenuation_unique; [exact A2 | exact A]). subst a2.
  apply absorbed_unique in P. apply absorbed_unique in P2. cbn [with_substrate dt_substrate] in P, P2. subst p p2.
  exists (t * (1 - exp (- a * h1))), (t * (1 - exp (- a * h2))). split; [exact E|]. split; [exact E2|].
  assert (T0 : 0 <= t).
  { destruct (transmittance_bounds q w n0 c0 S s) as (r & t' & _ & T' & _ & T0 & _). rewrite T in T'. injection T' as <-. exact T0. }
  apply Rmult_le_compat_l; [exact T0|].
  assert (A0 : 0 <= a). { assert (X := alpha_nonneg q w n0 c0 S). rewrite (attenuation_unique _ _ _ _ _ _ A (alpha_attenuation q w n0 c0 S)). exact X. }
  assert (exp (- a * h2) <= exp (- a * h1)); [|lra].
  destruct (Req_dec (- a * h2) (- a * h1)) as [->|N]; [lra|]. left. apply exp_increasing.
  assert (- a * h2 <= - a * h1); [|lra]. assert (a * h1 <= a * h2) by (apply Rmult_le_compat_l; lra). lra.
Qed.

Lemma thickness_limit : forall q w n0 c0 s a t, smooth_sensor q w n0 c0 -> is_attenuation (dt_n_substrate q w) w n0 c0 a -> 0 < a ->
  transmittance q w (RtoC c0) (RtoC n0) s = Some t -> forall eps, 0 < eps -> exists H, 0 <= H /\ forall h, H <= h ->
  exists x, absorbance BeerLambert (with_substrate q h) w (RtoC c0) (RtoC n0) s = Some x /\ t - eps < x <= t.
Proof.
  intros q w n0 c0 s a t S A A0 T eps EPS.
  destruct (transmittance_bounds q w n0 c0 S s) as (r & t' & _ & T' & R0 & T0 & RT). rewrite T in T'. injection T' as <-.
  (* exp (- a h) <= 1 / (1 + a h) < eps when 1 / eps <= a h *)
  exists (/ (a * eps)). split; [left; apply Rinv_0_lt_compat, Rmult_lt_0_compat; assumption|]. intros h H.
  assert (HP : 0 < h) by (eapply Rlt_le_trans; [apply Rinv_0_lt_compat; apply (Rmult_lt_0_compat a eps); assumption | exact H]).
  destruct (beer_lambert _ _ _ _ s (with_substrate_smooth q w n0 c0 h S (Rlt_le _ _ HP))) as (t' & a' & p & T' & A' & P & PB & E & B & _).
  change (transmittance (with_substrate q h) w (RtoC c0) (RtoC n0) s) with (transmittance q w (RtoC c0) (RtoC n0) s) in T'.
  rewrite T in T'. injection T' as <-. assert (a' = a) by (eapply attenuation_unique; [exact A' | exact A]). subst a'.
  apply absorbed_unique in P. cbn [with_substrate dt_substrate] in P. subst p.
  exists (t * (1 - exp (- a * h))). split; [exact E|]. split; [|lra].
  assert (X : exp (- a * h) < eps).
  { assert (AE : 1 <= eps * (a * h)).
    { apply Rmult_le_compat_l with (r := a * eps) in H; [|nra]. rewrite Rinv_r in H by (assert (0 < a * eps) by (apply Rmult_lt_0_compat; assumption); lra). lra. }
    assert (G := exp_ineq1 (a * h) ltac:(nra)). assert (F : exp (- a * h) * exp (a * h) = 1) by (rewrite <- exp_plus; replace (- a * h + a * h) with 0 by ring; apply exp_0).
    assert (PP := exp_pos (- a * h)). set (e := exp (- a * h)) in *. set (f := exp (a * h)) in *.
    assert (FP : 1 < eps * f) by nra. apply Rmult_lt_reg_r with f; [nra|]. lra. }
  assert (PP := exp_pos (- a * h)). nra.
Qed.

(** ** Quantum efficiency *)
Lemma eqe_value : forall q w n0 c0 a, smooth_sensor q w n0 c0 -> is_attenuation (dt_n_substrate q w) w n0 c0 a -> 0 < a -> 0 < dt_implant q ->
  0 <= dt_eta0 q <= 1 ->
  exists xs xp c, absorbance BeerLambert q w (RtoC c0) (RtoC n0) true = Some xs /\ absorbance BeerLambert q w (RtoC c0) (RtoC n0) false = Some xp /\
    is_depth_mean a (differential_efficiency (dt_eta0 q) (dt_implant q)) c /\
    quantum_efficiency_effective q w (RtoC c0) (RtoC n0) = Some ((xs + xp) / 2 * c) /\
    dt_eta0 q <= c <= 1 /\ (dt_eta0 q = 1 -> c = 1) /\ 0 <= (xs + xp) / 2 * c <= (xs + xp) / 2.
Proof.
  intros q w n0 c0 a S A A0 I0 ET.
  destruct (beer_lambert q w n0 c0 true S) as (t & a1 & p & _ & _ & _ & _ & E & B & _).
  destruct (beer_lambert q w n0 c0 false S) as (t' & a2 & p' & _ & _ & _ & _ & E' & B' & _).
  assert (AV := absorption_value q w n0 c0 S). rewrite (attenuation_unique _ _ _ _ _ _ (alpha_attenuation q w n0 c0 S) A) in AV.
  assert (P : 0 < a * dt_implant q) by (apply Rmult_lt_0_compat; assumption).
  destruct (cce_bounds (a * dt_implant q) (dt_eta0 q) P ET) as (CB & _).
  exists (t * p), (t' * p'), (cce (a * dt_implant q) (dt_eta0 q)). split; [exact E|]. split; [exact E'|].
  split; [apply cce_depth_mean; assumption|]. split; [|split; [exact CB | split]].
  - unfold quantum_efficiency_effective. cbv zeta. rewrite (snell_substrate q w n0 c0 S). cbn [obind]. rewrite AV. cbn [obind].
    rewrite cce_value by lra. cbn [obind]. rewrite E, E'. cbn [average obind]. reflexivity.
  - intros H. lra.
  - nra.
Qed.

(** ** The exact method behind a clear oxide *)
Lemma attenuation_in : forall n w n0 c0, 0 < n0 -> 0 < c0 <= 1 -> 0 < w -> passive n -> off_critical (RtoC (n0 ^ 2 * (1 - c0 ^ 2))) n ->
  is_attenuation n w n0 c0 (2 * (2 * PI / w * Im (n * cos_in (RtoC (n0 ^ 2 * (1 - c0 ^ 2))) n)%C)).
Proof.
  intros n w n0 c0 N C0 W P X. assert (K : 0 <= n0 ^ 2 * (1 - c0 ^ 2)) by (apply Rmult_le_pos; [apply pow2_ge_0 | nra]).
  destruct (wave_in_medium _ n K P X) as (_ & A & B & _).
  assert (N0 : n <> RtoC 0) by (destruct P as [P _]; intros E; rewrite E in P; cbn in P; lra).
  exists (n * cos_in (RtoC (n0 ^ 2 * (1 - c0 ^ 2))) n)%C. split; [|auto].
  rewrite <- (cos_in_sq _ n N0). ring.
Qed.

Lemma exact_opaque : forall q w n0 c0 s, smooth_sensor q w n0 c0 -> clear_oxide q w n0 c0 -> opaque_substrate q w n0 c0 ->
  exists t, transmittance q w (RtoC c0) (RtoC n0) s = Some t /\ absorbance Exact q w (RtoC c0) (RtoC n0) s = Some t.
Proof.
  intros q w n0 c0 s S CO OS.
  assert (N : 0 < n0) by apply S. assert (C0 : 0 < c0 <= 1) by apply S. assert (W : 0 < w) by apply S.
  assert (P1 : passive (dt_n_oxide q w)) by apply S. assert (P2 : passive (dt_n_substrate q w)) by apply S.
  assert (X1 : off_critical (RtoC (n0 ^ 2 * (1 - c0 ^ 2))) (dt_n_oxide q w)) by apply S.
  assert (X2 : off_critical (RtoC (n0 ^ 2 * (1 - c0 ^ 2))) (dt_n_substrate q w)) by apply S.
  specialize (CO _ (attenuation_in _ w n0 c0 N C0 W P1 X1)). specialize (OS _ (attenuation_in _ w n0 c0 N C0 W P2 X2)).
  set (k := n0 ^ 2 * (1 - c0 ^ 2)) in *. set (nx := dt_n_oxide q w) in *. set (ns := dt_n_substrate q w) in *.
  assert (K : 0 <= k) by (unfold k; apply Rmult_le_pos; [apply pow2_ge_0 | nra]).
  destruct (real_ambient n0 c0 N C0) as (T0 & C1). fold k in T0, C1.
  assert (NX : nx <> RtoC 0) by (destruct P1 as [P _]; intros E; rewrite E in P; cbn in P; lra).
  assert (NS : ns <> RtoC 0) by (destruct P2 as [P _]; intros E; rewrite E in P; cbn in P; lra).
  assert (NN : RtoC n0 <> RtoC 0) by (apply RtoC_neq_0; lra).
  assert (PN : passive (RtoC n0)) by (split; cbn; lra).
  assert (XN : off_critical (RtoC k) (RtoC n0)).
  { unfold off_critical. rewrite <- RtoC_mult. intros E. apply RtoC_inj in E. unfold k in E.
    assert (P : 0 < n0 * c0) by (apply Rmult_lt_0_compat; lra).
    assert (PP : 0 < (n0 * c0) * (n0 * c0)) by (apply Rmult_lt_0_compat; exact P). lra. }
  destruct (wave_q s k (RtoC n0) K PN XN) as (q0 & Q0 & W0 & I0).
  destruct (wave_q s k nx K P1 X1) as (qx & QX & WX & IX).
  destruct (wave_q s k ns K P2 X2) as (qs & QS & WS & IS).
  rewrite C1 in Q0.
  assert (Q0N := wave_pair_neq_0 _ _ W0). assert (QXN := wave_pair_neq_0 _ _ WX). assert (QSN := wave_pair_neq_0 _ _ WS).
  set (dx := cos_in (RtoC k) nx) in *. set (ds := cos_in (RtoC k) ns) in *.
  assert (SX : snells_law_scalar (RtoC c0) (RtoC n0) nx = Some dx) by (rewrite snell_value by exact NX; rewrite T0; reflexivity).
  assert (SS : snells_law_scalar (RtoC c0) (RtoC n0) ns = Some ds) by (rewrite snell_value by exact NS; rewrite T0; reflexivity).
  assert (SXS : snells_law_scalar dx nx ns = Some ds).
  { rewrite snell_value by exact NS. unfold dx. rewrite tangential2_cos_in by exact NX. reflexivity. }
  assert (EX : forall c d n n' x y, q_factor s c n = Some x -> q_factor s d n' = Some y -> x <> RtoC 0 -> y <> RtoC 0 -> (x + y)%C <> RtoC 0 ->
    exists m, refraction w c d s n n' None = Some m /\ mat_det m <> RtoC 0).
  { intros c d n n' x y QA QB XA XB XY. eexists. split; [exact (refraction_value w c d s n n' x y QA QB XA XY)|]. apply (interface_det x y XA XB). }
  destruct (EX _ _ _ _ _ _ Q0 QX Q0N QXN (q_sum_neq_0 s q0 qx _ _ W0 WX I0 IX)) as (m1 & R1 & D1).
  destruct (EX _ _ _ _ _ _ QX QS QXN QSN (q_sum_neq_0 s qx qs _ _ WX WS IX IS)) as (m2 & R2 & D2). clear EX.
  (* the oxide *)
  set (ox := bare (dt_n_oxide q) (dt_oxide q)). 
  assert (WOX : where_propagation (propagation w dx (dt_oxide q) nx) = true).
  { apply where_value; [lra|]. unfold opacity. fold dx in CO. eapply Rle_lt_trans; [|exact CO]. right. f_equal. field. lra. }
  assert (WSI : where_propagation (propagation w ds (dt_substrate q) ns) = false).
  { destruct (where_propagation (propagation w ds (dt_substrate q) ns)) eqn:E; [|reflexivity]. exfalso.
    apply where_value in E; [|lra]. unfold opacity in E. fold ds in OS.
    replace (2 * (2 * PI / w * Im (ns * ds)%C) * dt_substrate q / 2) with (2 * PI * dt_substrate q / w * Im (ns * ds)%C) in OS by (field; lra). lra. }
  destruct (propagation w dx (dt_oxide q) nx) as [px|] eqn:PX; [|discriminate].
  assert (DP : mat_det px <> RtoC 0).
  { rewrite propagation_value in PX by lra. cbv zeta in PX. injection PX as <-. unfold mat_det. cbn [mxx mxy myx myy].
    rewrite Cmult_0_l. unfold Cminus. rewrite Copp_0, Cplus_0_r. apply Cmult_neq_0; apply cexp_neq_0. }
  set (m := mat_mul (mat_mul m1 px) m2).
  assert (DM : mat_det m <> RtoC 0) by (unfold m; rewrite !mat_det_mul; repeat apply Cmult_neq_0; assumption).
  assert (TOX : layer_transfer w s (oxide_layer q) (LState (RtoC n0) (Some (RtoC c0)) true) =
    (LState nx (Some dx) true, Some (mat_mul m1 px))).
  { rewrite (smooth_oxide q w n0 c0 S), smooth_layer by lra. unfold layer_transfer. cbn [st_where st_direction st_n bare ly_thickness ly_interface obind].
    change (layer_n (bare (dt_n_oxide q) (dt_oxide q)) w) with nx. rewrite SX. cbn [obind]. rewrite R1, PX. cbn [andb]. rewrite WOX. reflexivity. }
  assert (TSI : forall h, layer_transfer w s (Layer (Some (dt_n_substrate q)) h (Some (Erf 0))) (LState nx (Some dx) true) =
    let b := where_propagation (propagation w ds h ns) in
    (LState ns (Some ds) b, if b then omul (Some m2) (propagation w ds h ns) else Some m2)).
  { intros h. rewrite smooth_layer by lra. unfold layer_transfer. cbn [st_where st_direction st_n bare ly_thickness ly_interface obind].
    change (layer_n (bare (dt_n_substrate q) h) w) with ns. rewrite SXS. cbn [obind]. rewrite R2. cbn [andb].
    destruct (where_propagation (propagation w ds h ns)); reflexivity. }
  (* transmittance *)
  destruct (transmittance_bounds q w n0 c0 S s) as (r & t & ME & T & _ & _ & _). exists t. split; [exact T|].
  assert (MX : multilayer_matrix w (RtoC c0) (RtoC n0) (ASequence [ALayer (oxide_layer q)]) (Some (silicon_layer q)) s =
    (LState ns (Some ds) true, Some m)).
  { unfold multilayer_matrix. rewrite transfer_single. cbn [transfer]. rewrite TOX. cbn [fst snd]. rewrite (smooth_silicon q w n0 c0 S).
    cbn [substrate_layer ly_chemical ly_interface]. rewrite TSI. cbv zeta. rewrite propagation_zero by lra.
    assert (WP : where_propagation (Some mat_id) = true) by (unfold where_propagation, mat_id; cbn [mxx]; rewrite Cmod_1; destruct (Rlt_dec 1 (10 ^ 10)); [reflexivity | lra]).
    rewrite WP. cbn [fst snd omul]. rewrite mat_id_r. reflexivity. }
  assert (ME' := ME). unfold multilayer_efficiency, multilayer_coefficients in ME'.
  change (multilayer_matrix w (RtoC c0) (RtoC n0) (ASequence [ALayer (oxide_layer q)]) (Some (substrate_layer (Some (silicon_layer q)))) s)
    with (multilayer_matrix w (RtoC c0) (RtoC n0) (ASequence [ALayer (oxide_layer q)]) (Some (silicon_layer q)) s) in ME'.
  rewrite MX in ME'. cbv zeta in ME'. cbn [fst snd st_where obind] in ME'.
  destruct (cdiv (myx m) (mxx m)) as [rr|] eqn:RR; [|discriminate].
  destruct (cdiv 1 (mxx m)) as [tt|] eqn:TT; [|discriminate]. cbn [obind] in ME'.
  change (layer_n (substrate_layer (Some (silicon_layer q))) w) with ns in ME'. rewrite SS in ME'. cbn [obind] in ME'. rewrite Q0, QS in ME'. cbn [obind] in ME'.
  destruct (cdiv_inv _ _ _ RR) as (MXN & ER). destruct (cdiv_inv _ _ _ TT) as (_ & ET).
  assert (AM : mat_apply m (tt, RtoC 0) = (RtoC 1, rr)).
  { unfold mat_apply. cbn [fst snd]. rewrite ET, ER. f_equal; field; exact MXN. }
  destruct (inverse_apply m (RtoC 1, rr) DM) as (b & MI & _).
  assert (AB : mat_apply b (RtoC 1, rr) = (tt, RtoC 0)) by (apply (inverse_unique m); assumption).
  (* the exact method *)
  unfold absorbance, layer_absorbance. cbn [layer_sequence].
  assert (TALL : transfer w s (ASequence [ALayer (oxide_layer q); ALayer (silicon_layer q)]) (LState (RtoC n0) (Some (RtoC c0)) true) =
    (LState ns (Some ds) false, Some m)).
  { rewrite transfer_cons. cbv zeta. cbn [transfer fst snd]. rewrite TOX. cbn [fst snd]. rewrite (smooth_silicon q w n0 c0 S), TSI. cbv zeta. rewrite WSI.
    cbn [fst snd omul]. rewrite mat_id_l. reflexivity. }
  assert (MC : fst (multilayer_coefficients w (RtoC c0) (RtoC n0) (ASequence [ALayer (oxide_layer q); ALayer (silicon_layer q)]) None s) = Some rr).
  { unfold multilayer_coefficients, multilayer_matrix. rewrite TALL. cbn [fst snd].
    unfold layer_transfer. cbn [st_where andb]. cbn [fst snd omul obind]. rewrite mat_id_r. exact RR. }
  rewrite MC. cbn [obind].
  change (py_index [ALayer (oxide_layer q); ALayer (silicon_layer q)] 1) with (Some (ALayer (silicon_layer q))). cbn [obind first_layer].
  change (py_slice_to [ALayer (oxide_layer q); ALayer (silicon_layer q)] 1) with [ALayer (oxide_layer q)].
  change (py_slice_to [ALayer (oxide_layer q); ALayer (silicon_layer q)] (1 + 1)) with [ALayer (oxide_layer q); ALayer (silicon_layer q)].
  change (layer_n (silicon_layer q) w) with ns. rewrite SS. cbn [obind]. rewrite transfer_single, TALL. cbn [transfer]. rewrite TOX. cbn [fst snd st_direction st_n obind].
  rewrite (smooth_silicon q w n0 c0 S). cbn [ly_interface]. rewrite smooth_refraction by lra. rewrite R2. cbn [omul obind]. fold m. rewrite MI. cbn [obind st_where fst snd].
  rewrite (flux_value s ns ds (RtoC 0) (RtoC 0) qs QS). cbn [obind]. rewrite AB. cbn [fst snd]. rewrite (flux_value s ns ds tt (RtoC 0) qs QS). cbn [obind].
  assert (AQ : exists x, 0 < x /\ q0 = RtoC x).
  { unfold q_factor, impedance, polarized in Q0. destruct s; cbn [obind] in Q0.
    - injection Q0 as <-. exists (c0 * n0). split; [nra | cring].
    - rewrite cdiv_nz in Q0 by exact NN. cbn [obind] in Q0. injection Q0 as <-. exists (c0 / n0).
      split; [apply Rmult_lt_0_compat; [lra | apply Rinv_0_lt_compat; lra]|].
      rewrite RtoC_div by lra. replace (Cconj (RtoC c0)) with (RtoC c0) by cring. field. exact NN. }
  destruct AQ as (x & XP & XQ).
  unfold q_factor in Q0. destruct (impedance s (RtoC n0)) as [im|]; [|discriminate]. cbn [obind] in *. 
  assert (EQ : q0 = (im * RtoC c0)%C). { injection Q0 as <-. destruct s; cbn [polarized]; [ring|]. replace (Cconj (RtoC c0)) with (RtoC c0) by cring. ring. }
  rewrite <- EQ. rewrite cdiv_nz by exact Q0N. cbn [omap]. f_equal.
  rewrite (cdiv_nz qs q0 Q0N) in ME'. cbn [obind] in ME'. injection ME' as _ ET'. rewrite <- ET'.
  rewrite !flux_forward. replace (Cmod (RtoC 0)) with 0 by (symmetry; apply Cmod_0).
  rewrite XQ. rewrite <- RtoC_div by lra. unfold Re, RtoC. cbn [fst snd]. set (ct := Cmod tt). replace (x * (x * 1) + 0 * (0 * 1)) with (x * x) by ring. field. lra.
Qed.

Lemma methods_agree : forall q w n0 c0 s, smooth_sensor q w n0 c0 -> clear_oxide q w n0 c0 -> opaque_substrate q w n0 c0 ->
  exists t b, transmittance q w (RtoC c0) (RtoC n0) s = Some t /\ absorbance Exact q w (RtoC c0) (RtoC n0) s = Some t /\
    absorbance BeerLambert q w (RtoC c0) (RtoC n0) s = Some b /\ t * (1 - / 10 ^ 20) <= b <= t.
Proof.
  intros q w n0 c0 s S CO OS. destruct (exact_opaque q w n0 c0 s S CO OS) as (t & T & E).
  destruct (beer_lambert q w n0 c0 s S) as (t' & a & p & T' & A & P & _ & B & R0 & _).
  rewrite T in T'. injection T' as <-. exists t, (t * p). split; [exact T|]. split; [exact E|]. split; [exact B|]. split; [|apply R0].
  assert (T0 : 0 <= t) by lra. apply Rmult_le_compat_l; [exact T0|]. rewrite (absorbed_unique _ _ _ P).
  specialize (OS a A). set (y := a * dt_substrate q / 2) in OS.
  replace (- a * dt_substrate q) with (- (y + y)) by (unfold y; field). rewrite exp_Ropp, exp_plus.
  assert (I : / (exp y * exp y) <= / 10 ^ 20).
  { apply Rinv_le_contravar; [lra|]. replace (10 ^ 20) with (10 ^ 10 * 10 ^ 10) by lra. apply Rmult_le_compat; lra. }
  lra.
Qed.

(** ** Rays *)
Lemma ray_efficiency : forall q r d normal, r_direction r = Some d -> r_attenuation r = 0 ->
  smooth_sensor q (r_wavelength r) (r_index r) (- dot d normal) ->
  exists e xs xp, sensor_efficiency q r normal = Some e /\ 0 <= e <= 1 /\
    transmittance q (r_wavelength r) (RtoC (- dot d normal)) (RtoC (r_index r)) true = Some xs /\
    transmittance q (r_wavelength r) (RtoC (- dot d normal)) (RtoC (r_index r)) false = Some xp /\ e <= (xs + xp) / 2.
Proof.
  intros q r d normal D A S. unfold sensor_efficiency. rewrite D. cbn [obind]. unfold material_absorbance, incidence, ambient_direction.
  replace (dot (vopp d) normal) with (- dot d normal) by (unfold dot, vopp; cbn; ring).
  replace (ray_n r) with (RtoC (r_index r)) by (unfold ray_n; rewrite A; unfold RtoC; f_equal; unfold Rdiv; ring).
  destruct (beer_lambert q _ _ _ true S) as (ts & a & p & TS & _ & _ & _ & BS & RS & US).
  destruct (beer_lambert q _ _ _ false S) as (tp & a' & p' & TP & _ & _ & _ & BP & RP & UP).
  rewrite BS, BP. cbn [average obind]. exists ((ts * p + tp * p') / 2), ts, tp. split; [reflexivity|]. split; [lra|]. split; [exact TS|]. split; [exact TP | lra].
Qed.

Lemma default_incidence : incidence None None = RtoC 1.
Proof. unfold incidence, ambient_direction, dot, vopp. cbn. f_equal. ring. Qed.

Lemma transmittance_energy : forall q w n0 c0 s, smooth_sensor q w n0 c0 ->
  exists r t, fst (multilayer_efficiency w (RtoC c0) (RtoC n0) (ASequence [ALayer (oxide_layer q)]) (Some (silicon_layer q)) s) = Some r /\
    transmittance q w (RtoC c0) (RtoC n0) s = Some t /\ 0 <= r /\ 0 <= t /\ r + t <= 1.
Proof.
  intros q w n0 c0 s S. destruct (transmittance_bounds q w n0 c0 S s) as (r & t & E & H). exists r, t. rewrite E. split; [reflexivity | exact H].
Qed.
