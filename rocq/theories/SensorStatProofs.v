(** Exposure, uncertainty, variance-to-mean ratio, probability of measurement. *)
From Coq Require Import Reals List Lra Lia.
From Coquelicot Require Import Coquelicot.
From Verif Require Import Vec Num NumLemmas ComplexModel ComplexLemmas LayerModel LayerProofs RamanathanModel SensorModel SensorSpec DistSpec DistProofs SensorProofs.
Import ListNotations.
Open Scope R_scope.

(** ** Exposure *)
Lemma absorption_value : forall w n d, w <> 0 -> absorption_effective w n d = Some (4 * PI * Im (n * d)%C / w).
Proof. intros w n d H. unfold absorption_effective. apply odiv_nz, H. Qed.
Lemma absorption_pos : forall w n d, 0 < w -> 0 < Im (n * d)%C -> exists a, absorption_effective w n d = Some a /\ 0 < a.
Proof.
  intros w n d W H. exists (4 * PI * Im (n * d)%C / w). split; [apply absorption_value; lra|].
  assert (P := PI_RGT_0). apply Rdiv_lt_0_compat; [nra | exact W].
Qed.
Lemma index_nonzero : forall n d : C, 0 < Im (n * d)%C -> n <> RtoC 0.
Proof. intros n d H E. subst. replace (RtoC 0 * d)%C with (RtoC 0) in H by ring. cbn in H. lra. Qed.

Lemma expose_inverse : forall tb s t flux w d,
  working tb (sn_material s) w d -> match t with Some t => t | None => sn_exposure s end <> 0 ->
  exists e, expose tb s t flux w d = Some e /\ sensor_photons_absorbed tb s t e w d = Some flux.
Proof.
  intros tb s t flux w d H T. unfold expose, sensor_photons_absorbed. set (dt := match t with Some t => t | None => sn_exposure s end) in *.
  destruct (sn_material s) as [|m]; cbn [working material_signal material_photons_absorbed] in *.
  - exists (flux * dt). split; [reflexivity|]. cbn. rewrite odiv_nz by exact T. f_equal. field. exact T.
  - destruct H as (W & RD & A & P & E & q & Q & QP).
    destruct (absorption_pos _ _ _ W A) as (a & HA & AP).
    assert (X : 0 < a * si_implant m) by nra.
    assert (HC : charge_collection_efficiency a (si_implant m) (si_eta0 m) = Some (cce (a * si_implant m) (si_eta0 m))) by (apply cce_value; lra).
    destruct (cce_bounds _ _ X E) as [_ CP].
    unfold signal_expected. rewrite snell_identity by (first [exact RD | exact (index_nonzero _ _ A)]). cbn [obind].
    rewrite HA. cbn [obind]. rewrite Q. cbn [obind]. rewrite HC. cbn [obind].
    eexists. split; [reflexivity|]. rewrite odiv_nz by nra. cbn [obind]. rewrite odiv_nz by exact T.
    f_equal. field. repeat split; lra.
Qed.

(** ** Uncertainty *)
Lemma uncertainty_value : forall tb s e w d u, material_uncertainty tb (sn_material s) e w d = Some u ->
  sensor_uncertainty tb s e w d = Some (sqrt (u * u + sn_read_noise s * sn_read_noise s)).
Proof. intros tb s e w d u H. unfold sensor_uncertainty. rewrite H. cbn [obind]. apply osqrt_nonneg. nra. Qed.
Lemma osqrt_pos : forall x u, osqrt x = Some u -> 0 <= x /\ u = sqrt x.
Proof. intros x u H. destruct (osqrt_some x u H) as (P & Q & _). split; assumption. Qed.
Lemma material_shape : forall tb m w d, exists v, forall e,
  material_uncertainty tb m e w d = match v with Some v => osqrt (v * e) | None => None end.
Proof.
  intros tb [|m] w d.
  - exists (Some 1). intros e. cbn. f_equal. ring.
  - cbn [material_uncertainty]. destruct (vmr_signal _ _ _ _ _ _ _ _ _ _ _) as [v|]; [exists (Some v) | exists None]; reflexivity.
Qed.
Lemma material_positive : forall tb m e w d u, material_uncertainty tb m e w d = Some u -> 0 <= u.
Proof.
  intros tb m e w d u H. destruct (material_shape tb m w d) as [[v|] S]; rewrite S in H; [|discriminate].
  apply osqrt_pos in H. destruct H as [_ ->]. apply sqrt_pos.
Qed.
Lemma sqrt_ge_abs : forall a b, Rabs a <= sqrt (b * b + a * a).
Proof. intros a b. rewrite <- (sqrt_Rsqr_abs a). apply sqrt_le_1_alt. unfold Rsqr. nra. Qed.

Lemma uncertainty_bounds : forall tb s e w d u, material_uncertainty tb (sn_material s) e w d = Some u ->
  exists t, sensor_uncertainty tb s e w d = Some t /\ t ^ 2 = u ^ 2 + (sn_read_noise s) ^ 2 /\
    0 <= u <= t /\ Rabs (sn_read_noise s) <= t.
Proof.
  intros tb s e w d u H. exists (sqrt (u * u + sn_read_noise s * sn_read_noise s)). split; [apply uncertainty_value, H|].
  assert (U := material_positive _ _ _ _ _ _ H).
  split; [rewrite pow2_sqrt by nra; ring|]. split; [split; [exact U|] | apply sqrt_ge_abs].
  rewrite <- (Rabs_pos_eq u) at 1 by exact U. rewrite (Rplus_comm (u * u)). apply sqrt_ge_abs.
Qed.
Lemma uncertainty_zero : forall tb s w d t, sensor_uncertainty tb s 0 w d = Some t -> t = Rabs (sn_read_noise s).
Proof.
  intros tb s w d t H. unfold sensor_uncertainty in H. destruct (material_shape tb (sn_material s) w d) as [[v|] S]; rewrite S in H; [|discriminate].
  rewrite Rmult_0_r in H. rewrite (osqrt_nonneg 0) in H by lra. cbn [obind] in H. rewrite sqrt_0 in H. apply osqrt_pos in H. destruct H as [_ ->].
  replace (0 * 0 + sn_read_noise s * sn_read_noise s) with (Rsqr (sn_read_noise s)) by (unfold Rsqr; ring). apply sqrt_Rsqr_abs.
Qed.
Lemma uncertainty_monotone : forall tb s e e' w d t t', 0 <= e <= e' ->
  sensor_uncertainty tb s e w d = Some t -> sensor_uncertainty tb s e' w d = Some t' -> t <= t'.
Proof.
  intros tb s e e' w d t t' L H H'. unfold sensor_uncertainty in *. destruct (material_shape tb (sn_material s) w d) as [[v|] S]; rewrite S in H, H'; [|discriminate].
  destruct (osqrt (v * e)) as [u|] eqn:EU; [|discriminate]. destruct (osqrt (v * e')) as [u'|] eqn:EU'; [|discriminate]. cbn [obind] in *.
  apply osqrt_pos in EU. destruct EU as [P ->]. apply osqrt_pos in EU'. destruct EU' as [P' ->].
  apply osqrt_pos in H. destruct H as [_ ->]. apply osqrt_pos in H'. destruct H' as [_ ->].
  apply sqrt_le_1_alt. rewrite !sqrt_sqrt by assumption.
  destruct (Req_dec e 0) as [->|N]; [nra|]. assert (0 <= v) by nra. nra.
Qed.

(** ** The variance-to-mean ratio *)
Lemma vmr_value : forall tb w d n ns W eta0 T d' a q F, snells_law_scalar d n ns = Some d' ->
  absorption_effective w ns d' = Some a -> 0 < a -> 0 < W -> 0 <= eta0 <= 1 ->
  quantum_yield_ideal tb w T = Some q -> fano_factor tb w 300 = Some F ->
  let c := cce (a * W) eta0 in let V := var_cce (a * W) eta0 in
  vmr_signal tb w d n ns W eta0 T true true true = Some (q * c + c * F + (1 - c - V / c + q * (V / c) + F * (V / c))).
Proof.
  intros tb w d n ns W eta0 T d' a q F HS HA A P E HQ HF c V. assert (X : 0 < a * W) by nra.
  destruct (cce_bounds _ _ X E) as [_ CP].
  unfold vmr_signal. rewrite HS. cbn [obind]. rewrite HA. cbn [obind]. rewrite HQ. cbn [obind].
  rewrite cce_value by lra. cbn [obind]. rewrite HF. cbn [obind]. rewrite vmr_cce_value by lra. cbn [obind].
  f_equal. unfold c, V. ring.
Qed.
Lemma vmr_nonneg : forall x eta0 q F, 0 < x -> 0 <= eta0 <= 1 -> 0 <= q -> 0 <= F ->
  let c := cce x eta0 in let V := var_cce x eta0 in 0 <= q * c + c * F + (1 - c - V / c + q * (V / c) + F * (V / c)).
Proof.
  intros x eta0 q F X E Q HF c V. destruct (cce_bounds x eta0 X E) as [B CP]. fold c in B, CP.
  destruct (var_bounds x eta0 X E) as [V0 V1]. fold c V in V0, V1.
  assert (U : V / c <= 1 - c).
  { apply Rmult_le_reg_r with c; [exact CP|]. replace (V / c * c) with V by (field; lra). lra. }
  assert (Z : 0 <= V / c) by (apply Rdiv_le_0_compat; lra).
  assert (0 <= q * c) by nra. assert (0 <= c * F) by nra. assert (0 <= q * (V / c)) by nra. assert (0 <= F * (V / c)) by nra. lra.
Qed.
Lemma uncertainty_defined : forall tb s e w d, 0 <= e -> working tb (sn_material s) w d ->
  (sn_material s <> Ideal -> exists F, fano_factor tb w 300 = Some F /\ 0 <= F) ->
  exists u t, material_uncertainty tb (sn_material s) e w d = Some u /\ sensor_uncertainty tb s e w d = Some t.
Proof.
  intros tb s e w d E H HF.
  assert (M : exists u, material_uncertainty tb (sn_material s) e w d = Some u).
  { destruct (sn_material s) as [|m]; cbn [working material_uncertainty] in *; [exists (sqrt e); apply osqrt_nonneg, E|].
    destruct H as (W & RD & A & P & E0 & q & Q & QP). destruct HF as (F & HF & FP); [discriminate|].
    destruct (absorption_pos _ _ _ W A) as (a & HA & AP).
    rewrite (vmr_value tb w d _ _ _ _ _ d a q F (snell_identity _ _ (index_nonzero _ _ A) RD) HA AP P E0 Q HF). cbn [obind].
    eexists. apply osqrt_nonneg. apply Rmult_le_pos; [|exact E]. apply vmr_nonneg; [nra | assumption | lra | assumption]. }
  destruct M as [u U]. exists u. eexists. split; [exact U | apply uncertainty_value, U].
Qed.

(** The law of total variance. *)
Lemma thinned_ratio : forall pairs eff q F c V, is_dist (counts pairs) -> is_dist eff ->
  mean (counts pairs) = q -> variance (counts pairs) = F * q -> mean eff = c -> variance eff = V -> q <> 0 -> c <> 0 ->
  forall l, 0 < l -> is_compound_vmr l (thinned pairs eff) (q * c + c * F + (1 - c - V / c + q * (V / c) + F * (V / c))).
Proof.
  intros pairs eff q F c V [_ PT] [_ ET] MP VP ME VE Q0 C0 l L.
  assert (T := thinned_total pairs eff PT ET). assert (M := thinned_mean pairs eff). assert (S := thinned_second pairs eff).
  rewrite variance_second in VP by exact PT. rewrite variance_second in VE by exact ET. rewrite MP in *. rewrite ME in *.
  assert (H := compound_vmr l (thinned pairs eff) T ltac:(lra)). rewrite M in H.
  specialize (H ltac:(apply Rmult_integral_contrapositive_currified; assumption)).
  replace (q * c + c * F + (1 - c - V / c + q * (V / c) + F * (V / c))) with (second (thinned pairs eff) / (q * c)); [exact H|].
  rewrite S. replace (second eff) with (V + c * c) by lra. replace (second (counts pairs)) with (F * q + q * q) by lra. field. split; assumption.
Qed.

Lemma vmr_total : forall tb w d n ns W eta0 T d' a q F c V pairs eff, snells_law_scalar d n ns = Some d' ->
  absorption_effective w ns d' = Some a -> 0 < a -> 0 < W -> 0 <= eta0 <= 1 ->
  quantum_yield_ideal tb w T = Some q -> 0 < q -> fano_factor tb w 300 = Some F ->
  is_depth_mean a (differential_efficiency eta0 W) c ->
  is_depth_mean a (fun z => (differential_efficiency eta0 W z - c) ^ 2) V ->
  is_dist (counts pairs) -> mean (counts pairs) = q -> variance (counts pairs) = F * q ->
  is_dist eff -> mean eff = c -> variance eff = V ->
  exists v, vmr_signal tb w d n ns W eta0 T true true true = Some v /\
    forall l, 0 < l -> is_compound_vmr l (thinned pairs eff) v.
Proof.
  intros tb w d n ns W eta0 T d' a q F c V pairs eff HS HA A P E HQ QP HF [_ MC] [_ MV] DP MP VP DE ME VE.
  assert (C : c = cce (a * W) eta0).
  { destruct (cce_depth_mean a W eta0 A P) as [_ MC'].
    assert (U := is_lim_unique _ _ _ MC). rewrite (is_lim_unique _ _ _ MC') in U. injection U as U. symmetry. exact U. }
  rewrite C in MV.
  assert (VV : V = var_cce (a * W) eta0).
  { destruct (variance_depth_mean a W eta0 A P) as [_ MV'].
    assert (U := is_lim_unique _ _ _ MV). rewrite (is_lim_unique _ _ _ MV') in U. injection U as U. symmetry. exact U. }
  eexists. split; [apply (vmr_value tb w d n ns W eta0 T d' a q F); assumption|]. cbv zeta. rewrite <- C, <- VV.
  assert (X : 0 < a * W) by nra. destruct (cce_bounds _ _ X E) as [_ CP].
  intros l L. apply thinned_ratio; try assumption; rewrite ?C; lra.
Qed.

(** ** Probability of measurement *)
Lemma npow_pos : forall x y, 0 < x -> npow x y = Some (Rpower x y).
Proof. intros x y H. unfold npow. destruct (Rlt_dec x 0); [lra|]. destruct (Req_EM_T x 0); [lra | reflexivity]. Qed.
Lemma npow_zero : forall y, 0 <= y -> npow 0 y = Some (if Req_EM_T y 0 then 1 else 0).
Proof.
  intros y H. unfold npow. destruct (Rlt_dec 0 0); [lra|]. destruct (Req_EM_T 0 0); [|contradiction].
  destruct (Req_EM_T y 0); [reflexivity|]. destruct (Rlt_dec y 0); [lra | reflexivity].
Qed.
Definition pw (x y : R) : R := if Req_EM_T x 0 then (if Req_EM_T y 0 then 1 else 0) else Rpower x y.
Lemma npow_value : forall x y, 0 <= x -> 0 <= y -> npow x y = Some (pw x y).
Proof.
  intros x y X Y. unfold pw. destruct (Req_EM_T x 0) as [->|N]; [apply npow_zero, Y | apply npow_pos; lra].
Qed.
Lemma Rpower_pos : forall x y, 0 < Rpower x y. Proof. intros. apply exp_pos. Qed.
Lemma Rpower_base_mono : forall x x' y, 0 < x -> x <= x' -> 0 <= y -> Rpower x y <= Rpower x' y.
Proof.
  intros x x' y X L Y. unfold Rpower. destruct (Req_dec x x') as [->|N]; [lra|].
  assert (Q : ln x < ln x') by (apply ln_increasing; lra). destruct (Req_dec y 0) as [->|NY]; [rewrite !Rmult_0_l; lra|].
  left. apply exp_increasing. nra.
Qed.
Lemma Rpower_exp_anti : forall x y y', 0 < x <= 1 -> y <= y' -> Rpower x y' <= Rpower x y.
Proof.
  intros x y y' [X L] Y. unfold Rpower. assert (Q : ln x <= 0).
  { destruct (Req_dec x 1) as [->|N]; [rewrite ln_1; lra|]. left. rewrite <- ln_1. apply ln_increasing; lra. }
  destruct (Req_dec (y' * ln x) (y * ln x)) as [->|N]; [lra|]. left. apply exp_increasing. nra.
Qed.
Lemma pw_range : forall x y, 0 <= x <= 1 -> 0 <= y -> 0 <= pw x y <= 1.
Proof.
  intros x y X Y. unfold pw. destruct (Req_EM_T x 0) as [->|N]; [destruct (Req_EM_T y 0); lra|].
  split; [left; apply Rpower_pos|]. replace 1 with (Rpower x 0) by (apply Rpower_O; lra). apply Rpower_exp_anti; lra.
Qed.
Lemma pw_exp_anti : forall x y y', 0 <= x <= 1 -> 0 <= y <= y' -> pw x y' <= pw x y.
Proof.
  intros x y y' X Y. unfold pw. destruct (Req_EM_T x 0) as [->|N]; [destruct (Req_EM_T y 0), (Req_EM_T y' 0); lra|].
  apply Rpower_exp_anti; lra.
Qed.
Lemma pw_base_mono : forall x x' y, 0 <= x <= x' -> x' <= 1 -> 0 <= y -> pw x y <= pw x' y.
Proof.
  intros x x' y X X' Y. unfold pw. destruct (Req_EM_T x 0) as [->|N]; destruct (Req_EM_T x' 0) as [->|N'].
  - lra.
  - destruct (Req_EM_T y 0) as [->|NY]; [rewrite Rpower_O by lra; lra | left; apply Rpower_pos].
  - lra.
  - apply Rpower_base_mono; lra.
Qed.
Lemma pw_1 : forall x, 0 <= x -> pw x 1 = x.
Proof. intros x X. unfold pw. destruct (Req_EM_T x 0) as [->|N]; [destruct (Req_EM_T 1 0); lra | apply Rpower_1; lra]. Qed.
Lemma measurement_value : forall q c, 0 <= q -> 0 <= c <= 1 -> probability_measurement q c = Some (1 - pw (1 - c) q).
Proof. intros q c Q C. unfold probability_measurement. rewrite npow_value by lra. reflexivity. Qed.
Lemma measurement_range : forall q c, 0 <= q -> 0 <= c <= 1 -> exists p, probability_measurement q c = Some p /\ 0 <= p <= 1.
Proof. intros q c Q C. eexists. split; [apply measurement_value; assumption|]. assert (H := pw_range (1 - c) q ltac:(lra) Q). lra. Qed.
Lemma measurement_monotone : forall q q' c c' p p', 0 <= q <= q' -> 0 <= c <= c' -> c' <= 1 ->
  probability_measurement q c = Some p -> probability_measurement q' c' = Some p' -> p <= p'.
Proof.
  intros q q' c c' p p' Q C C' H H'. rewrite measurement_value in H, H' by lra. injection H as <-. injection H' as <-.
  assert (A := pw_exp_anti (1 - c) q q' ltac:(lra) ltac:(lra)). assert (B := pw_base_mono (1 - c') (1 - c) q' ltac:(lra) ltac:(lra) ltac:(lra)). lra.
Qed.
Lemma measurement_one : forall c, 0 <= c <= 1 -> probability_measurement 1 c = Some c.
Proof. intros c C. rewrite measurement_value by lra. rewrite pw_1 by lra. f_equal. ring. Qed.
Lemma measurement_above : forall q c p, 1 <= q -> 0 <= c <= 1 -> probability_measurement q c = Some p -> c <= p.
Proof. intros q c p Q C H. exact (measurement_monotone 1 q c c c p ltac:(lra) ltac:(lra) ltac:(lra) (measurement_one c C) H). Qed.
(** For a whole number of pairs it is the probability that at least one survives. *)
Lemma binomial_none : forall n c, expect (fun k => if Req_EM_T k 0 then 1 else 0) (binomial n c) = (1 - c) ^ n.
Proof.
  intros n c. unfold binomial.
  assert (N : forall k pv, In pv (iid_sum k (bernoulli c)) -> 0 <= snd pv).
  { induction k as [|k IH]; intros pv I; [destruct I as [<-|[]]; cbn; lra|]. cbn [iid_sum] in I. unfold conv, bernoulli in I. cbn [flat_map] in I.
    rewrite app_nil_r in I. apply in_app_or in I. destruct I as [I|I]; apply in_map_iff in I; destruct I as (qw & <- & J); apply IH in J; cbn; lra. }
  induction n as [|n IH]; [cbn; destruct (Req_EM_T 0 0); [ring | contradiction]|].
  cbn [iid_sum]. rewrite expect_conv.
  match goal with |- expect ?f (bernoulli c) = _ => change (expect f [(c, 1); (1 - c, 0)] = (1 - c) ^ S n) end.
  rewrite !expect_cons. cbn [fst snd].
  rewrite (expect_ext (fun w => if Req_EM_T (0 + w) 0 then 1 else 0) (fun k => if Req_EM_T k 0 then 1 else 0))
    by (intros x; rewrite Rplus_0_l; reflexivity).
  rewrite IH. assert (Z : expect (fun w => if Req_EM_T (1 + w) 0 then 1 else 0) (iid_sum n (bernoulli c)) = 0).
  { unfold expect. transitivity (rsum (map (fun _ : R * R => 0) (iid_sum n (bernoulli c)))); [|apply rsum_map_0]. apply rsum_map_ext. intros pv I. apply N in I.
    destruct (Req_EM_T (1 + snd pv) 0); [exfalso; lra | apply Rmult_0_r]. }
  rewrite Z. match goal with |- context [expect ?f []] => change (expect f []) with 0 end. cbn [pow]. ring.
Qed.
Lemma measurement_integer : forall n c, 0 <= c <= 1 ->
  probability_measurement (INR n) c = Some (1 - expect (fun k => if Req_EM_T k 0 then 1 else 0) (binomial n c)).
Proof.
  intros n c C. rewrite measurement_value by (first [apply pos_INR | exact C]). f_equal. f_equal. rewrite binomial_none.
  unfold pw. destruct (Req_EM_T (1 - c) 0) as [Z|N]; [|rewrite Rpower_pow by lra; reflexivity].
  rewrite Z. destruct n as [|n]; [cbn; destruct (Req_EM_T 0 0); [reflexivity | contradiction]|].
  destruct (Req_EM_T (INR (S n)) 0) as [E|_]; [rewrite S_INR in E; assert (H := pos_INR n); lra|]. cbn [pow]. ring.
Qed.
