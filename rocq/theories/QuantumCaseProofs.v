(** The sensors with which the claims about efficiencies are refuted. *)
From Coq Require Import Reals List Bool ZArith Lra Lia.
From Coquelicot Require Import Coquelicot.
From Verif Require Import Vec Num NumLemmas RayModel ComplexModel ComplexLemmas ProfileModel LayerModel LayerSpec LayerProofs LayerTrivialProofs EnergyProofs AbsorbanceProofs LayerCaseProofs
  SensorModel QuantumModel QuantumSpec QuantumProofs.
Import ListNotations.
Open Scope R_scope.
Open Scope opt_scope.

(** A silicon of index one on which a rough oxide lies *)
Definition rough_sensor : detector :=
  mkDetector 0 1 1 1 (fun _ => (1, 2)) (fun _ => RtoC 1) (sqrt (2 * ln 2)) 0 300.

Lemma vacuum_silicon : forall q w s st, w <> 0 -> dt_n_substrate q = (fun _ => RtoC 1) -> dt_rough_substrate q = 0 ->
  layer_transfer w s (substrate_layer (Some (silicon_layer q))) st = layer_transfer w s (substrate_layer None) st.
Proof.
  intros q w s st W N R. unfold silicon_layer, substrate_layer. cbn [ly_chemical ly_interface]. rewrite N, R, smooth_layer by exact W. reflexivity.
Qed.

Lemma vacuum_substrate : forall q w d n s, w <> 0 -> dt_n_substrate q = (fun _ => RtoC 1) -> dt_rough_substrate q = 0 ->
  transmittance q w d n s = snd (multilayer_efficiency w d n (ASequence [ALayer (oxide_layer q)]) None s).
Proof.
  intros q w d n s W N R. unfold transmittance, multilayer_efficiency, multilayer_coefficients, multilayer_matrix.
  assert (E : forall st, layer_transfer w s (substrate_layer (Some (substrate_layer (Some (silicon_layer q))))) st =
                         layer_transfer w s (substrate_layer (Some (substrate_layer None))) st).
  { intros st. exact (vacuum_silicon q w s st W N R). }
  rewrite E. replace (layer_n (substrate_layer (Some (silicon_layer q))) w) with (layer_n (substrate_layer None) w); [reflexivity|].
  unfold silicon_layer, substrate_layer, layer_n. cbn [ly_chemical]. rewrite N. reflexivity.
Qed.

Lemma rough_half : forall s, profile_reflectivity (Erf (sqrt (2 * ln 2))) (4 * PI) (polarized s 1) 1 = Some (/ 2).
Proof.
  intros s. assert (P := PI_RGT_0). unfold profile_reflectivity.
  rewrite (cdiv_eq _ _ (RtoC (- / 2))).
  - cbn [obind]. cbv zeta. unfold profile_dft. replace (Re (RtoC (-2) * RtoC (- / 2))%C) with 1 by (cbn; lra).
    assert (L : 0 < ln 2) by (rewrite <- ln_1; apply ln_increasing; lra).
    rewrite Rmult_1_l. rewrite pow2_sqrt by lra. f_equal. replace (- (2 * ln 2) / 2) with (- ln 2) by lra. rewrite exp_Ropp, exp_ln by lra. reflexivity.
  - apply RtoC_neq_0. lra.
  - destruct s; unfold polarized; cnum.
Qed.

Lemma rough_transmits : forall s, transmittance rough_sensor (4 * PI) 1 1 s = Some (20 / 17).
Proof.
  assert (P := PI_RGT_0).
  assert (W : 4 * PI <> 0) by lra.
  assert (N : ((1, 2) : C) <> RtoC 0) by (apply Cneq_pair; left; lra).
  assert (NI : ((1 / 5, - 2 / 5) : C) <> RtoC 0) by (apply Cneq_pair; left; lra).
  assert (I : Cmult (1 / 5, - 2 / 5)%R (1, 2)%R = RtoC 1) by cnum.
  assert (QS : q_factor true 1 (1, 2) = Some ((1, 2) : C)) by (rewrite q_s; f_equal; cnum).
  assert (QP : q_factor false 1 (1, 2) = Some ((1 / 5, - 2 / 5) : C)) by (rewrite (q_p _ _ _ N I); f_equal; cnum).
  assert (Q1 : forall s, q_factor s 1 1 = Some (RtoC 1)).
  { intros []; [rewrite q_s; f_equal; ring | rewrite (q_p _ _ 1) by (try apply C1_neq_0; ring); f_equal; cring]. }
  assert (E : forall s, exists m st, multilayer_matrix (4 * PI) 1 1 (ASequence [ALayer (oxide_layer rough_sensor)]) None s = (st, Some m) /\
     st_where st = true /\ mxx m = (9 / 10, 2 / 10)).
  { intros s. eexists. eexists. split.
    - apply (one_layer (4 * PI) s (oxide_layer rough_sensor) 1
        (if s then let u := (1, 1) in let v := (0, - / 2) in Mat2 u v v u
              else let u := (3 / 5, - 1 / 5) in let v := (2 / 10, 1 / 10) in Mat2 u v v u) mat_id
        (if s then let u := (3 / 5, - 1 / 5) in let v := (2 / 5, 1 / 5) in Mat2 u v v u
              else let u := (1, 1) in let v := (0, - 1) in Mat2 u v v u) W N).
      + destruct s; cbv zeta; (eapply refraction_eq; [apply Q1 | cbn; (exact QS || exact QP) | apply C1_neq_0 | intros Z; apply (f_equal Re) in Z; cbn in Z; lra | cbn [oxide_layer rough_sensor dt_rough_oxide ly_interface]; apply rough_half | cnum | cnum]).
      + apply propagation_zero, W.
      + cbn. rewrite Cmod_1. lra.
      + destruct s; cbv zeta; (eapply refraction_eq; [cbn; (exact QS || exact QP) | apply Q1 | assumption | intros Z; apply (f_equal Re) in Z; cbn in Z; lra | reflexivity | cnum | cnum]).
    - split; [reflexivity|]. destruct s; cbv zeta; cbn [mat_mul mat_id mxx mxy myx myy]; cnum. }
  intros s. rewrite vacuum_substrate by (try exact W; reflexivity). destruct (E s) as (m & st & EM & WS & EX).
  assert (M0 : mxx m <> RtoC 0) by (rewrite EX; apply Cneq_pair; left; lra).
  rewrite (film_value (4 * PI) s _ 1 st m 1 EM WS M0 (Q1 s) C1_neq_0). cbn [snd]. f_equal.
  assert (MS := Cmod_sq (mxx m)). rewrite EX in *. cbn [Re Im fst snd] in MS.
  assert (CP : 0 < Cmod (9 / 10, 2 / 10)) by (apply Cmod_gt_0, M0). set (c := Cmod _) in *.
  replace (Re (1 / 1)%C) with 1 by (unfold Cdiv; cparts; field). 
  replace ((1 / c) ^ 2) with (/ c ^ 2) by (field; lra). rewrite MS. field.
Qed.

(** An oxide through which nothing passes *)
Definition dark_sensor : detector :=
  mkDetector 40 1 1 1 (fun _ => (1, 1)) (fun _ => (1, 1)) 0 0 300.

Lemma smooth_absorbance : forall w d n a h1 b h2 s, w <> 0 ->
  layer_absorbance 1 w d n (ASequence [ALayer (Layer (Some a) h1 (Some (Erf 0))); ALayer (Layer (Some b) h2 (Some (Erf 0)))]) None s =
  layer_absorbance 1 w d n (ASequence [ALayer (bare a h1); ALayer (bare b h2)]) None s.
Proof.
  intros w d n a h1 b h2 s W. unfold layer_absorbance. cbn [layer_sequence].
  assert (T1 : forall st, transfer w s (ASequence [ALayer (Layer (Some a) h1 (Some (Erf 0)))]) st = transfer w s (ASequence [ALayer (bare a h1)]) st).
  { intros st. rewrite !transfer_single. cbn [transfer]. apply smooth_layer, W. }
  assert (T2 : forall st, transfer w s (ASequence [ALayer (Layer (Some a) h1 (Some (Erf 0))); ALayer (Layer (Some b) h2 (Some (Erf 0)))]) st =
                          transfer w s (ASequence [ALayer (bare a h1); ALayer (bare b h2)]) st).
  { intros st. rewrite !transfer_cons. cbv zeta. cbn [transfer]. rewrite !smooth_layer by exact W. reflexivity. }
  assert (MC : multilayer_coefficients w d n (ASequence [ALayer (Layer (Some a) h1 (Some (Erf 0))); ALayer (Layer (Some b) h2 (Some (Erf 0)))]) None s =
               multilayer_coefficients w d n (ASequence [ALayer (bare a h1); ALayer (bare b h2)]) None s).
  { unfold multilayer_coefficients, multilayer_matrix. rewrite T2. reflexivity. }
  rewrite MC. destruct (fst (multilayer_coefficients w d n (ASequence [ALayer (bare a h1); ALayer (bare b h2)]) None s)) as [r|]; [|reflexivity]. cbn [obind].
  change (py_index [ALayer (Layer (Some a) h1 (Some (Erf 0))); ALayer (Layer (Some b) h2 (Some (Erf 0)))] 1) with (Some (ALayer (Layer (Some b) h2 (Some (Erf 0))))).
  change (py_index [ALayer (bare a h1); ALayer (bare b h2)] 1) with (Some (ALayer (bare b h2))). cbn [obind first_layer].
  change (py_slice_to [ALayer (Layer (Some a) h1 (Some (Erf 0))); ALayer (Layer (Some b) h2 (Some (Erf 0)))] 1) with [ALayer (Layer (Some a) h1 (Some (Erf 0)))].
  change (py_slice_to [ALayer (Layer (Some a) h1 (Some (Erf 0))); ALayer (Layer (Some b) h2 (Some (Erf 0)))] (1 + 1)) with [ALayer (Layer (Some a) h1 (Some (Erf 0))); ALayer (Layer (Some b) h2 (Some (Erf 0)))].
  change (py_slice_to [ALayer (bare a h1); ALayer (bare b h2)] 1) with [ALayer (bare a h1)].
  change (py_slice_to [ALayer (bare a h1); ALayer (bare b h2)] (1 + 1)) with [ALayer (bare a h1); ALayer (bare b h2)].
  rewrite T1, T2. set (tl := transfer w s (ASequence [ALayer (bare a h1)]) _). set (tr := transfer w s (ASequence [ALayer (bare a h1); ALayer (bare b h2)]) _).
  clearbody tl tr. cbn [bare ly_interface]. change (layer_n (Layer (Some b) h2 (Some (Erf 0))) w) with (layer_n (bare b h2) w).
  destruct (snells_law_scalar d n (layer_n (bare b h2) w)) as [c|]; [|reflexivity]. cbn [obind].
  destruct (st_direction (fst tl)) as [c'|]; [|reflexivity]. cbn [obind].
  rewrite smooth_refraction by exact W. reflexivity.
Qed.

Lemma dark_exact : absorbance Exact dark_sensor (2 * PI) 1 1 true = Some (4 / 5).
Proof.
  assert (P := PI_RGT_0). unfold absorbance, oxide_layer, silicon_layer, dark_sensor.
  cbn [dt_n_oxide dt_n_substrate dt_rough_oxide dt_rough_substrate dt_oxide dt_substrate]. rewrite smooth_absorbance by lra.
  change (ASequence [ALayer (bare (fun _ => (1, 1)) 40); ALayer (bare (fun _ => (1, 1)) 1)]) with (ASequence dark_pair).
  rewrite dark_absorbance by auto. reflexivity.
Qed.

Lemma dark_transmits : transmittance dark_sensor (2 * PI) 1 1 true = Some 0 /\ absorbance BeerLambert dark_sensor (2 * PI) 1 1 true = Some 0.
Proof.
  assert (P := PI_RGT_0).
  assert (N : ((1, 1) : C) <> RtoC 0) by (apply Cneq_pair; left; lra).
  assert (T : transmittance dark_sensor (2 * PI) 1 1 true = Some 0).
  { unfold transmittance, multilayer_efficiency, multilayer_coefficients, multilayer_matrix. rewrite transfer_single. cbn [transfer].
    unfold oxide_layer. cbn [dark_sensor dt_n_oxide dt_oxide dt_rough_oxide]. rewrite smooth_layer by lra.
    change (layer_transfer (2 * PI) true (bare (fun _ => (1, 1)) 40)) with (layer_transfer (2 * PI) true (dark 40)).
    assert (D := dark_prefix1). rewrite transfer_single in D. cbn [transfer] in D. rewrite D. cbn [fst snd].
    rewrite opaque_after by exact N. cbn [fst snd st_where omul obind].
    change (layer_n (substrate_layer (Some (silicon_layer dark_sensor))) (2 * PI)) with ((1, 1) : C).
    rewrite snell_normal by exact N. cbn [obind]. rewrite !q_s. cbn [obind]. rewrite cdiv_nz by (rewrite Cmult_1_l; apply C1_neq_0). cbn [obind snd]. rewrite Cmod_0. f_equal. ring. }
  split; [exact T|]. unfold absorbance. rewrite T. cbn [obind]. change (dt_n_substrate dark_sensor (2 * PI)) with ((1, 1) : C).
  rewrite snell_normal by exact N. cbn [obind]. unfold absorption_effective. rewrite odiv_nz by lra. cbn [obind]. f_equal. ring.
Qed.

Lemma rough_gains : exists q w t, 0 < w /\ 0 < dt_rough_oxide q /\ dt_rough_substrate q = 0 /\ 0 <= dt_oxide q /\
  passive (dt_n_oxide q w) /\ passive (dt_n_substrate q w) /\
  (forall s, transmittance q w (RtoC 1) (RtoC 1) s = Some t) /\ 1 < t.
Proof.
  assert (P := PI_RGT_0). exists rough_sensor, (4 * PI), (20 / 17). split; [lra|]. split; [|split; [reflexivity|]].
  - cbn. apply sqrt_lt_R0. assert (L : 0 < ln 2) by (rewrite <- ln_1; apply ln_increasing; lra). lra.
  - split; [cbn; lra|]. split; [split; cbn; lra|]. split; [split; cbn; lra|]. split; [exact rough_transmits | lra].
Qed.

Lemma dark_disagrees : exists q w, smooth_sensor q w 1 1 /\ transmittance q w (RtoC 1) (RtoC 1) true = Some 0 /\
  absorbance BeerLambert q w (RtoC 1) (RtoC 1) true = Some 0 /\ absorbance Exact q w (RtoC 1) (RtoC 1) true = Some (4 / 5).
Proof.
  assert (P := PI_RGT_0). exists dark_sensor, (2 * PI). split; [|split; [apply dark_transmits | split; [apply dark_transmits | apply dark_exact]]].
  unfold smooth_sensor. cbn [dark_sensor dt_oxide dt_substrate dt_rough_oxide dt_rough_substrate dt_n_oxide dt_n_substrate].
  assert (O : off_critical (RtoC (1 ^ 2 * (1 - 1 ^ 2))) (1, 1)) by (intros E; apply (f_equal Im) in E; cbn in E; lra).
  repeat (split; [lra || reflexivity || (split; cbn; lra) || exact O|]). exact O.
Qed.
