(** C04, C32-C36, C70: multilayers. *)
From Coq Require Import Reals Lra Psatz List Bool ZArith Lia.
From Coquelicot Require Import Coquelicot.
From Verif Require Import Vec VecLemmas Num NumLemmas ComplexModel ComplexLemmas ProfileModel LayerModel LayerSpec LayerProofs
  LayerTrivialProofs EnergyProofs AbsorbanceProofs LayerClaimProofs LayerCaseProofs LayerSignProofs.
Import ListNotations.
Open Scope C_scope.
Open Scope opt_scope.

(** ** C04 *)
(** The cosine obeys Snell's law and has a non-negative real part. *)
Theorem C04_law : forall c n m c' : C, snells_law_scalar c n m = Some c' ->
  (m * m) * (1 - c' * c') = (n * n) * (1 - c * c) /\ (0 <= Re c')%R.
Proof. exact snell_law_holds. Qed.
Print Assumptions C04_law.

Theorem C04_chain : forall (ns : list C) (c n m : C), List.Forall (fun x : C => x <> 0) (ns ++ [m]) ->
  snell_chain c n (ns ++ [m]) = snells_law_scalar c n m.
Proof. exact snell_chain_direct. Qed.
Print Assumptions C04_chain.

(** The same for the direction that [transfer] returns, for any stack. *)
Theorem C04_stack : forall wavelength s layers n d w,
  List.Forall (fun l => layer_n l wavelength <> 0) (layers_of layers) -> layers_of layers <> [] ->
  let st := fst (transfer wavelength s layers (LState n (Some d) w)) in
  st_direction st = snells_law_scalar d n (st_n st).
Proof. exact stack_direction. Qed.
Print Assumptions C04_stack.

Theorem C04_identity : forall c n : C, n <> 0 -> (0 < Re c)%R -> snells_law_scalar c n n = Some c.
Proof. exact snell_identity. Qed.
Print Assumptions C04_identity.

(** From glass at grazing incidence into vacuum the wave is evanescent. *)
Example C04_nonvacuous : exists c, snells_law_scalar (RtoC (1 / 2)) (RtoC 2) 1 = Some c /\ snell_chain (RtoC (1 / 2)) (RtoC 2) [RtoC 3; RtoC 1] = Some c /\
  Re c = 0%R /\ (0 < Im c)%R.
Proof.
  assert (E : snells_law_scalar (RtoC (1 / 2)) (RtoC 2) 1 = Some (0, sqrt 2)%R).
  { rewrite snell_value by apply C1_neq_0. f_equal. apply csqrt_unique.
    - assert (X := sqrt_sqrt 2 ltac:(lra)). unfold tangential2, Cdiv. apply C_eq; cparts; cbn [Re Im fst snd]; [|field].
      transitivity (- (sqrt 2 * sqrt 2))%R; [ring | rewrite X; field].
    - right. cbn. split; [reflexivity | apply sqrt_pos]. }
  exists (0, sqrt 2)%R. split; [exact E|]. split.
  - change [RtoC 3; RtoC 1] with ([RtoC 3] ++ [RtoC 1]). rewrite snell_chain_direct; [exact E|].
    repeat constructor; apply RtoC_neq_0; lra.
  - cbn. split; [reflexivity | apply sqrt_lt_R0; lra].
Qed.

(** ** C32 *)
Theorem C32_refraction_partial : forall wavelength d s n i, d <> (0 : C) -> n <> (0 : C) ->
  (forall p, i = Some p -> exists w, profile_reflectivity p wavelength (polarized s d) n = Some w) ->
  refraction wavelength d d s n n i = Some mat_id.
Proof.
  intros wavelength d s n i D N H. apply refraction_same; auto. destruct i; [apply H; reflexivity | exact I].
Qed.
Print Assumptions C32_refraction_partial.

Theorem C32_propagation_partial : forall wavelength d n, (wavelength <> 0)%R -> propagation wavelength d 0 n = Some mat_id.
Proof. exact propagation_zero. Qed.
Print Assumptions C32_propagation_partial.

(** Splitting a layer, in any stack; none of the three layers may be opaque. *)
Theorem C32_split_partial : forall wavelength s d n pre post l l1 l2 substrate,
  (wavelength <> 0)%R ->
  List.Forall (fun l => layer_n l wavelength <> 0) (layers_of (ASequence pre)) -> layer_n l wavelength <> 0 ->
  ly_chemical l1 = ly_chemical l -> ly_chemical l2 = ly_chemical l -> ly_interface l1 = ly_interface l ->
  (ly_thickness l = ly_thickness l1 + ly_thickness l2)%R ->
  let k := n * n * (1 - d * d) in
  off_critical k (layer_n l wavelength) ->
  (forall p c, ly_interface l2 = Some p -> layer_n l wavelength * layer_n l wavelength * (1 - c * c) = k ->
     exists w, profile_reflectivity p wavelength (polarized s c) (layer_n l wavelength) = Some w) ->
  transparent k wavelength l -> transparent k wavelength l1 -> transparent k wavelength l2 ->
  multilayer_efficiency wavelength d n (ASequence (pre ++ [ALayer l1; ALayer l2] ++ post)) substrate s =
  multilayer_efficiency wavelength d n (ASequence (pre ++ [ALayer l] ++ post)) substrate s.
Proof. exact split_efficiency. Qed.
Print Assumptions C32_split_partial.

Theorem C32_empty_partial : forall wavelength d n sub s, (wavelength <> 0)%R -> n <> (0 : C) -> (0 < Re d)%R ->
  layer_n sub wavelength = n -> 
  (forall p, ly_interface sub = Some p -> exists w, profile_reflectivity p wavelength (polarized s d) n = Some w) ->
  multilayer_coefficients wavelength d n (ASequence []) (Some sub) s = (Some (RtoC 0), Some (RtoC 1)).
Proof.
  intros wavelength d n sub s W N D E H. apply empty_stack; auto. destruct (ly_interface sub); [apply H; reflexivity | exact I].
Qed.
Print Assumptions C32_empty_partial.

(** Splitting an opaque layer changes the transmission from zero to something else. *)
Theorem C32_refuted : exists wavelength ch h, (0 < wavelength)%R /\ (0 < h)%R /\ passive (ch wavelength) /\
  let t layers := snd (multilayer_coefficients wavelength 1 1 (ASequence layers) None true) in
  t [ALayer (Layer (Some ch) (h + h) None)] <> t [ALayer (Layer (Some ch) h None); ALayer (Layer (Some ch) h None)].
Proof.
  exists (2 * PI)%R, (fun _ => (1, 1)%R), 20%R. assert (P := PI_RGT_0). split; [lra|]. split; [lra|].
  split; [split; cbn; lra|]. cbv beta zeta. destruct split_opaque as [A B]. intros E. apply B. rewrite <- A. symmetry. exact E.
Qed.
Print Assumptions C32_refuted.

Example C32_nonvacuous : exists l l1 l2 : layer,
  let k := (1 : C) * 1 * (1 - RtoC (3/5) * RtoC (3/5)) in
  layer_n l 1 <> 0 /\ ly_chemical l1 = ly_chemical l /\ ly_chemical l2 = ly_chemical l /\
  (ly_thickness l = ly_thickness l1 + ly_thickness l2)%R /\ (0 < ly_thickness l1)%R /\ (0 < ly_thickness l2)%R /\ off_critical k (layer_n l 1) /\
  transparent k 1 l /\ transparent k 1 l1 /\ transparent k 1 l2.
Proof.
  exists (Layer (Some (fun _ => RtoC 2)) 3 None), (Layer (Some (fun _ => RtoC 2)) 1 None), (Layer (Some (fun _ => RtoC 2)) 2 None).
  assert (T : forall h, transparent ((1 : C) * 1 * (1 - RtoC (3/5) * RtoC (3/5))) 1 (Layer (Some (fun _ => RtoC 2)) h None)).
  { intros h c E. cbn [layer_n ly_chemical ly_thickness] in *.
    assert (I0 : (Im c = 0)%R).
    { assert (EI := f_equal Im E). assert (ER := f_equal Re E). unfold RtoC in *. cbn in EI, ER.
      unfold Re, Im in *. assert (fst c * snd c = 0)%R by lra. apply Rmult_integral in H. destruct H as [H|H]; [|exact H]. rewrite H in ER. nra. }
    replace (Im (RtoC 2 * c)) with 0%R by (cparts; cbn; rewrite I0; ring). rewrite Rmult_0_r, exp_0. lra. }
  cbv zeta. repeat split; try reflexivity; cbn; try lra; auto.
  - apply RtoC_neq_0. lra.
  - unfold off_critical. intros E. apply (f_equal Re) in E. cbn in E. lra.
Qed.

(** ** C33 *)
Theorem C33_matrix_partial : forall wavelength s ls num n d w, (1 <= num)%Z ->
  List.Forall (fun l => layer_n l wavelength <> 0) (layers_of (ASequence ls)) ->
  (num = 1%Z -> exists m, snd (transfer wavelength s (ASequence (ls ++ ls)) (LState n (Some d) w)) = Some m) ->
  transfer wavelength s (APeriodic ls num) (LState n (Some d) w) =
  transfer wavelength s (ASequence (list_times ls num)) (LState n (Some d) w).
Proof. intros. apply (periodic_is_repetition wavelength s ls num (LState n (Some d) w) d); auto. Qed.
Print Assumptions C33_matrix_partial.

Theorem C33_efficiency_partial : forall wavelength s d n ls num substrate, (1 <= num)%Z ->
  List.Forall (fun l => layer_n l wavelength <> 0) (layers_of (ASequence ls)) ->
  (num = 1%Z -> snd (transfer wavelength s (ASequence (ls ++ ls)) (LState n (Some d) true)) <> None) ->
  multilayer_efficiency wavelength d n (APeriodic ls num) substrate s =
  multilayer_efficiency wavelength d n (ASequence (list_times ls num)) substrate s.
Proof. exact periodic_efficiency. Qed.
Print Assumptions C33_efficiency_partial.

(** For ideal stacks nothing else is needed; the parts may themselves be periodic. *)
Theorem C33_ideal_partial : forall (medium : C -> Prop) wavelength n0 c0 ls num substrate s,
  (forall n, medium n -> passive n) -> ideal_stack medium wavelength n0 c0 (APeriodic ls num) substrate ->
  multilayer_efficiency wavelength (RtoC c0) (RtoC n0) (APeriodic ls num) substrate s =
  multilayer_efficiency wavelength (RtoC c0) (RtoC n0) (ASequence (list_times ls num)) substrate s.
Proof. intros. symmetry. exact (efficiency_sequence medium wavelength n0 c0 (APeriodic ls num) substrate s H H0). Qed.
Print Assumptions C33_ideal_partial.

Theorem C33_thickness : forall ls n, (0 <= n)%Z -> thickness (APeriodic ls n) = thickness (ASequence (list_times ls n)).
Proof. exact periodic_thickness. Qed.
Print Assumptions C33_thickness.

(** No periods at all: the index behind the sequence is that of the last layer, which is not there. *)
Theorem C33_refuted : exists wavelength s ls st,
  st_n (fst (transfer wavelength s (APeriodic ls 0) st)) <> st_n (fst (transfer wavelength s (ASequence (list_times ls 0)) st)).
Proof.
  exists 1%R, true, [ALayer glass], (LState 1 (Some (RtoC 1)) true). destruct periodic_zero_index as [A B]. rewrite A, B.
  intros E. apply RtoC_inj in E. lra.
Qed.
Print Assumptions C33_refuted.

Definition coating (n h : R) : layer := Layer (Some (fun _ => RtoC n)) h None.
Lemma coating_ideal : forall medium : C -> Prop, (forall n, lossless n -> medium n) ->
  ideal_stack medium 1 1 (3/5) (APeriodic [ALayer (coating 2 (1/7)); ALayer (coating 3 (1/5))] 4) (Some (coating 2 0)).
Proof.
  intros medium M. split; [lra|]. split; [lra|]. split; [lra|]. split; [cbn; split; [lia | auto]|].
  assert (X : forall n h, (1 < n)%R -> (0 <= h)%R -> medium (layer_n (coating n h) 1) /\ (0 <= ly_thickness (coating n h))%R /\ ly_interface (coating n h) = None /\
    off_critical (RtoC (1 ^ 2 * (1 - (3/5) ^ 2))) (layer_n (coating n h) 1)).
  { intros n h N H. split; [apply M; split; cbn; lra|]. split; [exact H|]. split; [reflexivity|].
    unfold off_critical. cbn [layer_n coating ly_chemical]. rewrite <- RtoC_mult. intros E. apply RtoC_inj in E. nra. }
  assert (S : substrate_layer (Some (coating 2 0)) = coating 2 0) by reflexivity. rewrite S.
  change (layers_of (APeriodic [ALayer (coating 2 (1/7)); ALayer (coating 3 (1/5))] 4)) with [coating 2 (1/7); coating 3 (1/5)].
  apply Forall_cons; [apply X; lra|]. apply Forall_cons; [apply X; lra|]. apply Forall_cons; [apply X; lra|]. apply Forall_nil.
Qed.

Example C33_nonvacuous : exists ls, ideal_stack lossless 1 1 (3/5) (APeriodic ls 4) (Some (coating 2 0)).
Proof. eexists. apply coating_ideal. auto. Qed.

(** ** C34 *)
(** Any stack of lossless media, also with evanescent waves in some of the layers. *)
Theorem C34_lossless : forall wavelength n0 c0 layers substrate s,
  ideal_stack lossless wavelength n0 c0 layers substrate ->
  exists r t, multilayer_efficiency wavelength (RtoC c0) (RtoC n0) layers substrate s = (Some r, Some t) /\
    (0 <= r)%R /\ (0 <= t)%R /\ (r + t = 1)%R.
Proof.
  intros wavelength n0 c0 layers substrate s H.
  destruct (ideal_efficiency lossless wavelength n0 c0 layers substrate s) as (r & t & E & A & B & _ & S); auto.
  - intros n [P Q]. split; [exact P | rewrite Q; lra].
  - exists r, t. auto.
Qed.
Print Assumptions C34_lossless.

Example C34_nonvacuous : exists layers, ideal_stack lossless 1 1 (3/5) layers (Some (coating 2 0)) /\ layers_of layers <> [].
Proof. eexists. split; [apply coating_ideal; auto | discriminate]. Qed.

(** ** C35 *)
Theorem C35_passive_partial : forall wavelength n0 c0 layers substrate s,
  ideal_stack passive wavelength n0 c0 layers substrate ->
  exists r t, multilayer_efficiency wavelength (RtoC c0) (RtoC n0) layers substrate s = (Some r, Some t) /\
    (0 <= r)%R /\ (0 <= t)%R /\ (r + t <= 1)%R.
Proof.
  intros wavelength n0 c0 layers substrate s H.
  destruct (ideal_efficiency passive wavelength n0 c0 layers substrate s) as (r & t & E & A & B & S & _); auto.
  exists r, t. auto.
Qed.
Print Assumptions C35_passive_partial.

Theorem C35_film_partial : forall layers wavelength index direction normal,
  ideal_stack passive wavelength index (- dot direction normal) layers None ->
  exists e, film_efficiency layers wavelength 0 index direction normal = Some e /\ (0 <= e <= 1)%R.
Proof. intros. apply (film_bounds passive); auto. Qed.
Print Assumptions C35_film_partial.

Theorem C35_mirror_partial : forall layers substrate wavelength index direction normal,
  ideal_stack passive wavelength index (- dot direction normal) layers substrate ->
  exists e, mirror_efficiency layers substrate wavelength 0 index direction normal = Some e /\ (0 <= e <= 1)%R.
Proof. intros. apply (mirror_bounds passive); auto. Qed.
Print Assumptions C35_mirror_partial.

Theorem C35_filter_partial : forall l oxide mesh wavelength index direction normal, (0 <= mesh <= 1)%R ->
  ideal_stack passive wavelength index (- dot direction normal) (ASequence [ALayer oxide; ALayer l; ALayer oxide]) None ->
  exists e, filter_efficiency l oxide mesh wavelength 0 index direction normal = Some e /\ (0 <= e <= 1)%R.
Proof. intros. apply (filter_bounds passive); auto. Qed.
Print Assumptions C35_filter_partial.

(** A rough interface of an absorbing film: it transmits more light than it receives. *)
Theorem C35_rough_refuted : exists l wavelength, (0 < wavelength)%R /\ passive (layer_n l wavelength) /\ (0 <= ly_thickness l)%R /\
  (exists width, 0 < width /\ ly_interface l = Some (Exponential width))%R /\
  exists e, film_efficiency (ASequence [ALayer l]) wavelength 0 1 (V3 0 0 1) (V3 0 0 (-1)) = Some e /\ (1 < e)%R.
Proof.
  exists rough_film, (4 * PI)%R. assert (P := PI_RGT_0). split; [lra|]. split; [split; cbn; lra|]. split; [cbn; lra|].
  split; [exists (sqrt 2); split; [apply sqrt_lt_R0; lra | reflexivity]|].
  exists (20 / 17)%R. split; [exact rough_film_transmits | lra].
Qed.
Print Assumptions C35_rough_refuted.

(** An absorbing ambient medium. *)
Theorem C35_ambient_refuted : exists wavelength n0 l r t, (0 < wavelength)%R /\ passive n0 /\ lossless (layer_n l wavelength) /\ ly_interface l = None /\
  multilayer_efficiency wavelength 1 n0 (ASequence [ALayer l]) None true = (Some r, Some t) /\ (1 < r + t)%R.
Proof.
  destruct absorbing_ambient as (r & t & E & S). exists 16%R, (1, 1)%R, glass, r, t.
  split; [lra|]. split; [split; cbn; lra|]. split; [split; cbn; lra|]. split; [reflexivity|]. split; [exact E | lra].
Qed.
Print Assumptions C35_ambient_refuted.

(** A ray that travels along the normal, not against it. *)
Theorem C35_normal_refuted : exists substrate direction normal e, lossless (layer_n substrate 1) /\ ly_interface substrate = None /\
  dot direction direction = 1%R /\ dot normal normal = 1%R /\
  mirror_efficiency (ASequence []) (Some substrate) 1 0 1 direction normal = Some e /\ (1 < e)%R.
Proof.
  exists glass, (V3 0 0 1), (V3 0 0 1), 9%R. split; [split; cbn; lra|]. split; [reflexivity|]. split; [unfold dot; cbn; ring|].
  split; [unfold dot; cbn; ring|]. split; [apply along_normal | lra].
Qed.
Print Assumptions C35_normal_refuted.

Example C35_nonvacuous : ideal_stack passive (2 * PI) 1 1 (ASequence dark_pair) None.
Proof.
  assert (P := PI_RGT_0). split; [lra|]. split; [lra|]. split; [lra|]. split; [cbn; auto|].
  assert (O : forall n : C, n <> 0 -> off_critical (RtoC (1 ^ 2 * (1 - 1 ^ 2))) n).
  { intros n N E. replace (1 ^ 2 * (1 - 1 ^ 2))%R with 0%R in E by ring. apply (Cmult_neq_0 n n N N). exact E. }
  assert (D : forall h, (0 <= h)%R -> passive (layer_n (dark h) (2 * PI)) /\ (0 <= ly_thickness (dark h))%R /\ ly_interface (dark h) = None /\
    off_critical (RtoC (1 ^ 2 * (1 - 1 ^ 2))) (layer_n (dark h) (2 * PI))).
  { intros h H. split; [split; cbn; lra|]. split; [exact H|]. split; [reflexivity | apply O, dark_n]. }
  change (layers_of (ASequence dark_pair)) with [dark 40; dark 1].
  apply Forall_cons; [|apply Forall_cons; [apply D; lra|]; apply Forall_cons; [apply D; lra | apply Forall_nil]].
  split; [split; cbn; lra|]. split; [cbn; lra|]. split; [reflexivity | apply O, C1_neq_0].
Qed.

(** ** C36 *)
(** The absorbances are real, non-negative and account for the lost energy; with a negative
    index the result is minus the sum of all the others. *)
Theorem C36_sum_partial : forall wavelength n0 c0 layers substrate s,
  ideal_stack passive wavelength n0 c0 layers substrate ->
  List.Forall (fun l => first_layer l <> None) (layer_sequence layers) ->
  List.Forall (transparent (RtoC (n0 ^ 2 * (1 - c0 ^ 2))) wavelength) (layers_of layers) ->
  let num := length (layer_sequence layers) in
  let absorbance i := layer_absorbance i wavelength (RtoC c0) (RtoC n0) layers substrate s in
  exists r t a, multilayer_efficiency wavelength (RtoC c0) (RtoC n0) layers substrate s = (Some r, Some t) /\
    (forall i, (i < num)%nat -> absorbance (Z.of_nat i) = Some (RtoC (a i)) /\ (0 <= a i)%R) /\
    (r + t + sum_first a num = 1)%R /\
    ((1 <= num)%nat -> absorbance (-1)%Z = Some (RtoC (- sum_first a (num - 1)))).
Proof. intros. apply (absorbance_all passive); auto. Qed.
Print Assumptions C36_sum_partial.

(** Below an opaque layer the light is counted again. *)
Theorem C36_opaque_refuted : exists wavelength layers r t a b,
  ideal_stack passive wavelength 1 1 (ASequence layers) None /\ length layers = 2%nat /\
  multilayer_efficiency wavelength (RtoC 1) (RtoC 1) (ASequence layers) None true = (Some r, Some t) /\
  layer_absorbance 0 wavelength (RtoC 1) (RtoC 1) (ASequence layers) None true = Some (RtoC a) /\
  layer_absorbance 1 wavelength (RtoC 1) (RtoC 1) (ASequence layers) None true = Some (RtoC b) /\
  (1 < r + t + (a + b))%R.
Proof.
  exists (2 * PI)%R, dark_pair, (1 / 5)%R, 0%R, (4 / 5)%R, (4 / 5)%R. split; [exact C35_nonvacuous|]. split; [reflexivity|].
  split; [exact dark_efficiency|]. split; [apply dark_absorbance; auto|]. split; [apply dark_absorbance; auto | lra].
Qed.
Print Assumptions C36_opaque_refuted.

(** The last layer and the layer with the index -1 have different absorbances. *)
Theorem C36_index_refuted : exists wavelength layers, length layers = 2%nat /\
  layer_absorbance (-1) wavelength (RtoC 1) (RtoC 1) (ASequence layers) None true <>
  layer_absorbance 1 wavelength (RtoC 1) (RtoC 1) (ASequence layers) None true.
Proof.
  exists (2 * PI)%R, dark_pair. split; [reflexivity|]. rewrite dark_absorbance_last, dark_absorbance by auto.
  intros E. assert (F : RtoC 0 = RtoC (4 / 5)) by congruence. apply RtoC_inj in F. lra.
Qed.
Print Assumptions C36_index_refuted.

Example C36_nonvacuous : exists layers, ideal_stack passive 1 1 (3/5) layers (Some (coating 2 0)) /\
  List.Forall (fun l => first_layer l <> None) (layer_sequence layers) /\ length (layer_sequence layers) = 8%nat /\
  List.Forall (transparent (RtoC (1 ^ 2 * (1 - (3/5) ^ 2))) 1) (layers_of layers).
Proof.
  exists (APeriodic [ALayer (coating 2 (1/7)); ALayer (coating 3 (1/5))] 4). split; [apply coating_ideal; intros n [A B]; split; lra|].
  split; [repeat constructor; discriminate|]. split; [reflexivity|].
  assert (X : forall n h, (1 < n)%R -> transparent (RtoC (1 ^ 2 * (1 - (3/5) ^ 2))) 1 (coating n h)).
  { intros n h N c E. cbn [layer_n coating ly_chemical ly_thickness] in *.
    assert (I0 : (Im c = 0)%R).
    { assert (EI := f_equal Im E). assert (ER := f_equal Re E). unfold RtoC in *. cbn in EI, ER. unfold Re, Im in *.
      assert (H : (n * n * (fst c * snd c) = 0)%R) by lra. apply Rmult_integral in H. destruct H as [H|H]; [nra|].
      apply Rmult_integral in H. destruct H as [H|H]; [|exact H]. exfalso. rewrite H in ER. nra. }
    replace (Im (RtoC n * c)) with 0%R by (cparts; cbn; rewrite I0; ring). rewrite Rmult_0_r, exp_0. lra. }
  change (layers_of (APeriodic [ALayer (coating 2 (1/7)); ALayer (coating 3 (1/5))] 4)) with [coating 2 (1/7); coating 3 (1/5)].
  apply Forall_cons; [apply X; lra|]. apply Forall_cons; [apply X; lra | apply Forall_nil].
Qed.

(** ** C70 *)
(** The efficiency of a coating depends on which way its normal points. *)
Theorem C70_refuted : exists substrate direction normal,
  mirror_efficiency (ASequence []) (Some substrate) 1 0 1 direction normal <>
  mirror_efficiency (ASequence []) (Some substrate) 1 0 1 direction (vopp normal).
Proof.
  exists glass, (V3 0 0 1), (V3 0 0 1). destruct along_normal as [A B]. rewrite A.
  replace (vopp (V3 0 0 1)) with (V3 0 0 (-1)) by (apply vec_eq; cbn; lra). rewrite B. intros E. injection E as E. lra.
Qed.
Print Assumptions C70_refuted.

(** What the sign does, for a stack whose first surface is smooth: the reflectivity of each
    polarization becomes its reciprocal, the transmissivity becomes negative. *)
Theorem C70_polarization_partial : forall w s attenuation index d normal layers substrate r t r' t', first_smooth layers substrate ->
  multilayer_efficiency w (ambient_direction d normal) (ambient_n w attenuation index) layers substrate s = (Some r, Some t) ->
  multilayer_efficiency w (ambient_direction d (vopp normal)) (ambient_n w attenuation index) layers substrate s = (Some r', Some t') ->
  (r * r' = 1 /\ t' = - (t * r'))%R.
Proof. exact polarization_opp. Qed.
Print Assumptions C70_polarization_partial.

(** So the efficiencies of a mirror for the two signs agree for a perfect mirror only. *)
Theorem C70_mirror_partial : forall w attenuation index d normal layers substrate e e', first_smooth layers substrate ->
  mirror_efficiency layers substrate w attenuation index d normal = Some e ->
  mirror_efficiency layers substrate w attenuation index d (vopp normal) = Some e' ->
  (0 < e /\ 1 <= e * e' /\ (e <= 1 -> e' = e -> e = 1))%R.
Proof. exact mirror_opp. Qed.
Print Assumptions C70_mirror_partial.

(** The index, cosine and opacity with which the light arrives in the substrate do not depend
    on the sign. *)
Theorem C70_inside_partial : forall w s c n layers substrate, first_smooth layers substrate ->
  fst (multilayer_matrix w (- c) n layers substrate s) = fst (multilayer_matrix w c n layers substrate s).
Proof. exact inside_opp. Qed.
Print Assumptions C70_inside_partial.

Example C70_nonvacuous : first_smooth (ASequence []) (Some glass) /\
  mirror_efficiency (ASequence []) (Some glass) 1 0 1 (V3 0 0 1) (V3 0 0 (-1)) = Some (/ 9)%R /\
  mirror_efficiency (ASequence []) (Some glass) 1 0 1 (V3 0 0 1) (vopp (V3 0 0 (-1))) = Some 9%R.
Proof.
  split; [reflexivity|]. split; [exact (proj2 along_normal)|].
  replace (vopp (V3 0 0 (-1))) with (V3 0 0 1) by (apply vec_eq; cbn; lra). exact (proj1 along_normal).
Qed.
