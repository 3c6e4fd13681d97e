(** The fit of a depletion region. *)
From Coq Require Import Reals Lra Psatz List Lia.
From Coquelicot Require Import Coquelicot.
From Verif Require Import Num NumLemmas ExtNum RamanathanModel QuantumModel ProfileModel GaussLemmas SensorSpec DepthProofs DiffusionModel DiffusionSpec DiffusionProofs
  TableModel ChemicalModel ChemicalSensorProofs FactoryModel FactoryProofs DepletionModel DepletionSpec.
Import ListNotations.
Open Scope R_scope.

(** ** A lower bound of the captured charge *)
Lemma root_2pi : 2 <= sqrt (2 * PI).
Proof.
  assert (H := PI2_3_2). replace 2 with (sqrt (2 * 2)) at 1 by (apply sqrt_square; lra). apply sqrt_le_1_alt. lra.
Qed.
Lemma centre_value y : 0 < y -> second_difference y 0 = 2 * (exp (- (y * y) / 2) - 1) / (y * sqrt (2 * PI)) + erf (y / sqrt 2).
Proof.
  intros Y. destruct root2 as [P S]. assert (Q := sqrt_PI_pos).
  unfold second_difference. replace (0 - 1) with (- (1)) by ring. replace (0 + 1) with 1 by ring. rewrite antikernel_even. unfold antikernel.
  rewrite !Rmult_0_r, !Rmult_1_r. replace (0 / 2) with 0 by field. rewrite exp_0, root2pi. field. lra.
Qed.
Lemma centre_slope x y : 0 < x -> x < y -> second_difference y 0 + 1 / y <= second_difference x 0 + 1 / x.
Proof.
  intros X Y. assert (Q := root_2pi).
  destruct (MVT_cor2 (fun x => second_difference x 0 - - (1 / x)) (fun x => 2 * (1 - exp (- (x * x) / 2)) / (x * x * sqrt (2 * PI)) - 1 / (x * x)) x y Y) as (c & E & C).
  { intros c C. apply derivable_pt_lim_minus; apply is_derive_Reals; [apply centre_derive; lra|]. auto_derive; [lra|]. field. lra. }
  assert (CC : 0 < c * c) by nra. assert (P := exp_pos (- (c * c) / 2)).
  assert (B : 2 * (1 - exp (- (c * c) / 2)) / (c * c * sqrt (2 * PI)) <= 1 / (c * c)).
  { apply (Rmult_le_reg_r (c * c * sqrt (2 * PI))); [nra|].
    replace (2 * (1 - exp (- (c * c) / 2)) / (c * c * sqrt (2 * PI)) * (c * c * sqrt (2 * PI))) with (2 * (1 - exp (- (c * c) / 2))) by (field; lra).
    replace (1 / (c * c) * (c * c * sqrt (2 * PI))) with (sqrt (2 * PI)) by (field; lra). lra. }
  assert ((2 * (1 - exp (- (c * c) / 2)) / (c * c * sqrt (2 * PI)) - 1 / (c * c)) * (y - x) <= 0) by nra. lra.
Qed.
Lemma centre_lower x : 0 < x -> 1 - 1 / x <= second_difference x 0.
Proof.
  intros X. assert (Q := root_2pi). destruct root2 as [P _]. apply Rnot_lt_le. intros L.
  set (eps := 1 - 1 / x - second_difference x 0) in *. assert (E : 0 < eps) by (unfold eps; lra).
  destruct (erf_limit eps E) as (Z & ZP & HZ). set (y := x + Z * sqrt 2).
  assert (Y : x < y) by (unfold y; nra).
  assert (S := centre_slope x y X Y). rewrite (centre_value y) in S by lra.
  assert (G : 1 - eps < erf (y / sqrt 2)).
  { apply HZ. unfold y. replace ((x + Z * sqrt 2) / sqrt 2) with (x / sqrt 2 + Z) by (field; lra).
    assert (0 < x / sqrt 2) by (apply Rdiv_lt_0_compat; lra). lra. }
  assert (D : - (1 / y) <= 2 * (exp (- (y * y) / 2) - 1) / (y * sqrt (2 * PI))).
  { assert (PE := exp_pos (- (y * y) / 2)). apply (Rmult_le_reg_r (y * sqrt (2 * PI))); [nra|].
    replace (2 * (exp (- (y * y) / 2) - 1) / (y * sqrt (2 * PI)) * (y * sqrt (2 * PI))) with (2 * (exp (- (y * y) / 2) - 1)) by (field; lra).
    replace (- (1 / y) * (y * sqrt (2 * PI))) with (- sqrt (2 * PI)) by (field; lra). lra. }
  unfold eps in G. lra.
Qed.
Lemma capture_lower w d c : 0 <= w <= d -> 0 < d -> mean_charge_capture w d = Fin c -> (1 - w / d) ^ 2 <= c.
Proof.
  intros W D H. destruct (Req_dec w 0) as [->|N].
  - rewrite capture_zero in H by exact D. injection H as <-. replace (0 / d) with 0 by (field; lra). lra.
  - rewrite capture_value in H by lra. assert (Ec : c = second_difference (d / w) 0 ^ 2) by congruence. rewrite Ec. apply pow_incr.
    assert (X : 0 < d / w) by (apply Rdiv_lt_0_compat; lra). assert (L := centre_lower (d / w) X).
    replace (1 / (d / w)) with (w / d) in L by (field; lra). split; [|exact L].
    assert (w / d <= 1); [|lra]. apply (Rmult_le_reg_r d); [exact D|]. replace (w / d * d) with w by (field; lra). lra.
Qed.
Lemma depletion_lower a s d wp c : 0 < a -> 0 < s -> 0 <= d <= s -> 0 < wp -> s - d <= wp -> depletion_capture a s d wp = Fin c ->
  (1 - (s - d) / wp) ^ 2 <= c.
Proof.
  intros A S D W L H. unfold depletion_capture in H. destruct (diffusion_range a s d A S D) as (w & E & B & _). rewrite E in H.
  apply capture_lower in H; [|lra|exact W]. apply Rle_trans with (2 := H). apply pow_incr.
  assert (I : 0 < / wp) by (apply Rinv_0_lt_compat; exact W). unfold Rdiv. split.
  - assert ((s - d) * / wp <= wp * / wp) by (apply Rmult_le_compat_r; lra). rewrite Rinv_r in H0 by lra. lra.
  - assert (w * / wp <= (s - d) * / wp) by (apply Rmult_le_compat_r; lra). lra.
Qed.

(** ** The objective *)
Definition captured (s wp d w : R) : R :=
  match depletion_capture (silicon_absorption_at w) s d wp with Fin c => c | _ => 0 end.
Definition deviation (s wp : R) (measured : list (R * R)) (d : R) : R :=
  rsum (map (fun m => (snd m - captured s wp d (fst m)) ^ 2) measured).
Definition residual (s wp : R) (measured : list (R * R)) (d : R) : R :=
  sqrt (deviation s wp measured d / INR (length measured)).
Lemma absorption_at w : 0 < w < 11199.6 -> absorption silicon_table w = Some (silicon_absorption_at w) /\ 0 < silicon_absorption_at w.
Proof.
  intros [H0 H1]. destruct (silicon_absorption w H0 H1) as (a & E & A). unfold silicon_absorption_at. rewrite E. auto.
Qed.
Lemma captured_value s wp d w : 0 < s -> 0 < wp -> 0 <= d <= s -> 0 < w < 11199.6 ->
  depletion_capture (silicon_absorption_at w) s d wp = Fin (captured s wp d w).
Proof.
  intros S W D H. destruct (absorption_at w H) as [_ A]. destruct (depletion_value _ s d wp A S D W) as (c & E & _).
  unfold captured. rewrite E. reflexivity.
Qed.
Lemma captured_increasing s wp d e w : 0 < s -> 0 < wp -> 0 <= d < e -> e <= s -> 0 < w < 11199.6 ->
  captured s wp d w < captured s wp e w.
Proof.
  intros S W D E H. destruct (absorption_at w H) as [_ A].
  apply (depletion_increasing (silicon_absorption_at w) s d e wp); auto; apply captured_value; auto; lra.
Qed.
Lemma deviation_nonneg s wp measured d : 0 <= deviation s wp measured d.
Proof.
  unfold deviation. induction measured as [|m l IH]; [cbn; lra|].
  change (0 <= (snd m - captured s wp d (fst m)) ^ 2 + rsum (map (fun m => (snd m - captured s wp d (fst m)) ^ 2) l)).
  assert (Q := pow2_ge_0 (snd m - captured s wp d (fst m))). lra.
Qed.
Lemma length_pos {A} (l : list A) : l <> [] -> 0 < INR (length l).
Proof. intros N. apply lt_0_INR. destruct l; [contradiction|cbn; lia]. Qed.
Lemma mcc_objective_value s wp measured x : 0 < s -> 0 < wp -> absorbed_light measured -> 0 <= x * micrometer <= s ->
  mcc_objective s wp measured x = Fin (residual s wp measured (x * micrometer)).
Proof.
  intros S W [N H] D. unfold mcc_objective, fit_objective. cbv zeta. rewrite map_map, map_length. cbn [fst snd].
  rewrite (esum_fin _ (fun m => (snd m - captured s wp (x * micrometer) (fst m)) ^ 2)).
  - fold (deviation s wp measured (x * micrometer)). assert (L := length_pos measured N).
    cbn [ediv]. destruct (Req_EM_T (INR (length measured)) 0); [lra|]. cbn [esqrt].
    assert (0 <= deviation s wp measured (x * micrometer) / INR (length measured)).
    { apply Rmult_le_pos; [apply deviation_nonneg|left; apply Rinv_0_lt_compat; exact L]. }
    destruct (Rle_dec 0 _); [reflexivity|contradiction].
  - intros m I. rewrite (captured_value s wp _ (fst m)) by (auto; apply H; exact I). cbn. f_equal. ring.
Qed.
Lemma residual_sq s wp measured d r : measured <> [] -> 0 <= r ->
  r ^ 2 * INR (length measured) = deviation s wp measured d <-> r = residual s wp measured d.
Proof.
  intros N R0. assert (L := length_pos measured N). unfold residual.
  assert (P : 0 <= deviation s wp measured d / INR (length measured)) by (apply Rmult_le_pos; [apply deviation_nonneg|left; apply Rinv_0_lt_compat; exact L]).
  split; intros H.
  - rewrite <- H. replace (r ^ 2 * INR (length measured) / INR (length measured)) with (r * r) by (field; lra).
    symmetry. apply sqrt_square, R0.
  - rewrite H, pow2_sqrt by exact P. field. lra.
Qed.
Lemma predicted_list s wp d (measured : list (R * R)) : 0 < s -> 0 < wp -> 0 <= d <= s -> (forall m, In m measured -> 0 < fst m < 11199.6) -> forall predicted,
  List.Forall2 (fun m c => exists a, absorption silicon_table (fst m) = Some a /\ depletion_capture a s d wp = Fin c) measured predicted <->
  predicted = map (fun m => captured s wp d (fst m)) measured.
Proof.
  intros S W D. induction measured as [|m l IH]; intros H predicted.
  - split; intros E; [inversion E; reflexivity|subst; constructor].
  - assert (Hm : 0 < fst m < 11199.6) by (apply H; left; reflexivity). destruct (absorption_at _ Hm) as [Ea _].
    assert (V := captured_value s wp d (fst m) S W D Hm).
    split; intros E.
    + inversion E as [|m' c l' p' (a & E1 & E2) E3]; subst. cbn [map]. rewrite Ea in E1. injection E1 as <-. rewrite V in E2. injection E2 as <-.
      f_equal. apply IH; auto. intros; apply H; right; auto.
    + subst. cbn [map]. constructor; [eauto|]. apply IH; auto. intros; apply H; right; auto.
Qed.
Lemma combine_map {A B} (f : A -> B) l : combine l (map f l) = map (fun x => (x, f x)) l.
Proof. induction l; cbn; congruence. Qed.
Lemma residual_iff s wp measured d r : 0 < s -> 0 < wp -> absorbed_light measured -> 0 <= d <= s ->
  is_mcc_residual s wp measured d r <-> r = residual s wp measured d.
Proof.
  intros S W [N H] D. assert (PL := predicted_list s wp d measured S W D H). split.
  - intros (p & F & _ & R0 & E). apply PL in F. subst p. rewrite combine_map, map_map in E. cbn [fst snd] in E.
    apply residual_sq; auto.
  - intros E. assert (R0 : 0 <= r) by (rewrite E; apply sqrt_pos).
    exists (map (fun m => captured s wp d (fst m)) measured). split; [apply PL; reflexivity|]. split; [auto|]. split; [auto|].
    rewrite combine_map, map_map. cbn [fst snd]. apply residual_sq; auto.
Qed.
Lemma deviation_lt s wp d e : forall measured, measured <> [] ->
  (forall m, In m measured -> (snd m - captured s wp d (fst m)) ^ 2 < (snd m - captured s wp e (fst m)) ^ 2) ->
  deviation s wp measured d < deviation s wp measured e.
Proof.
  unfold deviation. induction measured as [|m l IH]; intros N H; [contradiction|]. cbn [map]. 
  assert (Hm := H m (or_introl eq_refl)). unfold rsum in *. cbn [fold_right]. destruct l as [|m' l]; [cbn; lra|].
  assert (I := IH ltac:(discriminate) (fun x i => H x (or_intror i))). lra.
Qed.
Lemma residual_lt s wp measured d e : measured <> [] -> deviation s wp measured d < deviation s wp measured e ->
  residual s wp measured d < residual s wp measured e.
Proof.
  intros N H. assert (L := length_pos measured N). unfold residual. apply sqrt_lt_1_alt. split.
  - apply Rmult_le_pos; [apply deviation_nonneg|left; apply Rinv_0_lt_compat; exact L].
  - apply Rmult_lt_compat_r; [apply Rinv_0_lt_compat; exact L|exact H].
Qed.
(** Beyond a thickness at which all predictions are too large it gets worse, and before one where all are too small. *)
Lemma residual_above s wp measured d e : 0 < s -> 0 < wp -> absorbed_light measured -> 0 <= d < e -> e <= s ->
  (forall m, In m measured -> snd m <= captured s wp d (fst m)) -> residual s wp measured d < residual s wp measured e.
Proof.
  intros S W [N H] D E Hm. apply residual_lt; [exact N|]. apply deviation_lt; [exact N|]. intros m I.
  assert (L := captured_increasing s wp d e (fst m) S W D E (H m I)). assert (B := Hm m I). nra.
Qed.
Lemma residual_below s wp measured d e : 0 < s -> 0 < wp -> absorbed_light measured -> 0 <= d < e -> e <= s ->
  (forall m, In m measured -> captured s wp e (fst m) <= snd m) -> residual s wp measured e < residual s wp measured d.
Proof.
  intros S W [N H] D E Hm. apply residual_lt; [exact N|]. apply deviation_lt; [exact N|]. intros m I.
  assert (L := captured_increasing s wp d e (fst m) S W D E (H m I)). assert (B := Hm m I). nra.
Qed.
Lemma best_iff s wp measured d : 0 < s -> 0 < wp -> absorbed_light measured ->
  best_depletion s wp measured d <-> 0 <= d <= s /\ forall e, 0 <= e <= s -> residual s wp measured d <= residual s wp measured e.
Proof.
  intros S W A. unfold best_depletion. split.
  - intros (D & r & Hr & M). split; [exact D|]. intros e E. apply residual_iff in Hr; auto. subst r. apply (M e); auto. apply residual_iff; auto.
  - intros (D & M). split; [exact D|]. exists (residual s wp measured d). split; [apply residual_iff; auto|].
    intros e q E Hq. apply residual_iff in Hq; auto. subst q. auto.
Qed.
Lemma best_bracket s wp measured d : 0 < s -> 0 < wp -> absorbed_light measured -> best_depletion s wp measured d ->
  (forall e, 0 <= e <= s -> (forall m a, In m measured -> absorption silicon_table (fst m) = Some a ->
     exists c, depletion_capture a s e wp = Fin c /\ snd m <= c) -> d <= e) /\
  (forall e, 0 <= e <= s -> (forall m a, In m measured -> absorption silicon_table (fst m) = Some a ->
     exists c, depletion_capture a s e wp = Fin c /\ c <= snd m) -> e <= d).
Proof.
  intros S W A B. apply best_iff in B as [D M]; auto.
  assert (G : forall e m, 0 <= e <= s -> In m measured -> absorption silicon_table (fst m) = Some (silicon_absorption_at (fst m)) /\
    depletion_capture (silicon_absorption_at (fst m)) s e wp = Fin (captured s wp e (fst m))).
  { intros e m E I. destruct A as [_ A]. destruct (absorption_at _ (A m I)) as [Q _]. split; [exact Q|]. apply captured_value; auto. }
  split; intros e E H; apply Rnot_lt_le; intros L.
  - assert (X : residual s wp measured e < residual s wp measured d); [|assert (Y := M e E); lra].
    apply residual_above; auto; try lra. intros m I. destruct (G e m E I) as [Q1 Q2].
    destruct (H m _ I Q1) as (c & Ec & Hc). rewrite Q2 in Ec. injection Ec as <-. exact Hc.
  - assert (X : residual s wp measured e < residual s wp measured d); [|assert (Y := M e E); lra].
    apply residual_below; auto; try lra. intros m I. destruct (G e m E I) as [Q1 Q2].
    destruct (H m _ I Q1) as (c & Ec & Hc). rewrite Q2 in Ec. injection Ec as <-. exact Hc.
Qed.
Lemma best_upper s wp measured d f : 0 < s -> 0 < wp -> absorbed_light measured -> best_depletion s wp measured d ->
  0 <= f <= s -> f <= wp -> (forall m, In m measured -> snd m <= (1 - f / wp) ^ 2) -> d <= s - f.
Proof.
  intros S W A B F FW H. destruct (best_bracket s wp measured d S W A B) as [U _]. apply U; [lra|].
  intros m a I Ea. destruct A as [_ A]. destruct (absorption_at _ (A m I)) as [Q P]. rewrite Q in Ea. injection Ea as <-.
  destruct (depletion_value _ s (s - f) wp P S ltac:(lra) W) as (c & Ec & _). exists c. split; [exact Ec|].
  apply Rle_trans with (1 := H m I). replace f with (s - (s - f)) at 1 by ring.
  apply (depletion_lower (silicon_absorption_at (fst m))); auto; lra.
Qed.

(** ** There is a best thickness *)
Definition capture_of (wp w : R) : R := if Rle_dec w 0 then 1 else second_difference (wp / w) 0 ^ 2.
Lemma captured_of s wp d w : 0 < s -> 0 < wp -> 0 <= d <= s -> 0 < w < 11199.6 ->
  captured s wp d w = capture_of wp (sqrt (spread_of (silicon_absorption_at w) s (s - d))).
Proof.
  intros S W D H. assert (V := captured_value s wp d w S W D H). destruct (absorption_at w H) as [_ A].
  unfold depletion_capture in V. rewrite charge_diffusion_value in V by auto. unfold capture_of.
  set (v := sqrt _) in *. assert (V0 : 0 <= v) by apply sqrt_pos. destruct (Rle_dec v 0) as [L|L].
  - replace v with 0 in V by lra. rewrite capture_zero in V by exact W. congruence.
  - rewrite capture_value in V by lra. congruence.
Qed.
Lemma capture_of_continuous wp w : 0 < wp -> continuous (capture_of wp) w.
Proof.
  intros W. destruct (Rtotal_order w 0) as [L|[->|L]].
  - apply continuous_ext_loc with (fun _ => 1); [|apply continuous_const].
    exists (mkposreal (- w) ltac:(lra)). intros y B. apply Rabs_def2 in B. unfold minus, plus, opp in B. cbn in B.
    unfold capture_of. destruct (Rle_dec y 0); [reflexivity|lra].
  - apply continuity_pt_filterlim. intros eps E. exists (Rmin wp (eps * wp / 2)).
    assert (P : 0 < eps * wp / 2) by (apply Rmult_lt_0_compat; [apply Rmult_lt_0_compat; lra|lra]).
    split; [apply Rmin_pos; lra|]. intros x [_ B]. cbn in *. unfold R_dist in *. rewrite Rminus_0_r in B.
    assert (B1 := Rlt_le_trans _ _ _ B (Rmin_l _ _)). assert (B2 := Rlt_le_trans _ _ _ B (Rmin_r _ _)). clear B.
    unfold capture_of. destruct (Rle_dec 0 0) as [_|N]; [|lra]. destruct (Rle_dec x 0) as [N|N]; [rewrite Rminus_eq_0, Rabs_R0; lra|].
    apply Rnot_le_lt in N. rewrite Rabs_right in B1, B2 by lra.
    assert (C := capture_lower x wp (second_difference (wp / x) 0 ^ 2) ltac:(lra) W (capture_value x wp N W)).
    assert (X : 0 < wp / x) by (apply Rdiv_lt_0_compat; lra). assert (U := second_centre (wp / x) X).
    set (v := second_difference (wp / x) 0) in *. set (q := x / wp) in *.
    assert (Q : 0 < q) by (apply Rdiv_lt_0_compat; lra).
    assert (Q2 : q < eps / 2) by (unfold q; apply (Rmult_lt_reg_r wp); [exact W|]; replace (x / wp * wp) with x by (field; lra); lra).
    apply Rabs_def1; nra.
  - apply continuous_ext_loc with (fun w => second_difference (wp / w) 0 ^ 2).
    + exists (mkposreal w L). intros y B. apply Rabs_def2 in B. unfold minus, plus, opp in B. cbn in B.
      unfold capture_of. destruct (Rle_dec y 0); [lra|reflexivity].
    + assert (X : 0 < wp / w) by (apply Rdiv_lt_0_compat; lra).
      assert (C1 : continuous (fun w => wp / w) w) by (apply @ex_derive_continuous; auto_derive; lra).
      assert (C2 : continuous (fun x => second_difference x 0 ^ 2) (wp / w)).
      { apply @ex_derive_continuous. apply ex_derive_pow. eexists. apply centre_derive. exact X. }
      exact (continuous_comp (fun w => wp / w) (fun x => second_difference x 0 ^ 2) w C1 C2).
Qed.
Definition clamp (s d : R) : R := Rmax 0 (Rmin d s).
Lemma clamp_range s d : 0 <= s -> 0 <= clamp s d <= s.
Proof. intros S. unfold clamp, Rmax, Rmin. destruct (Rle_dec d s), (Rle_dec 0 _); lra. Qed.
Lemma clamp_id s d : 0 <= d <= s -> clamp s d = d.
Proof. intros S. unfold clamp, Rmax, Rmin. destruct (Rle_dec d s), (Rle_dec 0 _); lra. Qed.
Lemma clamp_continuous s d : 0 <= s -> continuous (clamp s) d.
Proof.
  intros S. apply continuity_pt_filterlim. intros eps E. exists eps. split; [exact E|]. intros x [_ B]. cbn in *. unfold R_dist in *.
  apply Rle_lt_trans with (2 := B). unfold clamp, Rmin. destruct (Rle_dec x s), (Rle_dec d s); unfold Rmax, Rabs;
  repeat match goal with |- context [Rle_dec ?a ?b] => destruct (Rle_dec a b) end;
  repeat match goal with |- context [Rcase_abs ?a] => destruct (Rcase_abs a) end; lra.
Qed.
Lemma captured_continuous s wp w d : 0 < s -> 0 < wp -> 0 < w < 11199.6 -> continuous (fun d => captured s wp (clamp s d) w) d.
Proof.
  intros S W H. destruct (absorption_at w H) as [_ A].
  apply continuous_ext with (fun d => capture_of wp (sqrt (spread_of (silicon_absorption_at w) s (s - clamp s d)))).
  { intros y. symmetry. apply captured_of; auto. apply clamp_range. lra. }
  assert (X := absorbed_pos (silicon_absorption_at w) s A S).
  refine (continuous_comp (fun d => sqrt (spread_of (silicon_absorption_at w) s (s - clamp s d))) (capture_of wp) d _ (capture_of_continuous _ _ W)).
  refine (continuous_comp (fun d => spread_of (silicon_absorption_at w) s (s - clamp s d)) sqrt d _ (continuous_sqrt _)).
  refine (continuous_comp (clamp s) (fun y => spread_of (silicon_absorption_at w) s (s - y)) d (clamp_continuous s d ltac:(lra)) _).
  apply @ex_derive_continuous. unfold spread_of. auto_derive. nra.
Qed.
Lemma deviation_continuous s wp d : 0 < s -> 0 < wp -> forall measured, (forall m, In m measured -> 0 < fst m < 11199.6) ->
  continuous (fun d => deviation s wp measured (clamp s d)) d.
Proof.
  intros S W. unfold deviation. induction measured as [|m l IH]; intros H.
  - cbn. apply continuous_const.
  - cbn [map]. unfold rsum. cbn [fold_right].
    apply (continuous_plus (fun d => (snd m - captured s wp (clamp s d) (fst m)) ^ 2) (fun d => rsum (map (fun m => (snd m - captured s wp (clamp s d) (fst m)) ^ 2) l))).
    + assert (C := captured_continuous s wp (fst m) d S W (H m (or_introl eq_refl))).
      refine (continuous_comp (fun d => captured s wp (clamp s d) (fst m)) (fun y => (snd m - y) ^ 2) d C _).
      apply @ex_derive_continuous. auto_derive. exact I.
    + apply IH. intros; apply H; right; assumption.
Qed.
Lemma best_exists s wp measured : 0 < s -> 0 < wp -> absorbed_light measured -> exists d, best_depletion s wp measured d.
Proof.
  intros S W A. destruct (continuity_ab_min (fun d => deviation s wp measured (clamp s d)) 0 s ltac:(lra)) as (d & M & D).
  - intros c _. apply continuity_pt_filterlim. apply deviation_continuous; auto. apply A.
  - exists d. apply best_iff; auto. split; [exact D|]. intros e E. assert (X := M e E). cbn beta in X. rewrite !clamp_id in X by auto.
    assert (L := length_pos measured (proj1 A)). unfold residual. apply sqrt_le_1_alt. apply Rmult_le_compat_r; [left; apply Rinv_0_lt_compat; exact L|exact X].
Qed.

(** ** The fit *)
Lemma micrometer_pos : 0 < micrometer.
Proof. unfold micrometer. lra. Qed.
Lemma fit_mcc_best minimize s wp measured : 0 < s -> 0 < wp -> absorbed_light measured ->
  finds_least minimize (mcc_objective s wp measured) 0 (s / micrometer) ->
  best_depletion s wp measured (dm_thickness (fit_mcc minimize s wp measured)).
Proof.
  intros S W A [D (v & V & M)]. unfold fit_mcc; cbv zeta; cbn [dm_thickness]. set (x := minimize _ _ _) in *.
  assert (P := micrometer_pos).
  assert (G : forall y, 0 <= y <= s / micrometer -> 0 <= y * micrometer <= s).
  { intros y Y. split; [nra|]. assert (y * micrometer <= s / micrometer * micrometer) by (apply Rmult_le_compat_r; lra).
    replace (s / micrometer * micrometer) with s in H by (field; lra). exact H. }
  apply best_iff; auto. split; [apply G, D|]. intros e E.
  assert (Y : 0 <= e / micrometer <= s / micrometer).
  { assert (I : 0 < / micrometer) by (apply Rinv_0_lt_compat; exact P). unfold Rdiv. split; [nra|]. apply Rmult_le_compat_r; lra. }
  destruct (M _ Y) as (u & U & L). rewrite mcc_objective_value in U, V by (auto; apply G; auto).
  injection U as <-. injection V as <-. replace (e / micrometer * micrometer) with e in L by (field; lra). exact L.
Qed.
Lemma fit_mcc_model minimize s wp measured : 0 < s -> 0 < wp -> absorbed_light measured ->
  finds_least minimize (mcc_objective s wp measured) 0 (s / micrometer) ->
  best_depletion s wp measured (dm_thickness (fit_mcc minimize s wp measured)) /\
  dm_substrate (fit_mcc minimize s wp measured) = s /\ dm_pixel (fit_mcc minimize s wp measured) = wp.
Proof. intros S W A F. split; [apply fit_mcc_best; auto|split; reflexivity]. Qed.
Lemma finds_of_best s wp measured d : 0 < s -> 0 < wp -> absorbed_light measured -> best_depletion s wp measured d -> forall minimize,
  minimize (mcc_objective s wp measured) 0 (s / micrometer) = d / micrometer -> finds_least minimize (mcc_objective s wp measured) 0 (s / micrometer).
Proof.
  intros S W A B minimize E. apply best_iff in B as [D M]; auto. assert (P := micrometer_pos). unfold finds_least. cbv zeta. rewrite E.
  assert (I : 0 < / micrometer) by (apply Rinv_0_lt_compat; exact P).
  assert (G : forall y, 0 <= y <= s / micrometer -> 0 <= y * micrometer <= s).
  { intros y Y. split; [nra|]. assert (y * micrometer <= s / micrometer * micrometer) by (apply Rmult_le_compat_r; lra).
    replace (s / micrometer * micrometer) with s in H by (field; lra). exact H. }
  assert (T : d / micrometer * micrometer = d) by (field; lra).
  split; [unfold Rdiv; split; [nra|apply Rmult_le_compat_r; lra]|].
  exists (residual s wp measured d). split; [rewrite mcc_objective_value by (auto; lra); rewrite T; reflexivity|].
  intros y Y. exists (residual s wp measured (y * micrometer)). split; [apply mcc_objective_value; auto|]. apply M, G, Y.
Qed.

Lemma data_absorbed data : data <> [] -> (forall p, In p data -> 0.9 < fst p < 6) -> absorbed_light (measured_at data).
Proof.
  intros N H. unfold measured_at. split; [destruct data; [contradiction|discriminate]|]. intros m I. apply in_map_iff in I as (p & <- & I).
  assert (B := H p I). cbn [fst]. unfold hc. split; [apply Rdiv_lt_0_compat; lra|].
  apply (Rmult_lt_reg_r (1000 * fst p)); [lra|]. replace (12398.419843320026 / (1000 * fst p) * (1000 * fst p)) with 12398.419843320026 by (field; lra). nra.
Qed.
Lemma thick_absorbed : absorbed_light (measured_at thick_data).
Proof. apply data_absorbed; [discriminate|]. intros p I. cbn in I. intuition subst; cbn; lra. Qed.
Lemma thin_absorbed : absorbed_light (measured_at thin_data).
Proof. apply data_absorbed; [discriminate|]. intros p I. cbn in I. intuition subst; cbn; lra. Qed.
Lemma thick_upper minimize : finds_least minimize (mcc_objective (15 * micrometer) (16 * micrometer) (measured_at thick_data)) 0 (15 * micrometer / micrometer) ->
  0 <= dm_thickness (e2v_ccd64_thick minimize) <= 12.1 * micrometer.
Proof.
  intros F. assert (P := micrometer_pos). assert (B := fit_mcc_best minimize (15 * micrometer) (16 * micrometer) _ ltac:(lra) ltac:(lra) thick_absorbed F).
  split; [apply B|].
  assert (U := best_upper (15 * micrometer) (16 * micrometer) _ _ (2.9 * micrometer) ltac:(lra) ltac:(lra) thick_absorbed B ltac:(lra) ltac:(lra)).
  assert (X : 15 * micrometer - 2.9 * micrometer = 12.1 * micrometer) by lra. rewrite X in U. apply U.
  replace (2.9 * micrometer / (16 * micrometer)) with (2.9 / 16) by (field; lra).
  intros m I. unfold measured_at in I. apply in_map_iff in I as (p & <- & I). cbn in I. cbn [snd]. intuition subst; cbn; lra.
Qed.
Lemma thin_upper minimize : finds_least minimize (mcc_objective (8 * micrometer) (16 * micrometer) (measured_at thin_data)) 0 (8 * micrometer / micrometer) ->
  0 <= dm_thickness (e2v_ccd64_thin minimize) <= 6.2 * micrometer.
Proof.
  intros F. assert (P := micrometer_pos). assert (B := fit_mcc_best minimize (8 * micrometer) (16 * micrometer) _ ltac:(lra) ltac:(lra) thin_absorbed F).
  split; [apply B|].
  assert (U := best_upper (8 * micrometer) (16 * micrometer) _ _ (1.8 * micrometer) ltac:(lra) ltac:(lra) thin_absorbed B ltac:(lra) ltac:(lra)).
  assert (X : 8 * micrometer - 1.8 * micrometer = 6.2 * micrometer) by lra. rewrite X in U. apply U.
  replace (1.8 * micrometer / (16 * micrometer)) with (1.8 / 16) by (field; lra).
  intros m I. unfold measured_at in I. apply in_map_iff in I as (p & <- & I). cbn in I. cbn [snd]. intuition subst; cbn; lra.
Qed.
Lemma shipped_width ms minimize measured w : 
  finds_least ms (mcc_objective (15 * micrometer) (16 * micrometer) (measured_at thick_data)) 0 (15 * micrometer / micrometer) ->
  finds_least ms (mcc_objective (8 * micrometer) (16 * micrometer) (measured_at thin_data)) 0 (8 * micrometer / micrometer) ->
  0 < w < 11199.6 -> forall maker depletion, In (maker, depletion) (shipped_makers ms) ->
  exists v, sensor_width (p_result (maker minimize depletion measured)) w = Returns (Some v) /\ 0 < v.
Proof.
  intros F1 F2 W maker depletion I. assert (T1 := thick_upper ms F1). assert (T2 := thin_upper ms F2).
  assert (E : exists h, p_result (maker minimize depletion measured) = fit_eqe minimize h depletion measured 300 /\ 0 <= dm_thickness depletion < h).
  { unfold micrometer in *. cbn in I. destruct I as [I|[I|[I|[]]]]; injection I as <- <-.
    - exists 140000. split; [reflexivity|lra].
    - exists 160000. split; [reflexivity|lra].
    - exists 70000. split; [reflexivity|lra]. }
  destruct E as (h & E & D). rewrite E.
  destruct (silicon_absorption w (proj1 W) (proj2 W)) as (a & Ea & A).
  destruct (fitted_width minimize h depletion measured 300 w ltac:(lra) ltac:(lra) (proj1 W) (proj2 W)) as (a' & v & Ea' & _ & Ev & V & _).
  exists v. split; [exact Ev|].
  destruct (diffusion_range a h (dm_thickness depletion) A ltac:(lra) ltac:(lra)) as (v' & Ev' & V' & Z).
  assert (v = v').
  { revert Ev. unfold sensor_width, fit_eqe. destruct (minimize _ _) as [[[o i] r] e]. unfold with_depletion; cbn [sm_depletion sm_detector dt_substrate].
    unfold width_charge_diffusion. rewrite Ea. cbn [obind]. rewrite Ev'. congruence. }
  subst v'. destruct (Req_dec v 0) as [->|N]; [|lra]. exfalso. assert (X := proj1 Z eq_refl). lra.
Qed.
Lemma shipped_minimiser : exists ms,
  finds_least ms (mcc_objective (15 * micrometer) (16 * micrometer) (measured_at thick_data)) 0 (15 * micrometer / micrometer) /\
  finds_least ms (mcc_objective (8 * micrometer) (16 * micrometer) (measured_at thin_data)) 0 (8 * micrometer / micrometer).
Proof.
  assert (P := micrometer_pos).
  destruct (best_exists (15 * micrometer) (16 * micrometer) _ ltac:(lra) ltac:(lra) thick_absorbed) as (d & D).
  destruct (best_exists (8 * micrometer) (16 * micrometer) _ ltac:(lra) ltac:(lra) thin_absorbed) as (e & E).
  exists (fun _ _ hi => if Rlt_dec hi 10 then e / micrometer else d / micrometer).
  assert (X1 : 15 * micrometer / micrometer = 15) by (field; lra). assert (X2 : 8 * micrometer / micrometer = 8) by (field; lra).
  split; [eapply finds_of_best; eauto; try lra; [apply thick_absorbed|]|eapply finds_of_best; eauto; try lra; [apply thin_absorbed|]].
  - rewrite X1. destruct (Rlt_dec 15 10); [lra|reflexivity].
  - rewrite X2. destruct (Rlt_dec 8 10); [reflexivity|lra].
Qed.
