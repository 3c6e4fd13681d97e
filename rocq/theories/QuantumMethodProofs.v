(** The methods of a sensor material, and the function that is minimised by its fit. *)
From Coq Require Import Reals List Bool Lra Lia.
From Coquelicot Require Import Coquelicot.
From Verif Require Import Vec VecLemmas Num NumLemmas RayModel ComplexModel LayerModel LayerSpec RamanathanModel SensorModel SensorSpec
  SensorProofs SensorStatProofs SensorCollectProofs QuantumModel QuantumSpec QuantumProofs.
Import ListNotations.
Open Scope R_scope.
Open Scope opt_scope.

Lemma incidence_arrives : forall d u c, arrives d u c -> incidence d u = RtoC c.
Proof.
  intros [d|] [u|] c H; cbn in H; subst c; unfold incidence, ambient_direction; f_equal; unfold dot, vopp; cbn; ring.
Qed.

Lemma method_arguments : forall q w d u n c s, arrives d u c ->
  material_transmittance q w d n u s = transmittance q w (RtoC c) n s /\
  material_absorbance q w d n u s = absorbance BeerLambert q w (RtoC c) n s /\
  material_eqe q w d n u = quantum_efficiency_effective q w (RtoC c) n.
Proof.
  intros q w d u n c s H. apply incidence_arrives in H. unfold material_transmittance, material_absorbance, material_eqe.
  rewrite H. auto.
Qed.

Section Method.
Variables (q : detector) (w n0 c0 a : R) (d u : option vec3).
Hypothesis S : smooth_sensor q w n0 c0.
Hypothesis A : is_attenuation (dt_n_substrate q w) w n0 c0 a.
Hypothesis A0 : 0 < a.
Hypothesis I0 : 0 < dt_implant q.
Hypothesis E : 0 <= dt_eta0 q <= 1.
Hypothesis D : arrives d u c0.

Lemma method_cce_value : material_cce q w d (RtoC n0) u = Some (cce (a * dt_implant q) (dt_eta0 q)).
Proof.
  assert (P : 0 < a * dt_implant q) by (apply Rmult_lt_0_compat; assumption).
  assert (AV := QuantumProofs.absorption_value q w n0 c0 S). rewrite (attenuation_unique _ _ _ _ _ _ (alpha_attenuation q w n0 c0 S) A) in AV.
  unfold material_cce. cbv zeta. rewrite (incidence_arrives _ _ _ D), (snell_substrate q w n0 c0 S). cbn [obind]. rewrite AV. cbn [obind].
  apply cce_value. lra.
Qed.

Lemma method_cce : exists c, material_cce q w d (RtoC n0) u = Some c /\
  is_depth_mean a (differential_efficiency (dt_eta0 q) (dt_implant q)) c /\ dt_eta0 q <= c <= 1.
Proof.
  exists (cce (a * dt_implant q) (dt_eta0 q)). split; [exact method_cce_value|]. split; [apply cce_depth_mean; assumption|].
  apply cce_bounds; [apply Rmult_lt_0_compat; assumption|exact E].
Qed.

Lemma method_quantum : forall tb y, quantum_yield_ideal tb w (dt_temperature q) = Some y ->
  exists xs xp c, material_absorbance q w d (RtoC n0) u true = Some xs /\ material_absorbance q w d (RtoC n0) u false = Some xp /\
    is_depth_mean a (differential_efficiency (dt_eta0 q) (dt_implant q)) c /\
    quantum_efficiency tb q w d (RtoC n0) u = Some (y * ((xs + xp) / 2 * c)).
Proof.
  intros tb y Y. destruct (eqe_value q w n0 c0 a S A A0 I0 E) as (xs & xp & c & X1 & X2 & M & V & _).
  exists xs, xp, c. unfold material_absorbance, quantum_efficiency, material_eqe. rewrite (incidence_arrives _ _ _ D), Y, V. cbn [obind].
  repeat split; auto; apply M.
Qed.
End Method.

Lemma method_probability : forall tb q w c0 a d u y, smooth_sensor q w 1 c0 -> is_attenuation (dt_n_substrate q w) w 1 c0 a -> 0 < a ->
  0 < dt_implant q -> 0 <= dt_eta0 q <= 1 -> arrives d u c0 -> quantum_yield_ideal tb w (dt_temperature q) = Some y -> 0 <= y ->
  exists c p, is_depth_mean a (differential_efficiency (dt_eta0 q) (dt_implant q)) c /\
    material_probability tb q w d u = Some p /\ 0 <= p <= 1 /\ (y = 1 -> p = c) /\ (1 <= y -> c <= p) /\
    (forall n, y = INR n -> p = 1 - (1 - c) ^ n).
Proof.
  intros tb q w c0 a d u y S A A0 I0 E D Y Y0.
  set (c := cce (a * dt_implant q) (dt_eta0 q)).
  assert (C : 0 <= c <= 1).
  { destruct (cce_bounds (a * dt_implant q) (dt_eta0 q) (Rmult_lt_0_compat _ _ A0 I0) E) as [B _]. fold c in B. lra. }
  destruct (measurement_range y c Y0 C) as (p & Hp & Rp).
  exists c, p. split; [apply cce_depth_mean; assumption|].
  split; [unfold material_probability; rewrite Y, (method_cce_value q w 1 c0 a d u S A A0 I0 D); exact Hp|].
  split; [exact Rp|]. split; [|split].
  - intros ->. rewrite measurement_one in Hp by exact C. congruence.
  - intros Y1. exact (measurement_above y c p Y1 C Hp).
  - intros n ->. rewrite measurement_integer, binomial_none in Hp by exact C. congruence.
Qed.

Lemma osum_inv : forall {A} (f : A -> option R) l x, osum (map f l) = Some x ->
  exists ys, List.Forall2 (fun a y => f a = Some y) l ys /\ x = rsum ys.
Proof.
  intros A f l. induction l as [|a l IH]; intros x H.
  - injection H as <-. exists []. split; [constructor|reflexivity].
  - cbn [map osum fold_right] in H. fold (osum (map f l)) in H. destruct (f a) as [y|] eqn:F; [|discriminate H]. cbn [obind] in H.
    destruct (osum (map f l)) as [z|]; [|discriminate H]. cbn [obind] in H. injection H as <-.
    destruct (IH z eq_refl) as (ys & Q & ->). exists (y :: ys). split; [constructor; assumption|reflexivity].
Qed.

Lemma rsum_nonneg : forall l, List.Forall (fun x => 0 <= x) l -> 0 <= rsum l.
Proof. intros l H. induction H as [|x l X H IH]; [apply Rle_refl|]. change (0 <= x + rsum l). lra. Qed.
Lemma squares_zero : forall l, List.Forall (fun x => 0 <= x) l -> rsum l = 0 -> List.Forall (fun x => x = 0) l.
Proof.
  intros l H. induction H as [|x l X H IH]; intros Z; [constructor|]. change (x + rsum l = 0) in Z.
  assert (P := rsum_nonneg l H). constructor; [lra|]. apply IH. lra.
Qed.

Lemma fit_value : forall h no ns T measured oxide implant roughness eta0 x,
  eqe_rms_difference h no ns T measured oxide implant roughness eta0 = Some x ->
  exists es, List.Forall2 (fun m e => quantum_efficiency_effective (mkDetector oxide implant h eta0 no ns 0 roughness T) (fst m) (RtoC 1) (RtoC 1) = Some e) measured es /\
    0 <= x /\ x * x * INR (length measured) = rsum (map (fun me => (snd (fst me) - snd me) ^ 2) (combine measured es)) /\
    measured <> [] /\ (x = 0 <-> map snd measured = es).
Proof.
  intros h no ns T measured oxide implant roughness eta0 x H. unfold eqe_rms_difference in H.
  set (q := mkDetector oxide implant h eta0 no ns 0 roughness T) in *.
  destruct (osum _) as [total|] eqn:O in H; [|discriminate H]. cbn [obind] in H.
  destruct (osum_inv _ _ _ O) as (ys & F & ->). clear O.
  assert (G : exists es, List.Forall2 (fun m e => quantum_efficiency_effective q (fst m) (RtoC 1) (RtoC 1) = Some e) measured es /\
     ys = map (fun me => (snd (fst me) - snd me) * (snd (fst me) - snd me)) (combine measured es)).
  { clear H. induction F as [|m y ms ys Q F IH]; [exists []; split; [constructor|reflexivity]|].
    destruct IH as (es & F' & ->). destruct (quantum_efficiency_effective q (fst m) (RtoC 1) (RtoC 1)) as [e|] eqn:EQ; [|discriminate Q].
    cbn [obind] in Q. injection Q as <-. exists (e :: es). split; [constructor; assumption|reflexivity]. }
  destruct G as (es & F' & ->). exists es. split; [exact F'|].
  destruct (odiv _ _) as [mean|] eqn:O in H; [|discriminate H]. cbn [obind] in H.
  assert (N : INR (length measured) <> 0).
  { intros Z. rewrite Z, odiv_0 in O. discriminate O. }
  rewrite odiv_nz in O by exact N. injection O as <-.
  set (squares := map (fun me : R * R * R => (snd (fst me) - snd me) * (snd (fst me) - snd me)) (combine measured es)) in *.
  assert (P : List.Forall (fun x => 0 <= x) squares).
  { unfold squares. rewrite List.Forall_map, List.Forall_forall. intros me _. apply Rle_0_sqr. }
  assert (SP := rsum_nonneg _ P).
  assert (NP : 0 < INR (length measured)) by (assert (Q := pos_INR (length measured)); lra).
  unfold osqrt in H. destruct (Rle_dec 0 (rsum squares / INR (length measured))) as [L|L]; [|discriminate H]. injection H as <-.
  split; [apply sqrt_pos|]. split.
  { rewrite sqrt_sqrt by exact L. replace (map (fun me : R * R * R => (snd (fst me) - snd me) ^ 2) (combine measured es)) with squares
      by (apply map_ext; intros; ring). field. exact N. }
  split; [intros ->; cbn in N; lra|]. split; intros Z.
  - assert (Z' : rsum squares = 0).
    { apply sqrt_eq_0 in Z; [|exact L]. apply (Rmult_eq_compat_r (INR (length measured))) in Z. unfold Rdiv in Z.
      rewrite Rmult_assoc, Rinv_l in Z by exact N. lra. }
    apply squares_zero in Z'; [|exact P]. unfold squares in Z'. clear -F' Z'.
    induction F' as [|m e ms es Q F IH]; [reflexivity|]. cbn in Z'. inversion Z' as [|? ? X Y]; subst. cbn. f_equal; [nra|apply IH; exact Y].
  - assert (Z' : rsum squares = 0).
    { unfold squares. subst es. clear. induction measured as [|m ms IH]; [reflexivity|]. cbn [map combine fst snd]. match goal with |- rsum (?a :: ?b) = 0 => change (a + rsum b = 0) end. rewrite IH. ring. }
    rewrite Z'. unfold Rdiv. rewrite Rmult_0_l. apply sqrt_0.
Qed.

Lemma fit_defined : forall h no ns T measured oxide implant roughness eta0, measured <> [] ->
  (forall m, In m measured -> quantum_efficiency_effective (mkDetector oxide implant h eta0 no ns 0 roughness T) (fst m) (RtoC 1) (RtoC 1) <> None) ->
  exists x, eqe_rms_difference h no ns T measured oxide implant roughness eta0 = Some x.
Proof.
  intros h no ns T measured oxide implant roughness eta0 N H. unfold eqe_rms_difference.
  set (q := mkDetector oxide implant h eta0 no ns 0 roughness T) in *.
  assert (G : exists t, osum (map (fun m => let* e := quantum_efficiency_effective q (fst m) (RtoC 1) (RtoC 1) in Some ((snd m - e) * (snd m - e))) measured) = Some t /\ 0 <= t).
  { clear N. induction measured as [|m ms IH]; [exists 0; split; [reflexivity|lra]|].
    destruct IH as (t & Q & P); [intros m' I; apply H; right; exact I|].
    specialize (H m (or_introl eq_refl)). destruct (quantum_efficiency_effective q (fst m) (RtoC 1) (RtoC 1)) as [e|] eqn:EQ; [|congruence].
    exists ((snd m - e) * (snd m - e) + t). cbn [map osum fold_right]. rewrite EQ. cbn [obind]. fold (osum (map (fun m => let* e := quantum_efficiency_effective q (fst m) (RtoC 1) (RtoC 1) in Some ((snd m - e) * (snd m - e))) ms)).
    rewrite Q. split; [reflexivity|]. assert (X := Rle_0_sqr (snd m - e)). unfold Rsqr in X. lra. }
  destruct G as (t & -> & P). cbn [obind].
  assert (L : 0 < INR (length measured)) by (destruct measured; [congruence|apply lt_0_INR; cbn; lia]).
  rewrite odiv_nz by lra. cbn [obind]. unfold osqrt.
  destruct (Rle_dec 0 (t / INR (length measured))) as [Q|Q]; [eexists; reflexivity|]. exfalso. apply Q. apply Rmult_le_pos; [exact P|]. left. apply Rinv_0_lt_compat. exact L.
Qed.
