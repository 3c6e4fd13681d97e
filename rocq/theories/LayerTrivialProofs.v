(** Trivial layers (C32). *)
From Coq Require Import Reals Lra Psatz List Bool ZArith Lia.
From Coquelicot Require Import Coquelicot.
From Verif Require Import Num NumLemmas ComplexModel ComplexLemmas ProfileModel LayerModel LayerSpec LayerProofs.
Import ListNotations.
Open Scope C_scope.
Open Scope opt_scope.

Lemma impedance_some : forall s n, n <> (0 : C) -> exists i, impedance s n = Some i /\ i <> 0.
Proof.
  intros [] n H; cbn.
  - exists n; auto.
  - rewrite cdiv_nz by exact H. eexists; split; [reflexivity|]. apply Cdiv_neq_0; [apply C1_neq_0 | exact H].
Qed.

Lemma polarized_neq_0 : forall s d, d <> (0 : C) -> polarized s d <> 0.
Proof. intros [] d H; cbn; [exact H | apply Cconj_neq_0, H]. Qed.

Lemma q_factor_some : forall s d n, n <> (0 : C) -> d <> (0 : C) -> exists q, q_factor s d n = Some q /\ q <> 0.
Proof.
  intros s d n N D. destruct (impedance_some s n N) as (i & I & I0). unfold q_factor. rewrite I. cbn [obind].
  eexists; split; [reflexivity|]. apply Cmult_neq_0; [apply polarized_neq_0, D | exact I0].
Qed.

(** The factor of a rough interface exists. *)
Definition interface_defined (wavelength : R) (s : bool) (d n : C) (i : option interface_profile) : Prop :=
  match i with
  | None => True
  | Some p => exists w, profile_reflectivity p wavelength (polarized s d) n = Some w
  end.

Lemma refraction_same : forall wavelength d s n i, d <> (0 : C) -> n <> (0 : C) ->
  interface_defined wavelength s d n i ->
  refraction wavelength d d s n n i = Some mat_id.
Proof.
  intros wl d s n i D N I. unfold refraction. destruct (q_factor_some s d n N D) as (q & Q & Q0).
  rewrite Q. cbn [obind]. cbv zeta.
  assert (A : q + q <> 0). { replace (q + q) with (2 * q) by cring. apply Cmult_neq_0; [apply C2_neq_0 | exact Q0]. }
  rewrite (cdiv_nz (q - q)) by exact A. rewrite (cdiv_nz (2 * q)) by exact A. cbn [obind].
  assert (W : exists w, match i with None => Some 1%R | Some p => profile_reflectivity p wl (polarized s d) n end = Some w).
  { destruct i; [exact I | exists 1%R; reflexivity]. }
  destruct W as (w & W). rewrite W. cbn [obind].
  assert (T : 2 * q / (q + q) = 1) by (replace (2 * q) with (q + q) by cring; apply Cinv_r, A).
  rewrite T. rewrite !cdiv_nz by apply C1_neq_0. cbn [obind].
  f_equal. unfold mat_id. replace ((q - q) / (q + q) * RtoC w / 1) with (0 : C).
  - replace (1 / 1) with (1 : C) by (field; apply C1_neq_0). reflexivity.
  - replace (q - q) with (0 : C) by ring. unfold Cdiv. ring.
Qed.

Lemma propagation_value : forall wavelength d h n, (wavelength <> 0)%R ->
  propagation wavelength d h n = Some
    (let beta := RtoC (2 * PI * h / wavelength) * (n * d) in Mat2 (cexp (- Ci * beta)) 0 0 (cexp (Ci * beta))).
Proof.
  intros wl d h n W. unfold propagation. rewrite cdiv_nz by (apply RtoC_neq_0, W). cbn [obind]. cbv zeta.
  replace (RtoC (2 * PI) * RtoC h * n * d / RtoC wl) with (RtoC (2 * PI * h / wl) * (n * d)); [reflexivity|].
  rewrite RtoC_div, !RtoC_mult by exact W. field. apply RtoC_neq_0, W.
Qed.

Lemma propagation_zero : forall wavelength d n, (wavelength <> 0)%R -> propagation wavelength d 0 n = Some mat_id.
Proof.
  intros wl d n W. rewrite propagation_value by exact W. cbv zeta.
  replace (2 * PI * 0 / wl)%R with 0%R by (field; exact W). f_equal. unfold mat_id. 
  replace (- Ci * (0 * (n * d))) with (0 : C) by ring. replace (Ci * (0 * (n * d))) with (0 : C) by ring.
  rewrite cexp_0. reflexivity.
Qed.

Lemma propagation_add : forall wavelength d h1 h2 n, (wavelength <> 0)%R ->
  omul (propagation wavelength d h1 n) (propagation wavelength d h2 n) = propagation wavelength d (h1 + h2) n.
Proof.
  intros wl d h1 h2 n W. rewrite !propagation_value by exact W. cbv zeta. cbn [omul]. f_equal.
  replace (2 * PI * (h1 + h2) / wl)%R with (2 * PI * h1 / wl + 2 * PI * h2 / wl)%R by (field; exact W).
  rewrite RtoC_plus. unfold mat_mul; cbn [mxx mxy myx myy].
  set (a := RtoC (2 * PI * h1 / wl)). set (b := RtoC (2 * PI * h2 / wl)).
  replace (- Ci * ((a + b) * (n * d))) with (- Ci * (a * (n * d)) + - Ci * (b * (n * d))) by ring.
  replace (Ci * ((a + b) * (n * d))) with (Ci * (a * (n * d)) + Ci * (b * (n * d))) by ring.
  rewrite !cexp_plus. f_equal; ring.
Qed.

(** The amplitude is multiplied by at most this number on the way back through a layer. *)
Definition opacity (wavelength h : R) (n d : C) : R := exp (2 * PI * h / wavelength * Im (n * d)%C).

Lemma where_value : forall wavelength d h n, (wavelength <> 0)%R ->
  where_propagation (propagation wavelength d h n) = true <-> (opacity wavelength h n d < 10 ^ 10)%R.
Proof.
  intros wl d h n W. rewrite propagation_value by exact W. cbv zeta. unfold where_propagation. cbn [mxx].
  rewrite Cmod_cexp.
  replace (Re (- Ci * (RtoC (2 * PI * h / wl) * (n * d)))) with (2 * PI * h / wl * Im (n * d)%C)%R
    by (cparts; ring).
  unfold opacity. destruct (Rlt_dec _ _); split; intros; try reflexivity; try assumption; try discriminate; try lra.
Qed.

Definition with_thickness (l : layer) (h : R) (i : option interface_profile) : layer :=
  Layer (ly_chemical l) h i.

Lemma with_thickness_n : forall l h i w, layer_n (with_thickness l h i) w = layer_n l w.
Proof. reflexivity. Qed.

Lemma cos_in_neq_0 : forall k n, n <> (0 : C) -> off_critical k n -> cos_in k n <> 0.
Proof.
  intros k n N H E. apply H. assert (S := cos_in_sq k n N). rewrite E in S.
  replace (n * n) with (n * n - k + k) by ring. rewrite <- S. ring.
Qed.

Section Split.
Variables (wavelength : R) (s : bool).

Lemma split_layer : forall (l : layer) (h1 h2 : R) (i : option interface_profile) (st : lstate) d,
  (wavelength <> 0)%R -> layer_n l wavelength <> 0 -> st_direction st = Some d ->
  let k := tangential2 d (st_n st) in
  let n := layer_n l wavelength in
  let c := cos_in k n in
  off_critical k n -> interface_defined wavelength s c n i ->
  (opacity wavelength (h1 + h2) n c < 10 ^ 10 /\ opacity wavelength h1 n c < 10 ^ 10 /\ opacity wavelength h2 n c < 10 ^ 10 \/
   10 ^ 10 <= opacity wavelength h1 n c /\ 10 ^ 10 <= opacity wavelength (h1 + h2) n c)%R ->
  transfer wavelength s (ASequence [ALayer (with_thickness l h1 (ly_interface l)); ALayer (with_thickness l h2 i)]) st =
  transfer wavelength s (ALayer (with_thickness l (h1 + h2) (ly_interface l))) st.
Proof.
  intros l h1 h2 i st d W N D k n c OC I O.
  rewrite transfer_cons. cbv zeta. rewrite transfer_single. cbn [transfer].
  unfold layer_transfer. cbv zeta. cbn [fst snd st_n st_direction st_where]. rewrite !with_thickness_n.
  rewrite D. cbn [obind]. rewrite (snell_value d (st_n st) (layer_n l wavelength) N). cbn [obind]. fold k n c.
  assert (X : snells_law_scalar c n n = Some c) by (unfold c; apply snell_same, N).
  rewrite X. cbn [obind]. cbn [ly_interface with_thickness ly_thickness].
  rewrite (refraction_same wavelength c s n i) by (auto; apply cos_in_neq_0; auto).
  assert (A := where_value wavelength c h1 n W). assert (B := where_value wavelength c h2 n W).
  assert (S := where_value wavelength c (h1 + h2) n W).
  rewrite <- (propagation_add wavelength c h1 h2 n W) in *.
  destruct (where_propagation (propagation wavelength c h1 n)) eqn:E1;
  destruct (where_propagation (propagation wavelength c h2 n)) eqn:E2;
  destruct (where_propagation (omul (propagation wavelength c h1 n) (propagation wavelength c h2 n))) eqn:E3;
  destruct (st_where st); cbn [andb];
  try (exfalso; destruct O as [(O & O1 & O2)|(O1 & O)]; [apply A in O1; apply B in O2; apply S in O; discriminate | solve [apply proj1 in A; specialize (A eq_refl); lra | apply proj1 in S; specialize (S eq_refl); lra]]);
  rewrite ?omul_id_r, ?omul_id_l, ?omul_assoc; try reflexivity.
Qed.

Lemma split_in_stack : forall pre post l h1 h2 i st d,
  (wavelength <> 0)%R -> List.Forall (fun l => layer_n l wavelength <> 0) (layers_of (ASequence pre)) ->
  layer_n l wavelength <> 0 -> st_direction st = Some d ->
  let k := tangential2 d (st_n st) in
  let n := layer_n l wavelength in
  let c := cos_in k n in
  off_critical k n -> interface_defined wavelength s c n i ->
  (opacity wavelength (h1 + h2) n c < 10 ^ 10)%R -> (opacity wavelength h1 n c < 10 ^ 10)%R ->
  (opacity wavelength h2 n c < 10 ^ 10)%R ->
  transfer wavelength s (ASequence (pre ++ [ALayer (with_thickness l h1 (ly_interface l)); ALayer (with_thickness l h2 i)] ++ post)) st =
  transfer wavelength s (ASequence (pre ++ [ALayer (with_thickness l (h1 + h2) (ly_interface l))] ++ post)) st.
Proof.
  intros pre post l h1 h2 i st d W P N D k n c OC I O O1 O2.
  rewrite (transfer_app wavelength s pre). rewrite (transfer_app wavelength s pre). cbv zeta.
  set (st1 := fst (transfer wavelength s (ASequence pre) st)).
  assert (E : exists d1, st_direction st1 = Some d1 /\ tangential2 d1 (st_n st1) = k).
  { unfold st1. rewrite transfer_state.
    assert (V : List.Forall (nonzero wavelength) (visits (ASequence pre))).
    { rewrite Forall_forall in *. intros x Hx. apply P, visits_layers, Hx. }
    destruct (visits (ASequence pre)) as [|v a] using rev_ind.
    - exists d. split; [exact D | reflexivity].
    - rewrite (run_value wavelength s a v st d V D). cbn [st_direction st_n]. eexists; split; [reflexivity|].
      apply Forall_app in V. destruct V as [_ V]. inversion V; subst. apply tangential2_cos_in; assumption. }
  destruct E as (d1 & D1 & K1).
  rewrite (transfer_app wavelength s [ALayer (with_thickness l h1 (ly_interface l)); ALayer (with_thickness l h2 i)]).
  rewrite (transfer_app wavelength s [ALayer (with_thickness l (h1 + h2) (ly_interface l))]). cbv zeta.
  rewrite (transfer_single wavelength s (ALayer (with_thickness l (h1 + h2) (ly_interface l)))).
  rewrite (split_layer l h1 h2 i st1 d1); auto; rewrite K1; auto.
Qed.
End Split.

(** *** An empty stack *)
Lemma empty_stack : forall wavelength d n sub s, (wavelength <> 0)%R -> n <> (0 : C) -> (0 < Re d)%R ->
  layer_n sub wavelength = n -> interface_defined wavelength s d n (ly_interface sub) ->
  multilayer_coefficients wavelength d n (ASequence []) (Some sub) s = (Some (RtoC 0), Some (RtoC 1)).
Proof.
  intros wl d n sub s W N D E I. unfold multilayer_coefficients, multilayer_matrix. cbv zeta.
  rewrite transfer_nil. cbn [fst snd]. rewrite omul_id_l.
  unfold layer_transfer. cbv zeta. cbn [fst snd st_n st_direction st_where obind].
  change (layer_n (substrate_layer (Some sub)) wl) with (layer_n sub wl). rewrite E.
  rewrite (snell_identity d n N D). cbn [obind].
  assert (D0 : d <> 0) by (intros X; rewrite X in D; cbn in D; lra).
  cbn [substrate_layer ly_interface ly_thickness].
  rewrite refraction_same by assumption. rewrite propagation_zero by exact W.
  cbn [where_propagation mat_id mxx].
  destruct (Rlt_dec (Cmod 1) (10 ^ 10)) as [L|L].
  - cbn [andb omul obind]. rewrite mat_id_l. cbn [mat_id mxx myx obind].
    rewrite !cdiv_nz by apply C1_neq_0. f_equal; f_equal; field; apply C1_neq_0.
  - exfalso. apply L. rewrite Cmod_1. lra.
Qed.
