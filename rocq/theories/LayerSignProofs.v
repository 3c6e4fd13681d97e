(** What reversing the normal does to the efficiency of a multilayer. *)
From Coq Require Import Reals List Bool ZArith Lra Lia.
From Coquelicot Require Import Coquelicot.
From Verif Require Import Vec Num NumLemmas ComplexModel ComplexLemmas ProfileModel LayerModel LayerSpec LayerProofs.
Import ListNotations.
Open Scope C_scope.
Open Scope opt_scope.

Definition swap (m : mat2) : mat2 := Mat2 (myx m) (myy m) (mxx m) (mxy m).
Lemma swap_mul : forall a b, mat_mul (swap a) b = swap (mat_mul a b).
Proof. intros a b. reflexivity. Qed.

Lemma snell_opp : forall c n m, snells_law_scalar (- c) n m = snells_law_scalar c n m.
Proof. intros c n m. unfold snells_law_scalar. replace (- c * - c) with (c * c) by ring. reflexivity. Qed.

Lemma q_opp : forall s c n, q_factor s (- c) n = omap Copp (q_factor s c n).
Proof.
  intros s c n. unfold q_factor. destruct (impedance s n) as [i|]; [|reflexivity]. cbn. f_equal.
  destruct s; cbn [polarized]; [ring|]. replace (Cconj (- c)) with (- Cconj c) by (destruct c as [x y]; unfold Cconj, Copp; cbn; reflexivity). ring.
Qed.

Lemma refraction_opp : forall w c d s n n' m m',
  refraction w c d s n n' None = Some m -> refraction w (- c) d s n n' None = Some m' -> m' = swap m.
Proof.
  intros w c d s n n' m m' A B. unfold refraction in A, B. rewrite q_opp in B.
  destruct (q_factor s c n) as [a|]; [|discriminate]. destruct (q_factor s d n') as [b|]; [|discriminate].
  cbn [omap obind] in A, B.
  destruct (cdiv (a - b) (a + b)) as [r|] eqn:R1; [|discriminate]. destruct (cdiv (2 * a) (a + b)) as [t|] eqn:T1; [|discriminate].
  destruct (cdiv (- a - b) (- a + b)) as [r'|] eqn:R2; [|discriminate]. destruct (cdiv (2 * - a) (- a + b)) as [t'|] eqn:T2; [|discriminate].
  cbn [obind] in A, B.
  destruct (cdiv 1 t) as [u|] eqn:U1; [|discriminate]. destruct (cdiv (r * 1) t) as [v|] eqn:V1; [|discriminate].
  destruct (cdiv 1 t') as [u'|] eqn:U2; [|discriminate]. destruct (cdiv (r' * 1) t') as [v'|] eqn:V2; [|discriminate].
  cbn [obind] in A, B. injection A as <-. injection B as <-.
  apply cdiv_inv in R1, T1, R2, T2, U1, V1, U2, V2.
  destruct R1 as [N1 ->], T1 as [_ ->], R2 as [N2 ->], T2 as [_ ->], U1 as [N3 ->], V1 as [_ ->], U2 as [N4 ->], V2 as [_ ->].
  assert (Na : a <> 0). { intros ->. apply N3. unfold Cdiv. ring. }
  assert (Nn : - a <> 0). { intros X. apply Na. replace a with (- - a) by ring. rewrite X. ring. }
  unfold swap. cbn [mxx mxy myx myy].
  assert (E1 : 1 / (2 * - a / (- a + b)) = (a - b) / (a + b) * 1 / (2 * a / (a + b))).
  { field. repeat split; auto using C2_neq_0. }
  assert (E2 : (- a - b) / (- a + b) * 1 / (2 * - a / (- a + b)) = 1 / (2 * a / (a + b))).
  { field. repeat split; auto using C2_neq_0. }
  rewrite E1, E2. reflexivity.
Qed.

Definition flipped (st st' : lstate) : Prop := exists d,
  st_n st' = st_n st /\ st_direction st = Some d /\ st_direction st' = Some (- d) /\ st_where st = true /\ st_where st' = true.
Definition swapped (x x' : lstate * option mat2) : Prop :=
  fst x' = fst x /\ forall m m', snd x = Some m -> snd x' = Some m' -> m' = swap m.

Section Sign.
Variables (w : R) (s : bool).

Lemma layer_opp : forall l st st', flipped st st' -> ly_interface l = None ->
  swapped (layer_transfer w s l st) (layer_transfer w s l st').
Proof.
  intros l st st' (d & N & D & D' & W & W') I. unfold layer_transfer. rewrite N, D, D', W, W', I. cbn [obind].
  rewrite snell_opp. cbn [andb]. split; [reflexivity|]. cbn [snd].
  destruct (snells_law_scalar d (st_n st) (layer_n l w)) as [d'|]; [|discriminate]. cbn [obind].
  set (p := propagation w d' (ly_thickness l) (layer_n l w)). intros m m' A B.
  destruct (refraction w d d' s (st_n st) (layer_n l w) None) as [a|] eqn:Ea.
  2:{ destruct (where_propagation p); discriminate. }
  destruct (refraction w (- d) d' s (st_n st) (layer_n l w) None) as [b|] eqn:Eb.
  2:{ destruct (where_propagation p); discriminate. }
  assert (E := refraction_opp _ _ _ _ _ _ _ _ Ea Eb). subst b.
  destruct (where_propagation p).
  - destruct p as [p|]; [|discriminate]. cbn in A, B. injection A as <-. injection B as <-. reflexivity.
  - injection A as <-. injection B as <-. reflexivity.
Qed.

Fixpoint layers_all (ls : list alayer) : list layer :=
  match ls with [] => [] | l :: ls => layers_of l ++ layers_all ls end.
Lemma layers_sequence : forall ls, layers_of (ASequence ls) = layers_all ls.
Proof. reflexivity. Qed.
Lemma layers_periodic : forall ls n, layers_of (APeriodic ls n) = layers_all ls.
Proof. intros ls n. reflexivity. Qed.

Lemma npower_id : forall k, mat_npower mat_id k = mat_id.
Proof. induction k as [|k IH]; [reflexivity|]. cbn [mat_npower]. rewrite IH. apply mat_id_l. Qed.
Lemma power_id : forall k, mat_power mat_id k = Some mat_id.
Proof.
  intros [|p|p]; cbn [mat_power]; [reflexivity|rewrite npower_id; reflexivity|].
  unfold mat_inverse. replace (mat_det mat_id) with (1 : C) by (unfold mat_det; cbn; ring).
  rewrite cdiv_nz by apply C1_neq_0. replace (Mat2 _ _ _ _) with mat_id; [rewrite npower_id; reflexivity|].
  apply mat_eq; cbn; field; apply C1_neq_0.
Qed.

Lemma empty_sequence : forall ls, List.Forall (fun l => layers_of l = [] -> forall st, transfer w s l st = (st, Some mat_id)) ls ->
  layers_all ls = [] -> forall st, transfer w s (ASequence ls) st = (st, Some mat_id).
Proof.
  intros ls F. induction F as [|l ls A _ IH]; intros E st; [reflexivity|].
  cbn in E. apply app_eq_nil in E. destruct E as [E1 E2]. rewrite transfer_cons. cbv zeta. rewrite (A E1). cbn [fst snd].
  rewrite (IH E2). cbn [fst snd]. rewrite omul_id_l. reflexivity.
Qed.
Lemma empty_transfer : forall l, layers_of l = [] -> forall st, transfer w s l st = (st, Some mat_id).
Proof.
  induction l as [l|ls IH|ls n IH] using alayer_induction; intros E st.
  - discriminate.
  - rewrite layers_sequence in E. apply empty_sequence; assumption.
  - rewrite layers_periodic in E. rewrite transfer_periodic. cbv zeta. rewrite !(empty_sequence ls IH E). cbn [fst snd obind].
    rewrite power_id, omul_id_l. reflexivity.
Qed.

Lemma swapped_then : forall x x' (f : lstate -> lstate * option mat2), swapped x x' ->
  swapped (fst (f (fst x)), omul (snd x) (snd (f (fst x)))) (fst (f (fst x')), omul (snd x') (snd (f (fst x')))).
Proof.
  intros [a m] [a' m'] f [E S]. cbn [fst snd] in *. subst a'. split; [reflexivity|]. cbn [snd].
  intros p p' P P'. destruct m as [m|]; [|discriminate]. destruct m' as [m'|]; [|discriminate].
  destruct (snd (f a)) as [q|]; [|discriminate]. cbn in P, P'. injection P as <-. injection P' as <-.
  rewrite (S m m' eq_refl eq_refl). reflexivity.
Qed.

Lemma sequence_opp : forall ls, List.Forall (fun l => layers_of l <> [] -> smooth_head (layers_of l) ->
    forall st st', flipped st st' -> swapped (transfer w s l st) (transfer w s l st')) ls ->
  layers_all ls <> [] -> smooth_head (layers_all ls) -> forall st st', flipped st st' ->
  swapped (transfer w s (ASequence ls) st) (transfer w s (ASequence ls) st').
Proof.
  intros ls F. induction F as [|l ls A F IH]; intros N H st st' Fl; [exfalso; apply N; reflexivity|].
  cbn [layers_all] in N, H. rewrite !transfer_cons. cbv zeta.
  destruct (layers_of l) as [|x rest] eqn:E.
  - rewrite !(empty_transfer l E). cbn [fst snd]. rewrite !omul_id_l.
    destruct (IH N H st st' Fl) as [P Q]. split; assumption.
  - apply (swapped_then _ _ (transfer w s (ASequence ls))). apply A; [discriminate|exact H|exact Fl].
Qed.

Lemma transfer_opp : forall l, layers_of l <> [] -> smooth_head (layers_of l) -> forall st st', flipped st st' ->
  swapped (transfer w s l st) (transfer w s l st').
Proof.
  induction l as [l|ls IH|ls n IH] using alayer_induction; intros N H st st' F.
  - exact (layer_opp l st st' F H).
  - rewrite layers_sequence in N, H. apply sequence_opp; assumption.
  - rewrite layers_periodic in N, H. rewrite !transfer_periodic. cbv zeta.
    apply (swapped_then _ _ (fun a => let p := transfer w s (ASequence ls) a in (fst p, obind (snd p) (fun m => mat_power m (n - 1))))).
    apply sequence_opp; assumption.
Qed.

Lemma matrix_opp : forall d n layers substrate, first_smooth layers substrate ->
  swapped (multilayer_matrix w d n layers substrate s) (multilayer_matrix w (- d) n layers substrate s).
Proof.
  intros d n layers substrate H. unfold first_smooth in H.
  assert (F : flipped (LState n (Some d) true) (LState n (Some (- d)) true)) by (exists d; repeat split).
  unfold multilayer_matrix. cbv zeta. destruct (layers_of layers) as [|x rest] eqn:E.
  - rewrite !(empty_transfer layers E). cbn [fst snd]. rewrite !omul_id_l.
    destruct (layer_opp (substrate_layer substrate) _ _ F H) as [P Q]. split; assumption.
  - apply (swapped_then _ _ (layer_transfer w s (substrate_layer substrate))). apply transfer_opp; [rewrite E; discriminate|rewrite E; exact H|exact F].
Qed.

Lemma substrate_twice : forall substrate, substrate_layer (Some (substrate_layer substrate)) = substrate_layer substrate.
Proof. intros [l|]; reflexivity. Qed.

Lemma efficiency_opp : forall d n layers substrate r t r' t', first_smooth layers substrate ->
  multilayer_efficiency w d n layers substrate s = (Some r, Some t) ->
  multilayer_efficiency w (- d) n layers substrate s = (Some r', Some t') ->
  (r * r' = 1 /\ t' = - (t * r'))%R.
Proof.
  intros d n layers substrate r t r' t' H A B. unfold multilayer_efficiency, multilayer_coefficients in A, B. cbv zeta in A, B.
  unfold first_smooth in H. rewrite <- substrate_twice in H. destruct (matrix_opp d n layers (Some (substrate_layer substrate)) H) as [P Q].
  set (x := multilayer_matrix w d n layers (Some (substrate_layer substrate)) s) in *.
  set (x' := multilayer_matrix w (- d) n layers (Some (substrate_layer substrate)) s) in *.
  cbn [fst snd] in A, B. rewrite P in B. clearbody x x'. destruct x as [st [m|]]; [|discriminate]. destruct x' as [st' [m'|]]; [|discriminate].
  cbn [fst snd obind] in A, B, Q. rewrite (Q m m' eq_refl eq_refl) in B. unfold swap in B. cbn [mxx myx] in B.
  destruct (cdiv (myx m) (mxx m)) as [a|] eqn:Ea; [|discriminate]. destruct (cdiv (mxx m) (myx m)) as [b|] eqn:Eb; [|discriminate].
  apply cdiv_inv in Ea, Eb. destruct Ea as [N1 ->], Eb as [N2 ->].
  rewrite !cdiv_nz in A, B by assumption. rewrite snell_opp, q_opp in B.
  destruct (snells_law_scalar d n (layer_n (substrate_layer substrate) w)) as [c|].
  2:{ destruct (st_where st); cbn [obind omap] in A, B; first [discriminate A | discriminate B]. }
  assert (ST : exists k : C, (if st_where st then Some (1 / mxx m) else Some (RtoC 0)) = Some k) by (destruct (st_where st); eexists; reflexivity).
  assert (ST' : exists k : C, (if st_where st then Some (1 / myx m) else Some (RtoC 0)) = Some k) by (destruct (st_where st); eexists; reflexivity).
  destruct ST as [k K], ST' as [k' K']. rewrite K in A. rewrite K' in B. cbn [obind omap] in A, B.
  destruct (q_factor s d n) as [q|]; [|cbn [obind omap] in A, B; first [discriminate A | discriminate B]].
  destruct (q_factor s c (layer_n (substrate_layer substrate) w)) as [q'|]; [|cbn [obind omap] in A, B; first [discriminate A | discriminate B]].
  cbn [obind omap] in A, B.
  destruct (cdiv q' q) as [z|] eqn:Ez; [|cbn [obind omap] in A, B; first [discriminate A | discriminate B]].
  destruct (cdiv q' (- q)) as [z'|] eqn:Ez'; [|cbn [obind omap] in A, B; first [discriminate A | discriminate B]].
  apply cdiv_inv in Ez, Ez'. destruct Ez as [Nq ->], Ez' as [Nq' ->].
  assert (Z : q' / - q = - (q' / q)) by (field; split; assumption). rewrite Z in B. clear Z. set (z := q' / q) in *. clearbody z. change (Re (- z)) with (- Re z)%R in B. cbn [obind] in A, B. change (Re (- z)) with (- Re z)%R in B. generalize dependent (Re z). intros rz A B.
  assert (M1 : (0 < Cmod (mxx m))%R) by (apply Cmod_gt_0; exact N1). assert (M2 : (0 < Cmod (myx m))%R) by (apply Cmod_gt_0; exact N2).
  assert (Ha : Cmod (myx m / mxx m) = (Cmod (myx m) / Cmod (mxx m))%R) by (apply Cmod_div; exact N1).
  assert (Hb : Cmod (mxx m / myx m) = (Cmod (mxx m) / Cmod (myx m))%R) by (apply Cmod_div; exact N2).
  injection A as <- <-. injection B as <- <-. rewrite Ha, Hb.
  destruct (st_where st); injection K as <-; injection K' as <-.
  - split; [field; lra|]. rewrite !Cmod_div, Cmod_1 by assumption. field. repeat split; lra.
  - split; [field; lra|]. rewrite Cmod_0. ring.
Qed.

Lemma reflectivity_opp : forall d n layers substrate r r', first_smooth layers substrate ->
  fst (multilayer_efficiency w d n layers substrate s) = Some r ->
  fst (multilayer_efficiency w (- d) n layers substrate s) = Some r' -> (0 < r /\ r * r' = 1)%R.
Proof.
  intros d n layers substrate r r' H A B. unfold multilayer_efficiency, multilayer_coefficients in A, B. cbv zeta in A, B.
  unfold first_smooth in H. rewrite <- substrate_twice in H. destruct (matrix_opp d n layers (Some (substrate_layer substrate)) H) as [P Q].
  cbn [fst snd] in A, B.
  destruct (snd (multilayer_matrix w d n layers (Some (substrate_layer substrate)) s)) as [m|]; [|discriminate].
  destruct (snd (multilayer_matrix w (- d) n layers (Some (substrate_layer substrate)) s)) as [m'|]; [|discriminate].
  rewrite (Q m m' eq_refl eq_refl) in B. unfold swap in B. cbn [obind mxx myx] in A, B.
  destruct (cdiv (myx m) (mxx m)) as [a|] eqn:Ea; [|discriminate]. destruct (cdiv (mxx m) (myx m)) as [b|] eqn:Eb; [|discriminate].
  apply cdiv_inv in Ea, Eb. destruct Ea as [N1 ->], Eb as [N2 ->]. cbn [omap] in A, B. injection A as <-. injection B as <-.
  assert (M1 : (0 < Cmod (mxx m))%R) by (apply Cmod_gt_0; exact N1). assert (M2 : (0 < Cmod (myx m))%R) by (apply Cmod_gt_0; exact N2).
  rewrite (Cmod_div _ _ N1), (Cmod_div _ _ N2). split; [|field; lra]. assert (X := Rdiv_lt_0_compat _ _ M2 M1). revert X. generalize (Cmod (myx m) / Cmod (mxx m))%R. intros x X. nra.
Qed.

Lemma inside_opp : forall d n layers substrate, first_smooth layers substrate ->
  fst (multilayer_matrix w (- d) n layers substrate s) = fst (multilayer_matrix w d n layers substrate s).
Proof. intros d n layers substrate H. exact (proj1 (matrix_opp d n layers substrate H)). Qed.
End Sign.

Lemma ambient_opp : forall d n, ambient_direction d (vopp n) = - ambient_direction d n.
Proof.
  intros d n. unfold ambient_direction. rewrite <- RtoC_opp. f_equal. unfold dot, vopp. cbn. ring.
Qed.

Lemma polarization_opp : forall w s attenuation index d normal layers substrate r t r' t', first_smooth layers substrate ->
  multilayer_efficiency w (ambient_direction d normal) (ambient_n w attenuation index) layers substrate s = (Some r, Some t) ->
  multilayer_efficiency w (ambient_direction d (vopp normal)) (ambient_n w attenuation index) layers substrate s = (Some r', Some t') ->
  (r * r' = 1 /\ t' = - (t * r'))%R.
Proof. intros w s a i d normal layers substrate r t r' t' H A B. rewrite ambient_opp in B. exact (efficiency_opp w s _ _ _ _ _ _ _ _ H A B). Qed.

Lemma mirror_opp : forall w attenuation index d normal layers substrate e e', first_smooth layers substrate ->
  mirror_efficiency layers substrate w attenuation index d normal = Some e ->
  mirror_efficiency layers substrate w attenuation index d (vopp normal) = Some e' ->
  (0 < e /\ 1 <= e * e' /\ (e <= 1 -> e' = e -> e = 1))%R.
Proof.
  intros w a i d normal layers substrate e e' H A B. unfold mirror_efficiency in A, B. cbv zeta in A, B. rewrite ambient_opp in B.
  set (c := ambient_direction d normal) in *. set (n := ambient_n w a i) in *. unfold average in A, B.
  destruct (fst (multilayer_efficiency w c n layers substrate true)) as [p|] eqn:E1; [|discriminate].
  destruct (fst (multilayer_efficiency w c n layers substrate false)) as [q|] eqn:E2; [|discriminate].
  destruct (fst (multilayer_efficiency w (- c) n layers substrate true)) as [p'|] eqn:E3; [|discriminate].
  destruct (fst (multilayer_efficiency w (- c) n layers substrate false)) as [q'|] eqn:E4; [|discriminate].
  cbn [obind] in A, B. injection A as <-. injection B as <-.
  destruct (reflectivity_opp _ _ _ _ _ _ _ _ H E1 E3) as [P1 P2]. destruct (reflectivity_opp _ _ _ _ _ _ _ _ H E2 E4) as [Q1 Q2].
  assert (P' : p' = (/ p)%R) by (apply (Rmult_eq_reg_l p); [rewrite P2; field|]; lra).
  assert (Q' : q' = (/ q)%R) by (apply (Rmult_eq_reg_l q); [rewrite Q2; field|]; lra).
  assert (K : (1 <= (p + q) / 2 * ((p' + q') / 2))%R).
  { subst p' q'. replace ((p + q) / 2 * ((/ p + / q) / 2))%R with (1 + (p - q) ^ 2 / (4 * (p * q)))%R by (field; lra).
    assert (0 <= (p - q) ^ 2 / (4 * (p * q)))%R; [|lra].
    apply Rmult_le_pos; [apply pow2_ge_0|]. apply Rlt_le, Rinv_0_lt_compat. assert (0 < p * q)%R by (apply Rmult_lt_0_compat; assumption). lra. }
  split; [lra|]. split; [exact K|]. intros L E. rewrite E in K. set (x := ((p + q) / 2)%R) in *. assert (0 < x)%R by (unfold x; lra). nra.
Qed.
