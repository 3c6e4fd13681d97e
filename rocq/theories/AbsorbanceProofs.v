(** The energy absorbed by each layer (C36). *)
From Coq Require Import Reals Lra Psatz List Bool ZArith Lia.
From Coquelicot Require Import Coquelicot.
From Verif Require Import Num NumLemmas ComplexModel ComplexLemmas ProfileModel LayerModel LayerSpec LayerProofs
  LayerTrivialProofs EnergyProofs.
Import ListNotations.
Open Scope C_scope.
Open Scope opt_scope.

(** The vector computation of the Poynting flux. *)
Lemma flux_value : forall s n d a b q, q_factor s d n = Some q -> flux s n d a b = Some (power_flux q (a, b)).
Proof.
  intros s n d a b q H. unfold q_factor in H. unfold flux. cbv zeta.
  destruct (impedance s n) as [i|]; [|discriminate]. cbn [obind] in *. injection H as <-. f_equal.
  assert (S := csqrt_sq (1 - d * d)). set (si := csqrt (1 - d * d)) in *. clearbody si.
  destruct s; cbn [polarized].
  - unfold power_flux, y_rotation, cvcross, cvscale, cvadd, cvconj. cbn [cvx cvy cvz fst snd]. cparts. ring.
  - unfold power_flux, y_rotation, cvcross, cvscale, cvadd, cvconj. cbn [cvx cvy cvz fst snd].
    match goal with |- Re ?x = Re ?y => replace x with ((a + b) * d * Cconj (i * (a - b) * (d * d + si * si))) end.
    + rewrite S. replace (d * d + (1 - d * d)) with (1 : C) by ring. cparts. ring.
    + cring.
Qed.

Lemma inverse_apply : forall m v, mat_det m <> 0 -> exists b, mat_inverse m = Some b /\ mat_apply m (mat_apply b v) = v.
Proof.
  intros m [x y] H. destruct (mat_inverse_some m H) as (b & B & C1 & _). exists b. split; [exact B|].
  rewrite <- mat_apply_mul, C1. unfold mat_apply; cbn. f_equal; ring.
Qed.

Lemma inverse_unique : forall m b v w, mat_inverse m = Some b -> mat_apply m w = v -> mat_apply b v = w.
Proof.
  intros m b v [x y] B E. assert (D : mat_det m <> 0).
  { intros Z. unfold mat_inverse in B. rewrite Z, cdiv_z in B. discriminate. }
  destruct (mat_inverse_some m D) as (b' & B' & _ & C1). rewrite B in B'. injection B' as <-.
  rewrite <- E, <- mat_apply_mul, C1. unfold mat_apply; cbn. f_equal; ring.
Qed.

Section Absorbance.
Variables (medium : C -> Prop) (wavelength n0 c0 : R) (substrate : option layer) (s : bool) (ls : list alayer).
Hypothesis medium_passive : forall n, medium n -> passive n.
Hypothesis ideal : ideal_stack medium wavelength n0 c0 (ASequence ls) substrate.
Hypothesis inhabited : List.Forall (fun l => first_layer l <> None) ls.

Notation k := (n0 ^ 2 * (1 - c0 ^ 2))%R.
Definition medium0 (n : C) : Prop := medium n \/ n = RtoC n0.
Notation st0 := (LState (RtoC n0) (Some (RtoC c0)) true).
Definition prefix (j : nat) := transfer wavelength s (ASequence (firstn j ls)) st0.

Lemma k_pos : (0 <= k)%R.
Proof. destruct ideal as (N & C0 & _). apply Rmult_le_pos; nra. Qed.

Lemma medium0_passive : forall n, medium0 n -> passive n.
Proof. destruct ideal as (N & _). intros n [M | ->]; [auto | split; cbn; lra]. Qed.

Lemma layers_good : List.Forall (good_layer wavelength k medium0) (layers_of (ASequence ls)).
Proof.
  destruct ideal as (_ & _ & _ & _ & G). inversion G as [|? ? _ GL]; subst.
  eapply Forall_impl; [|exact GL]. intros a (A1 & A2 & A3 & A4). repeat split; auto. left; exact A1.
Qed.

Lemma substrate_good : good_layer wavelength k medium0 (substrate_layer substrate).
Proof.
  destruct ideal as (_ & _ & _ & _ & G). inversion G as [|? ? (A1 & A2 & A3 & A4) _]; subst.
  repeat split; auto. left; exact A1.
Qed.

Lemma part_passes : List.Forall (fun l => passes s k medium0 (transfer wavelength s l)) ls.
Proof.
  destruct ideal as (_ & _ & W & P & _). apply periods_all in P.
  assert (G := Forall_parts _ _ layers_good). rewrite Forall_forall in *. intros x X.
  apply stack_passes; auto using k_pos, medium0_passive.
Qed.

Lemma ambient_state : exists x, (0 < x)%R /\ q_factor s (RtoC c0) (RtoC n0) = Some (RtoC x) /\ 
  good_state s k medium0 st0 (RtoC x).
Proof.
  destruct ideal as (N & C0 & W & _ & _). destruct (real_ambient n0 c0 N C0) as (T0 & C1).
  assert (N0 : RtoC n0 <> 0) by (apply RtoC_neq_0; lra).
  assert (Q : exists x, (0 < x)%R /\ q_factor s (RtoC c0) (RtoC n0) = Some (RtoC x)).
  { unfold q_factor, impedance, polarized. destruct s; cbn [obind].
    - exists (c0 * n0)%R. split; [nra | f_equal; cring].
    - rewrite cdiv_nz by exact N0. cbn [obind]. exists (c0 / n0)%R.
      split; [apply Rmult_lt_0_compat; [lra | apply Rinv_0_lt_compat; lra]|].
      f_equal. rewrite RtoC_div by lra. replace (Cconj (RtoC c0)) with (RtoC c0) by cring. field. exact N0. }
  destruct Q as (x & X & Q). exists x. split; [exact X|]. split; [exact Q|].
  split; [split; [right; reflexivity|]|].
  - unfold off_critical. cbn [st_n]. rewrite <- RtoC_mult. intros E. apply RtoC_inj in E.
    assert (P : (0 < n0 * c0)%R) by (apply Rmult_lt_0_compat; lra).
    assert (P2 : (0 < (n0 * c0) * (n0 * c0))%R) by (apply Rmult_lt_0_compat; exact P). cbn [st_n] in E. lra.
  - cbn [st_n st_direction]. rewrite C1. auto.
Qed.

Lemma Forall_firstn : forall {A} (P : A -> Prop) l j, List.Forall P l -> List.Forall P (firstn j l).
Proof. intros A P l j H. revert j. induction H; intros [|j]; cbn; constructor; auto. Qed.

Lemma firstn_snoc : forall {A} (l : list A) j x, nth_error l j = Some x -> firstn (S j) l = firstn j l ++ [x].
Proof.
  intros A l. induction l as [|a l IH]; intros [|j] x H; cbn in H; try discriminate.
  - injection H as <-. reflexivity.
  - change (firstn (S (S j)) (a :: l)) with (a :: firstn (S j) l). rewrite (IH j x H). reflexivity.
Qed.

Lemma prefix_step : forall j l, nth_error ls j = Some l ->
  prefix (S j) = (let x := prefix j in let y := transfer wavelength s l (fst x) in (fst y, omul (snd x) (snd y))).
Proof.
  intros j l H. unfold prefix. rewrite (firstn_snoc ls j l H), transfer_app. cbv zeta. rewrite transfer_single. reflexivity.
Qed.

(** Everything that is needed about one prefix of the stack. *)
Lemma prefix_good : forall x j, good_state s k medium0 st0 (RtoC x) ->
  exists st q m, prefix j = (st, Some m) /\ good_state s k medium0 st q /\ mat_det m <> 0 /\ (j = O -> q = RtoC x /\ m = mat_id).
Proof.
  intros x j S0. assert (P := sequence_passes wavelength s k medium0 (firstn j ls) (Forall_firstn _ _ _ part_passes)).
  destruct (P _ _ S0) as (st & q & m & E & S & D & _). destruct j as [|j].
  - exists st0, (RtoC x), mat_id. split; [reflexivity|]. split; [exact S0|]. split; [|auto].
    unfold mat_det; cbn; intros Z; apply (f_equal Re) in Z; cbn in Z; lra.
  - exists st, q, m. split; [exact E|]. split; [exact S|]. split; [exact D|]. discriminate.
Qed.

Lemma where_monotone : forall f st st' q m, passes s k medium0 f -> good_state s k medium0 st q -> f st = (st', m) ->
  st_where st' = true -> st_where st = true.
Proof.
  intros f st st' q m P S E W. destruct (P st q S) as (st1 & q1 & m1 & E1 & _ & _ & A & _).
  rewrite E in E1. injection E1 as X _. subst st1. destruct (st_where st); [reflexivity|]. destruct (A eq_refl). congruence.
Qed.

Lemma first_layer_in : forall l x, first_layer l = Some x -> In x (layers_of l).
Proof.
  induction l as [l|l IH|l n IH] using alayer_induction; intros x H.
  - injection H as <-. left; reflexivity.
  - destruct l as [|a l]; [discriminate|]. inversion IH; subst. change (layers_of (ASequence (a :: l))) with (layers_of a ++ layers_of (ASequence l)).
    apply in_app_iff. left. auto.
  - destruct l as [|a l]; [discriminate|]. inversion IH; subst. change (layers_of (APeriodic (a :: l) n)) with (layers_of a ++ layers_of (ASequence l)).
    apply in_app_iff. left. auto.
Qed.

(** The refraction into the first layer of a part. *)
Lemma entry : forall l l0 st q, In l ls -> first_layer l = Some l0 -> good_state s k medium0 st q ->
  let n := layer_n l0 wavelength in
  let c := cos_in (RtoC k) n in
  snells_law_scalar (RtoC c0) (RtoC n0) n = Some c /\
  exists q' w, q_factor s c n = Some q' /\
    refraction wavelength (cos_in (RtoC k) (st_n st)) c s (st_n st) n (ly_interface l0) = Some w /\ mat_det w <> 0 /\
    (forall v, power_flux q (mat_apply w v) = power_flux q' v).
Proof.
  intros l l0 st q L F (GS & D & Q) n c.
  assert (G : good_layer wavelength k medium0 l0).
  { assert (G := layers_good). apply Forall_parts in G. rewrite Forall_forall in G. specialize (G l L).
    rewrite Forall_forall in G. apply G, first_layer_in, F. }
  destruct G as (GM & _ & I). fold n in GM. rewrite I.
  assert (MP := medium0_passive). assert (K := k_pos).
  assert (NN := good_neq_0 k medium0 MP n GM).
  destruct ideal as (N & C0 & _). destruct (real_ambient n0 c0 N C0) as (T0 & _).
  split; [rewrite snell_value, T0 by exact NN; reflexivity|].
  destruct (good_q s k medium0 K MP _ GS) as (q0 & Q0 & WS & SS). rewrite Q in Q0. injection Q0 as <-.
  destruct (good_q s k medium0 K MP _ GM) as (q' & Q' & WM & SM). fold c in Q', WM.
  assert (SUM := q_sum_neq_0 s _ _ _ _ WS WM SS SM).
  assert (QN := wave_pair_neq_0 _ _ WS). assert (QN' := wave_pair_neq_0 _ _ WM).
  assert (RF := refraction_value wavelength _ _ s _ _ _ _ Q Q' QN SUM).
  eexists. eexists. split; [exact Q'|]. split; [exact RF|]. split; [exact (interface_det q q' QN QN')|].
  intros v. exact (interface_flux q q' v QN).
Qed.

Notation coefficients := (multilayer_coefficients wavelength (RtoC c0) (RtoC n0) (ASequence ls) substrate s).
Notation efficiency := (multilayer_efficiency wavelength (RtoC c0) (RtoC n0) (ASequence ls) substrate s).

(** The flux behind the first [j] parts, for the amplitudes [v0] in the ambient medium. *)
Definition flux_at (v0 : C * C) (j : nat) (f : R) : Prop :=
  exists st q m b, prefix j = (st, Some m) /\ good_state s k medium0 st q /\ mat_inverse m = Some b /\
    f = power_flux q (mat_apply b v0).

Lemma flux_at_ex : forall v0 j, exists f, flux_at v0 j f.
Proof.
  intros v0 j. destruct ambient_state as (x & _ & _ & S0). destruct (prefix_good x j S0) as (st & q & m & E & S & D & _).
  destruct (mat_inverse_some m D) as (b & B & _). exists (power_flux q (mat_apply b v0)), st, q, m, b. auto.
Qed.

Lemma good_state_unique : forall st q q', good_state s k medium0 st q -> good_state s k medium0 st q' -> q = q'.
Proof. intros st q q' (_ & _ & A) (_ & _ & B). rewrite A in B. congruence. Qed.

Lemma flux_at_unique : forall v0 j f f', flux_at v0 j f -> flux_at v0 j f' -> f = f'.
Proof.
  intros v0 j f f' (st & q & m & b & E & S & B & ->) (st' & q' & m' & b' & E' & S' & B' & ->).
  rewrite E in E'. injection E' as <- <-. rewrite B in B'. injection B' as <-.
  rewrite (good_state_unique _ _ _ S S'). reflexivity.
Qed.

(** The absorbance is the difference of two fluxes; [slice] is the end of the slice that
    Python makes of [index + 1]. *)
Lemma absorbance_value : forall index j jr l r x f f',
  py_index ls index = Some l -> nth_error ls j = Some l ->
  py_slice_to ls index = firstn j ls -> py_slice_to ls (index + 1) = firstn jr ls ->
  fst coefficients = Some r -> q_factor s (RtoC c0) (RtoC n0) = Some (RtoC x) -> (0 < x)%R ->
  st_where (fst (prefix jr)) = true ->
  flux_at (RtoC 1, r) j f -> flux_at (RtoC 1, r) jr f' ->
  layer_absorbance index wavelength (RtoC c0) (RtoC n0) (ASequence ls) substrate s = Some (RtoC ((f - f') / x)).
Proof.
  intros index j jr l r x f f' PI NE SL SR CO QX X WR (st & q & m & b & E & S & B & ->) (st' & q' & m' & b' & E' & S' & B' & ->).
  unfold layer_absorbance. cbv zeta. cbn [layer_sequence]. rewrite CO. cbn [obind]. rewrite PI. cbn [obind].
  rewrite SL, SR. fold (prefix j) (prefix jr). rewrite E, E'. cbn [fst snd].
  assert (L : In l ls) by (eapply nth_error_In; exact NE).
  destruct (first_layer l) as [l0|] eqn:FL; [|exfalso; rewrite Forall_forall in inhabited; exact (inhabited l L FL)].
  cbn [obind]. destruct (entry l l0 st q L FL S) as (SN & ql & w & QL & RW & DW & FW).
  rewrite SN. cbn [obind]. destruct S as (GS & D & Q). rewrite D. cbn [obind]. rewrite RW. cbn [omul obind]. rewrite B'. cbn [obind].
  assert (DM : mat_det m <> 0). { intros Z. unfold mat_inverse in B. rewrite Z, cdiv_z in B. discriminate. }
  destruct (mat_inverse_some (mat_mul m w)) as (bl & BL & _); [rewrite mat_det_mul; apply Cmult_neq_0; assumption|].
  rewrite BL. cbn [obind]. rewrite E' in WR. cbn [fst] in WR. rewrite WR.
  destruct S' as (GS' & D' & Q'). rewrite D'. cbn [obind].
  rewrite (flux_value s _ _ _ _ q' Q'). cbn [obind]. rewrite (flux_value s _ _ _ _ ql QL). cbn [obind].
  rewrite <- !surjective_pairing.
  assert (FE : power_flux ql (mat_apply bl (RtoC 1, r)) = power_flux q (mat_apply b (RtoC 1, r))).
  { rewrite <- FW. f_equal. symmetry. apply (inverse_unique m b _ _ B).
    rewrite <- mat_apply_mul. destruct (inverse_apply (mat_mul m w) (RtoC 1, r)) as (b2 & B2 & A2);
      [rewrite mat_det_mul; apply Cmult_neq_0; assumption|]. rewrite BL in B2. injection B2 as <-. exact A2. }
  rewrite FE.
  assert (IM : exists i, impedance s (RtoC n0) = Some i /\ i * RtoC c0 = RtoC x).
  { unfold q_factor in QX. destruct (impedance s (RtoC n0)) as [i|]; [|discriminate]. cbn [obind] in QX.
    assert (QX' : polarized s (RtoC c0) * i = RtoC x) by congruence. exists i. split; [reflexivity|].
    replace (polarized s (RtoC c0)) with (RtoC c0) in QX' by (destruct s; [reflexivity | cring]).
    transitivity (RtoC c0 * i); [ring | exact QX']. }
  destruct IM as (i & I & IX). rewrite I. cbn [obind]. rewrite IX, cdiv_nz by (apply RtoC_neq_0; lra).
  rewrite <- RtoC_div by lra. reflexivity.
Qed.

(** Transparent stacks: no layer is so opaque that the computation stops there. *)
Hypothesis transparent : st_where (fst (transfer wavelength s (ASequence ls) st0)) = true.

Lemma prefix_where : forall j, st_where (fst (prefix j)) = true.
Proof.
  intros j. destruct ambient_state as (x & _ & _ & S0). destruct (prefix_good x j S0) as (st & q & m & E & S & _ & _).
  rewrite E. cbn [fst].
  assert (T : exists m', transfer wavelength s (ASequence (skipn j ls)) st = (fst (transfer wavelength s (ASequence ls) st0), m')).
  { replace (ASequence ls) with (ASequence (firstn j ls ++ skipn j ls)) by (rewrite firstn_skipn; reflexivity).
    rewrite transfer_app. cbv zeta. fold (prefix j). rewrite E. cbn [fst].
    eexists. apply surjective_pairing. }
  destruct T as (m' & T).
  assert (P : passes s k medium0 (transfer wavelength s (ASequence (skipn j ls)))).
  { apply sequence_passes. assert (A := part_passes). rewrite <- (firstn_skipn j ls) in A. apply Forall_app in A. tauto. }
  exact (where_monotone _ _ _ _ _ P S T transparent).
Qed.

Lemma nonneg_step : forall v0 j f f', (j < length ls)%nat -> flux_at v0 j f -> flux_at v0 (S j) f' -> (f' <= f)%R.
Proof.
  intros v0 j f f' J (st & q & m & b & E & S & B & ->) (st' & q' & m' & b' & E' & S' & B' & ->).
  destruct (nth_error ls j) as [l|] eqn:NE; [|apply nth_error_None in NE; lia].
  rewrite (prefix_step j l NE), E in E'. cbv zeta in E'. cbn [fst snd] in E'.
  assert (P := part_passes). rewrite Forall_forall in P. specialize (P l (nth_error_In _ _ NE)).
  destruct (P st q S) as (st1 & q1 & m1 & E1 & S1 & D1 & _ & M & _). rewrite E1 in E'. cbn [fst snd omul] in E'.
  injection E' as <- <-. rewrite (good_state_unique _ _ _ S1 S') in *.
  assert (W : st_where st = true) by (assert (W := prefix_where j); rewrite E in W; exact W).
  assert (W1 : st_where st1 = true).
  { assert (W1 := prefix_where (Datatypes.S j)). rewrite (prefix_step j l NE), E in W1. cbv zeta in W1. cbn [fst snd] in W1.
    rewrite E1 in W1. exact W1. }
  destruct (M W W1 (mat_apply b' v0)) as [LE _].
  eapply Rle_trans; [exact LE|]. apply Req_le. f_equal. symmetry. apply (inverse_unique m b _ _ B).
  rewrite <- mat_apply_mul.
  assert (DM : mat_det (mat_mul m m1) <> 0).
  { intros Z. unfold mat_inverse in B'. rewrite Z, cdiv_z in B'. discriminate. }
  destruct (inverse_apply (mat_mul m m1) v0 DM) as (b2 & B2 & A2). rewrite B' in B2. injection B2 as <-. exact A2.
Qed.

(** The two ends. *)
Lemma ends : forall x, q_factor s (RtoC c0) (RtoC n0) = Some (RtoC x) -> (0 < x)%R -> exists r R T f0 fN,
  fst coefficients = Some r /\ efficiency = (Some R, Some T) /\
  flux_at (RtoC 1, r) 0 f0 /\ flux_at (RtoC 1, r) (length ls) fN /\ (f0 = x * (1 - R))%R /\ (fN = x * T)%R.
Proof.
  intros x QX X. destruct ambient_state as (x' & X' & QX' & S0). rewrite QX in QX'.
  assert (x' = x) by (apply RtoC_inj; congruence). subst x'. clear QX'.
  destruct (ideal_efficiency medium wavelength n0 c0 (ASequence ls) substrate s medium_passive ideal) as (R & T & EF & _).
  destruct (prefix_good x (length ls) S0) as (st & q & m & E & S & D & _).
  assert (ES := layer_passes wavelength s k medium0 (proj1 (proj2 (proj2 ideal))) k_pos medium0_passive _ substrate_good).
  destruct (ES st q S) as (st2 & q2 & m2 & E2 & S2 & D2 & _ & M2 & _).
  assert (W : st_where st = true) by (assert (W := prefix_where (length ls)); rewrite E in W; exact W).
  assert (MM : multilayer_matrix wavelength (RtoC c0) (RtoC n0) (ASequence ls) substrate s = (st2, Some (mat_mul m m2))).
  { unfold multilayer_matrix. cbv zeta. unfold prefix in E. rewrite firstn_all in E. rewrite E. cbn [fst snd]. rewrite E2. reflexivity. }
  assert (W2 : st_where st2 = true).
  { assert (X2 := f_equal fst E2). cbn [fst] in X2. rewrite <- X2. unfold layer_transfer. cbv zeta. cbn [fst st_where].
    rewrite W. cbn [andb]. destruct S as (GS & DS & _). rewrite DS. cbn [obind].
    assert (NN := good_neq_0 k medium0 medium0_passive _ (proj1 substrate_good)).
    rewrite snell_value by exact NN. cbn [obind].
    replace (ly_thickness (substrate_layer substrate)) with 0%R by (destruct substrate; reflexivity).
    destruct ideal as (_ & _ & WL & _). rewrite propagation_zero by lra. cbn [where_propagation mat_id mxx].
    destruct (Rlt_dec (Cmod 1) (10 ^ 10)) as [|Z]; [reflexivity|]. exfalso. apply Z. rewrite Cmod_1. lra. }
  set (mm := mat_mul m m2) in *.
  assert (DM : mat_det mm <> 0) by (unfold mm; rewrite mat_det_mul; apply Cmult_neq_0; assumption).
  (* the efficiency in terms of the matrix *)
  assert (MM' : multilayer_matrix wavelength (RtoC c0) (RtoC n0) (ASequence ls) (Some (substrate_layer substrate)) s = (st2, Some mm)).
  { rewrite <- MM. unfold multilayer_matrix. destruct substrate; reflexivity. }
  assert (EF' := EF). unfold multilayer_efficiency, multilayer_coefficients in EF'. cbv zeta in EF'. rewrite MM' in EF'. cbn [fst snd obind] in EF'.
  destruct (Ceq_dec (mxx mm) 0) as [Z|Z].
  { rewrite Z, cdiv_z in EF'. cbn [omap] in EF'. discriminate. }
  rewrite !(cdiv_nz _ (mxx mm)) in EF' by exact Z. rewrite W2 in EF'. cbn [omap obind] in EF'.
  set (ns := layer_n (substrate_layer substrate) wavelength) in *.
  assert (NN : ns <> 0) by (exact (good_neq_0 k medium0 medium0_passive _ (proj1 substrate_good))).
  destruct (real_ambient n0 c0 (proj1 ideal) (proj1 (proj2 ideal))) as (T0 & _).
  rewrite snell_value, T0 in EF' by exact NN. cbn [obind] in EF'. rewrite QX in EF'. cbn [obind] in EF'.
  assert (SN2 : st_n st2 = ns) by (assert (X2 := f_equal fst E2); cbn [fst] in X2; rewrite <- X2; reflexivity).
  destruct S2 as (GM2 & DD2 & QQ2). rewrite SN2 in *. rewrite QQ2 in EF'. cbn [obind] in EF'.
  rewrite cdiv_nz in EF' by (apply RtoC_neq_0; lra). cbn [obind] in EF'.
  assert (RR : (Cmod (myx mm / mxx mm)%C ^ 2)%R = R) by congruence.
  assert (TT : (Cmod (1 / mxx mm)%C ^ 2 * Re (q2 / RtoC x)%C)%R = T) by congruence. clear EF'.
  exists (myx mm / mxx mm), R, T, (x * (1 - R))%R, (x * T)%R.
  assert (CO : fst coefficients = Some (myx mm / mxx mm)).
  { unfold multilayer_coefficients. cbv zeta. rewrite MM. cbn [fst snd obind]. apply cdiv_nz, Z. }
  split; [exact CO|]. split; [exact EF|].
  set (r := myx mm / mxx mm) in *.
  split; [|split; [|split; reflexivity]].
  - exists st0, (RtoC x), mat_id. 
    destruct (mat_inverse_some mat_id) as (b & B & _ & C1); [unfold mat_det; cbn; intros Y; apply (f_equal Re) in Y; cbn in Y; lra|].
    exists b. split; [reflexivity|]. split; [exact S0|]. split; [exact B|].
    rewrite mat_id_r in C1. subst b.
    replace (mat_apply mat_id (RtoC 1, r)) with (RtoC 1, r) by (unfold mat_apply; cbn; f_equal; ring).
    rewrite <- RR, Cmod_sq. unfold power_flux; cbn [fst snd]. cparts. ring.
  - destruct (mat_inverse_some m D) as (b & B & _). exists st, q, m, b. split; [exact E|]. split; [exact S|]. split; [exact B|].
    assert (V : mat_apply b (RtoC 1, r) = mat_apply m2 (1 / mxx mm, RtoC 0)).
    { apply (inverse_unique m b _ _ B). rewrite <- mat_apply_mul. fold mm. unfold mat_apply; cbn [fst snd]. unfold r.
      f_equal; field; exact Z. }
    rewrite V.
    (* the substrate has no thickness: its matrix is the interface alone *)
    assert (EQ : power_flux q (mat_apply m2 (1 / mxx mm, RtoC 0)) = power_flux q2 (1 / mxx mm, RtoC 0)).
    { clear - E2 S W W2 ideal medium_passive QQ2 SN2 GM2. destruct S as (GS & DS & Q).
      assert (MP := medium0_passive). assert (K := k_pos).
      destruct (good_q s k medium0 K MP _ GS) as (q0 & Q0 & WS & SS). rewrite Q in Q0. injection Q0 as <-.
      destruct (good_q s k medium0 K MP _ GM2) as (q' & Q' & WM & SM). rewrite QQ2 in Q'. injection Q' as <-.
      assert (SUM := q_sum_neq_0 s _ _ _ _ WS WM SS SM).
      assert (QN := wave_pair_neq_0 _ _ WS).
      assert (RF := refraction_value wavelength _ _ s _ _ _ _ Q QQ2 QN SUM).
      unfold layer_transfer in E2. cbv zeta in E2. rewrite W, DS in E2. cbn [obind] in E2. fold ns in E2.
      assert (NN := good_neq_0 k medium0 MP _ GM2). assert (NS := good_neq_0 k medium0 MP _ GS).
      rewrite snell_value, tangential2_cos_in in E2 by assumption. cbn [obind] in E2.
      destruct substrate_good as (_ & _ & IN). rewrite IN, RF in E2.
      replace (ly_thickness (substrate_layer substrate)) with 0%R in E2 by (destruct substrate; reflexivity).
      destruct ideal as (_ & _ & WL & _). rewrite propagation_zero in E2 by lra.
      assert (E3 := f_equal snd E2). cbn [snd] in E3.
      assert (m2 = let u := (q + q2) / (2 * q) in let v := (q - q2) / (2 * q) in Mat2 u v v u).
      { destruct (true && where_propagation (Some mat_id)); cbn [omul] in E3; injection E3 as <-; [apply mat_id_r | reflexivity]. }
      subst m2. exact (interface_flux q q2 _ QN). }
    rewrite EQ, flux_forward, <- TT.
    unfold Cdiv at 2. cparts. field. lra.
Qed.
End Absorbance.

(** ** Transparent stacks *)
Section Transparent.
Variables (wavelength : R) (s : bool) (k : R) (medium : C -> Prop).
Hypothesis wavelength_pos : (0 < wavelength)%R.
Hypothesis k_nonneg : (0 <= k)%R.
Hypothesis medium_passive : forall n, medium n -> passive n.

Definition stays (f : lstate -> lstate * option mat2) : Prop :=
  forall st q, good_state s k medium st q -> st_where st = true -> st_where (fst (f st)) = true.

Lemma layer_stays : forall l, good_layer wavelength k medium l -> transparent (RtoC k) wavelength l ->
  stays (layer_transfer wavelength s l).
Proof.
  intros l (GM & _ & _) T st q (GS & D & _) W. unfold layer_transfer. cbv zeta. cbn [fst st_where]. rewrite W, D. cbn [obind andb].
  assert (N := good_neq_0 k medium medium_passive _ GM). assert (NS := good_neq_0 k medium medium_passive _ GS).
  rewrite snell_value, tangential2_cos_in by assumption. cbn [obind].
  apply where_value; [lra|]. apply T. apply tangential2_cos_in, N.
Qed.

Lemma sequence_stays : forall ls, List.Forall (fun l => passes s k medium (transfer wavelength s l)) ls ->
  List.Forall (fun l => stays (transfer wavelength s l)) ls -> stays (transfer wavelength s (ASequence ls)).
Proof.
  intros ls P H. induction H as [|l ls A _ IH]; intros st q S W.
  - exact W.
  - inversion P as [|? ? P1 P2]; subst. rewrite transfer_cons. cbv zeta. cbn [fst].
    destruct (P1 st q S) as (st1 & q1 & m1 & E1 & S1 & _). assert (W1 := A st q S W). rewrite E1 in *. cbn [fst] in *.
    exact (IH P2 st1 q1 S1 W1).
Qed.

Lemma stack_stays : forall l, periods_positive l ->
  List.Forall (fun l => good_layer wavelength k medium l /\ transparent (RtoC k) wavelength l) (layers_of l) ->
  stays (transfer wavelength s l).
Proof.
  assert (AUX : forall ls, periods_positive (ASequence ls) ->
    List.Forall (fun l => good_layer wavelength k medium l /\ transparent (RtoC k) wavelength l) (layers_of (ASequence ls)) ->
    List.Forall (fun l => passes s k medium (transfer wavelength s l)) ls).
  { intros ls P G. apply periods_all in P. apply Forall_parts in G. rewrite Forall_forall in *. intros x X.
    apply stack_passes; auto. eapply Forall_impl; [|exact (G x X)]. intros a [Ga _]; exact Ga. }
  induction l as [l|ls IH|ls num IH] using alayer_induction; intros P G.
  - inversion G as [|? ? []]; subst. apply layer_stays; assumption.
  - apply sequence_stays; [auto|]. apply periods_all in P. apply Forall_parts in G. rewrite Forall_forall in *. auto.
  - destruct P as [_ P]. assert (PA := AUX ls P G).
    assert (SA : stays (transfer wavelength s (ASequence ls))).
    { apply sequence_stays; [auto|]. apply (proj1 (periods_all ls)) in P. apply (Forall_parts _ ls) in G. rewrite Forall_forall in *. auto. }
    intros st q S W. destruct (sequence_passes wavelength s k medium ls PA st q S) as (st1 & q1 & m1 & E1 & S1 & _).
    assert (W1 := SA st q S W).
    change (st_where (fst (transfer wavelength s (ASequence ls) (fst (transfer wavelength s (ASequence ls) st)))) = true).
    rewrite E1 in *. cbn [fst] in *. exact (SA st1 q1 S1 W1).
Qed.
End Transparent.

(** ** The sum *)
Lemma layers_of_times : forall (P : layer -> Prop) ls n, List.Forall P (layers_of (ASequence ls)) ->
  List.Forall P (layers_of (ASequence (list_times ls n))).
Proof.
  intros P ls n H. unfold list_times. induction (Z.to_nat n) as [|j IH]; [constructor|]. cbn [repeat concat].
  rewrite layers_all, map_app, concat_app, <- !layers_all. apply Forall_app; auto.
Qed.

Lemma ideal_sequence : forall (medium : C -> Prop) wavelength n0 c0 layers substrate,
  ideal_stack medium wavelength n0 c0 layers substrate ->
  ideal_stack medium wavelength n0 c0 (ASequence (layer_sequence layers)) substrate.
Proof.
  intros medium wl n0 c0 layers substrate (N & C0 & W & P & G). repeat split; try assumption; try apply C0.
  - destruct layers as [l|ls|ls n]; cbn [layer_sequence].
    + cbn; auto.
    + exact P.
    + destruct P as [_ P]. apply periods_all in P. apply periods_all. unfold list_times.
      induction (Z.to_nat n); [constructor|]. cbn [repeat concat]. apply Forall_app; auto.
  - inversion G as [|? ? GS GL]; subst. constructor; [exact GS|]. destruct layers as [l|ls|ls n]; cbn [layer_sequence].
    + cbn in *. exact GL.
    + exact GL.
    + apply layers_of_times. exact GL.
Qed.

Lemma transfer_sequence : forall (medium : C -> Prop) wavelength n0 c0 layers substrate s,
  (forall n, medium n -> passive n) -> ideal_stack medium wavelength n0 c0 layers substrate ->
  transfer wavelength s (ASequence (layer_sequence layers)) (LState (RtoC n0) (Some (RtoC c0)) true) =
  transfer wavelength s layers (LState (RtoC n0) (Some (RtoC c0)) true).
Proof.
  intros medium wl n0 c0 layers substrate s MP I. destruct layers as [l|ls|ls n]; cbn [layer_sequence].
  - apply transfer_single.
  - reflexivity.
  - symmetry.
    assert (I' : ideal_stack medium wl n0 c0 (ASequence ls) substrate).
    { destruct I as (N & C0 & W & [_ P] & G). repeat split; try assumption; apply C0. }
    assert (M := medium0_passive medium wl n0 c0 substrate ls MP I').
    assert (A := ambient_state medium wl n0 c0 substrate s ls I').
    assert (G := layers_good medium wl n0 c0 substrate ls I').
    assert (PP := part_passes medium wl n0 c0 substrate s ls MP I').
    destruct I as (_ & _ & _ & [NP _] & _). destruct A as (x & _ & _ & S0).
    apply (periodic_is_repetition wl s ls n _ (RtoC c0)); [exact NP | | reflexivity |].
    + eapply Forall_impl; [|exact G]. intros a (A & _). exact (good_neq_0 _ _ M _ A).
    + intros _. assert (D : List.Forall (fun l => passes s (n0 ^ 2 * (1 - c0 ^ 2))%R (medium0 medium n0) (transfer wl s l)) (ls ++ ls))
        by (apply Forall_app; auto).
      destruct (sequence_passes wl s _ _ _ D _ _ S0) as (? & ? & m & E' & _). exists m. rewrite E'. reflexivity.
Qed.

Lemma efficiency_sequence : forall (medium : C -> Prop) wavelength n0 c0 layers substrate s,
  (forall n, medium n -> passive n) -> ideal_stack medium wavelength n0 c0 layers substrate ->
  multilayer_efficiency wavelength (RtoC c0) (RtoC n0) (ASequence (layer_sequence layers)) substrate s =
  multilayer_efficiency wavelength (RtoC c0) (RtoC n0) layers substrate s.
Proof.
  intros medium wl n0 c0 layers substrate s MP I. unfold multilayer_efficiency, multilayer_coefficients, multilayer_matrix. cbv zeta.
  rewrite (transfer_sequence medium wl n0 c0 layers substrate s MP I). reflexivity.
Qed.

Fixpoint sum_first (f : nat -> R) (j : nat) : R := match j with O => 0%R | S j => (sum_first f j + f j)%R end.

Lemma py_index_pos : forall {A} (l : list A) j x, nth_error l j = Some x -> py_index l (Z.of_nat j) = Some x.
Proof.
  intros A l j x H. unfold py_index. cbv zeta. destruct (Z.ltb_spec (Z.of_nat j) 0); [lia|].
  assert (J : (j < length l)%nat) by (apply nth_error_Some; congruence).
  destruct (Z.leb_spec 0 (Z.of_nat j)); [|lia]. destruct (Z.ltb_spec (Z.of_nat j) (Z.of_nat (length l))); [|lia].
  cbn [andb]. rewrite Nat2Z.id. exact H.
Qed.

Lemma py_slice_pos : forall {A} (l : list A) j, py_slice_to l (Z.of_nat j) = firstn j l.
Proof.
  intros A l j. unfold py_slice_to. cbv zeta. destruct (Z.ltb_spec (Z.of_nat j) 0); [lia|].
  rewrite <- Nat2Z.inj_min, Nat2Z.id. destruct (Nat.le_ge_cases j (length l)).
  - rewrite Nat.min_l by assumption. reflexivity.
  - rewrite Nat.min_r by assumption. rewrite !firstn_all2 by lia. reflexivity.
Qed.

Lemma absorbance_all : forall (medium : C -> Prop) wavelength n0 c0 layers substrate s,
  (forall n, medium n -> passive n) -> ideal_stack medium wavelength n0 c0 layers substrate ->
  List.Forall (fun l => first_layer l <> None) (layer_sequence layers) ->
  List.Forall (transparent (RtoC (n0 ^ 2 * (1 - c0 ^ 2))) wavelength) (layers_of layers) ->
  let num := length (layer_sequence layers) in
  let absorbance i := layer_absorbance i wavelength (RtoC c0) (RtoC n0) layers substrate s in
  exists r t a, multilayer_efficiency wavelength (RtoC c0) (RtoC n0) layers substrate s = (Some r, Some t) /\
    (forall i, (i < num)%nat -> absorbance (Z.of_nat i) = Some (RtoC (a i)) /\ (0 <= a i)%R) /\
    (r + t + sum_first a num = 1)%R /\
    ((1 <= num)%nat -> absorbance (-1)%Z = Some (RtoC (- sum_first a (num - 1)))).
Proof.
  intros medium wl n0 c0 layers substrate s MP I0 IN TR num absorbance.
  assert (I := ideal_sequence _ _ _ _ _ _ I0). set (ls := layer_sequence layers) in *.
  assert (EQ : forall i, absorbance i = layer_absorbance i wl (RtoC c0) (RtoC n0) (ASequence ls) substrate s) by reflexivity.
  assert (M := medium0_passive medium wl n0 c0 substrate ls MP I).
  destruct (ambient_state medium wl n0 c0 substrate s ls I) as (x & X & QX & S0).
  assert (G := layers_good medium wl n0 c0 substrate ls I).
  assert (K := k_pos medium wl n0 c0 substrate ls I).
  assert (TR' : List.Forall (transparent (RtoC (n0 ^ 2 * (1 - c0 ^ 2))) wl) (layers_of (ASequence ls))).
  { unfold ls. destruct layers as [l|l|l n]; cbn [layer_sequence]; [exact TR | exact TR | apply layers_of_times; exact TR]. }
  assert (WH : st_where (fst (transfer wl s (ASequence ls) (LState (RtoC n0) (Some (RtoC c0)) true))) = true).
  { refine (stack_stays wl s (n0 ^ 2 * (1 - c0 ^ 2)) (medium0 medium n0) _ K M (ASequence ls) _ _ _ _ S0 eq_refl).
    - apply I.
    - apply I.
    - rewrite Forall_forall in *. auto. }
  destruct (ends medium wl n0 c0 substrate s ls MP I WH x QX X) as (r & R & T & f0 & fN & CO & EF & F0 & FN & V0 & VN).
  unfold ls in EF. rewrite (efficiency_sequence medium wl n0 c0 layers substrate s MP I0) in EF. fold ls in EF.
  assert (CH : exists f, forall j, flux_at medium wl n0 c0 s ls (RtoC 1, r) j (f j)).
  { assert (Z := fun j => flux_at_ex medium wl n0 c0 substrate s ls MP I (RtoC 1, r) j).
    clear - Z I MP.
    (* no choice is needed: the flux is computed from the prefix *)
    exists (fun j => match snd (prefix wl n0 c0 s ls j) with
                     | Some m => match mat_inverse m with
                                 | Some b => match q_factor s (cos_in (RtoC (n0 ^ 2 * (1 - c0 ^ 2))) (st_n (fst (prefix wl n0 c0 s ls j)))) (st_n (fst (prefix wl n0 c0 s ls j))) with
                                             | Some q => power_flux q (mat_apply b (RtoC 1, r))
                                             | None => 0%R end
                                 | None => 0%R end
                     | None => 0%R end).
    intros j. destruct (Z j) as (f & st & q & m & b & E & S & B & ->). exists st, q, m, b.
    rewrite E. cbn [fst snd]. rewrite B. destruct S as (S1 & S2 & S3). rewrite S3. repeat split; auto; apply S1. }
  destruct CH as (f & CH).
  exists R, T, (fun i => (f i - f (S i)) / x)%R.
  assert (SUM : forall j, (sum_first (fun i => (f i - f (S i)) / x) j = (f 0%nat - f j) / x)%R).
  { induction j as [|j IH]; cbn [sum_first]; [|rewrite IH]; field; lra. }
  split; [exact EF|]. split; [|split].
  - intros i L. destruct (nth_error ls i) as [l|] eqn:NE; [|apply nth_error_None in NE; unfold num in L; lia].
    split.
    + rewrite EQ. refine (absorbance_value medium wl n0 c0 substrate s ls MP I IN (Z.of_nat i) i (S i) l r x (f i) (f (S i)) _ NE _ _ CO QX X _ (CH i) (CH (S i))).
      * apply py_index_pos, NE.
      * apply py_slice_pos.
      * replace (Z.of_nat i + 1)%Z with (Z.of_nat (S i)) by lia. apply py_slice_pos.
      * apply (prefix_where medium wl n0 c0 substrate s ls MP I WH).
    + assert (H := nonneg_step medium wl n0 c0 substrate s ls MP I WH (RtoC 1, r) i (f i) (f (S i)) L (CH i) (CH (S i))).
      apply Rmult_le_pos; [lra | left; apply Rinv_0_lt_compat; exact X].
  - rewrite SUM.
    rewrite (flux_at_unique medium wl n0 c0 s ls (RtoC 1, r) 0 _ _ (CH 0%nat) F0).
    rewrite (flux_at_unique medium wl n0 c0 s ls (RtoC 1, r) num _ _ (CH num) FN), V0, VN. field. lra.
  - intros L. destruct (nth_error ls (num - 1)) as [l|] eqn:NE; [|apply nth_error_None in NE; unfold num in *; lia].
    rewrite EQ, SUM. replace (- ((f 0%nat - f (num - 1)%nat) / x))%R with ((f (num - 1)%nat - f 0%nat) / x)%R by (field; lra).
    refine (absorbance_value medium wl n0 c0 substrate s ls MP I IN (-1) (num - 1) 0 l r x _ _ _ NE _ _ CO QX X _ (CH (num - 1)%nat) (CH 0%nat)).
    + unfold py_index. cbv zeta. cbn [Z.ltb Z.compare]. fold num.
      destruct (Z.leb_spec 0 (-1 + Z.of_nat num)); [|lia]. destruct (Z.ltb_spec (-1 + Z.of_nat num) (Z.of_nat num)); [|lia].
      cbn [andb]. replace (Z.to_nat (-1 + Z.of_nat num)) with (num - 1)%nat by lia. exact NE.
    + unfold py_slice_to. cbv zeta. cbn [Z.ltb Z.compare]. fold num.
      replace (Z.to_nat (Z.max 0 (-1 + Z.of_nat num))) with (num - 1)%nat by lia. reflexivity.
    + change (-1 + 1)%Z with (Z.of_nat 0). apply py_slice_pos.
    + apply (prefix_where medium wl n0 c0 substrate s ls MP I WH).
Qed.
