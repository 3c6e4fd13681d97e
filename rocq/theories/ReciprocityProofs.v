(** A stack transmits the same fraction from both sides. *)
From Coq Require Import Reals Lra Psatz List Bool Arith ZArith Lia.
From Coquelicot Require Import Coquelicot.
From Verif Require Import Num NumLemmas ComplexModel ComplexLemmas ProfileModel LayerModel LayerSpec LayerProofs LayerTrivialProofs
  LayerCaseProofs EnergyProofs StackSpec StackProofs FresnelSpec FresnelProofs ReciprocitySpec.
Import ListNotations.
Open Scope C_scope.
Open Scope opt_scope.

(** ** Matrices the other way round *)
Definition flip (m : mat2) : mat2 := Mat2 (mxx m) (- myx m) (- mxy m) (myy m).
Definition scale (a : C) (m : mat2) : mat2 := Mat2 (a * mxx m) (a * mxy m) (a * myx m) (a * myy m).

Lemma flip_mul : forall a b, flip (mat_mul a b) = mat_mul (flip b) (flip a).
Proof. intros [a1 a2 a3 a4] [b1 b2 b3 b4]. unfold flip, mat_mul. cbn. f_equal; ring. Qed.
Lemma scale_mul_l : forall x a b, mat_mul (scale x a) b = scale x (mat_mul a b).
Proof. intros x [a1 a2 a3 a4] [b1 b2 b3 b4]. unfold scale, mat_mul. cbn. f_equal; ring. Qed.
Lemma scale_mul_r : forall x a b, mat_mul a (scale x b) = scale x (mat_mul a b).
Proof. intros x [a1 a2 a3 a4] [b1 b2 b3 b4]. unfold scale, mat_mul. cbn. f_equal; ring. Qed.
Lemma scale_scale : forall x y a, scale x (scale y a) = scale (x * y) a.
Proof. intros x y [a1 a2 a3 a4]. unfold scale. cbn. f_equal; ring. Qed.

Definition step_matrix (qi qj : C) : mat2 :=
  let u := (qi + qj) / (2 * qi) in let v := (qi - qj) / (2 * qi) in Mat2 u v v u.

Lemma flip_step : forall qi qj : C, qi <> 0 -> qj <> 0 -> flip (step_matrix qi qj) = scale (qj / qi) (step_matrix qj qi).
Proof.
  intros qi qj I J. unfold flip, scale, step_matrix. cbn. assert (T := C2_neq_0).
  f_equal; field; repeat split; assumption.
Qed.

Section Chain.
Variables (wl : R) (s : bool) (k : R).
Hypothesis W : (0 < wl)%R.

Definition factor (n : C) : C := polarized s (cos_in (RtoC (k ^ 2)) n) * (if s then n else 1 / n).
Definition crossing (l : layer) : mat2 :=
  let beta := RtoC (2 * PI * ly_thickness l / wl) * (layer_n l wl * cos_in (RtoC (k ^ 2)) (layer_n l wl)) in
  Mat2 (cexp (- Ci * beta)) 0 0 (cexp (Ci * beta)).
Fixpoint chain (n : C) (ls : list layer) (m : C) : mat2 :=
  match ls with
  | [] => step_matrix (factor n) (factor m)
  | l :: ls => mat_mul (mat_mul (step_matrix (factor n) (factor (layer_n l wl))) (crossing l)) (chain (layer_n l wl) ls m)
  end.

Definition fine (n : C) : Prop := passive n /\ off_critical (RtoC (k ^ 2)) n.

Lemma fine_nz : forall n, fine n -> n <> 0.
Proof. intros n [[P _] _] E. rewrite E in P. cbn in P. lra. Qed.

Lemma fine_factor : forall n, fine n -> q_factor s (cos_in (RtoC (k ^ 2)) n) n = Some (factor n).
Proof.
  intros n F. assert (N := fine_nz n F). unfold q_factor, impedance, factor. destruct s; [reflexivity|].
  rewrite cdiv_nz by exact N. reflexivity.
Qed.

Lemma factor_sum : forall n m, fine n -> fine m -> factor n <> 0 /\ factor n + factor m <> 0.
Proof.
  intros n m A B.
  destruct (wave_q s (k ^ 2) n (pow2_ge_0 k) (proj1 A) (proj2 A)) as (q & Q & P & I).
  destruct (wave_q s (k ^ 2) m (pow2_ge_0 k) (proj1 B) (proj2 B)) as (q' & Q' & P' & I').
  rewrite fine_factor in Q by exact A. rewrite fine_factor in Q' by exact B.
  assert (E : factor n = q) by congruence. assert (E' : factor m = q') by congruence. rewrite E, E'.
  split; [exact (wave_pair_neq_0 _ _ P) | exact (q_sum_neq_0 s _ _ _ _ P P' I I')].
Qed.

Lemma chain_app : forall ls n l m, chain n (ls ++ [l]) m =
  mat_mul (mat_mul (chain n ls (layer_n l wl)) (crossing l)) (step_matrix (factor (layer_n l wl)) (factor m)).
Proof.
  induction ls as [|x ls IH]; intros n l m; [reflexivity|]. cbn [app chain]. rewrite IH. rewrite !mat_mul_assoc. reflexivity.
Qed.

Lemma chain_flip : forall ls n m, fine n -> fine m -> List.Forall (fun l => fine (layer_n l wl)) ls ->
  flip (chain n ls m) = scale (factor m / factor n) (chain m (rev ls) n).
Proof.
  induction ls as [|l ls IH]; intros n m N M F.
  - cbn [chain rev]. apply flip_step; [apply (factor_sum n m N M) | apply (factor_sum m n M N)].
  - inversion F as [|? ? L F']; subst. cbn [chain rev]. rewrite chain_app, !flip_mul, IH by assumption.
    rewrite flip_step by (first [apply (factor_sum n m N M) | apply (factor_sum _ m L M)]).
    assert (C : flip (crossing l) = crossing l) by (unfold flip, crossing; cbn; f_equal; ring). rewrite C.
    rewrite scale_mul_l, !scale_mul_r, scale_scale, mat_mul_assoc.
    assert (A := proj1 (factor_sum n m N M)). assert (B := proj1 (factor_sum _ m L M)).
    f_equal. field. split; assumption.
Qed.

(** ** The stack is the chain *)
Definition open (l : layer) : bool :=
  where_propagation (propagation wl (cos_in (RtoC (k ^ 2)) (layer_n l wl)) (ly_thickness l) (layer_n l wl)).

Lemma refraction_step : forall n m, fine n -> fine m ->
  refraction wl (cos_in (RtoC (k ^ 2)) n) (cos_in (RtoC (k ^ 2)) m) s n m None = Some (step_matrix (factor n) (factor m)).
Proof.
  intros n m N M. destruct (factor_sum n m N M) as [A B].
  exact (refraction_value wl _ _ s n m _ _ (fine_factor n N) (fine_factor m M) A B).
Qed.

Lemma stack_chain : forall sub ls n, ly_interface sub = None -> fine (layer_n sub wl) -> fine n ->
  List.Forall (fun l => fine (layer_n l wl) /\ ly_interface l = None /\ open l = true) ls ->
  stack_matrix wl s sub ls (LState n (Some (cos_in (RtoC (k ^ 2)) n)) true) = Some (chain n ls (layer_n sub wl)).
Proof.
  intros sub ls n SI SF. revert n. induction ls as [|l ls IH]; intros n N F.
  - unfold stack_matrix. cbn [map]. rewrite transfer_nil. cbv zeta. cbn [fst snd]. rewrite omul_id_l.
    rewrite (layer_matrix wl s n _ (bare sub)); [|exact (fine_nz _ SF) | exact SI | apply open_zero; lra].
    cbn [snd]. change (layer_n (bare sub) wl) with (layer_n sub wl). change (ly_thickness (bare sub)) with 0%R.
    rewrite tangential2_cos_in by exact (fine_nz _ N). rewrite refraction_step by assumption.
    rewrite propagation_zero by lra. rewrite omul_id_r. reflexivity.
  - inversion F as [|? ? (L & LI & LO) F']; subst. unfold stack_matrix. cbn [map]. rewrite transfer_cons. cbv zeta. cbn [fst snd].
    change (transfer wl s (ALayer l) (LState n (Some (cos_in (RtoC (k ^ 2)) n)) true)) with (layer_transfer wl s l (LState n (Some (cos_in (RtoC (k ^ 2)) n)) true)).
    assert (TG : tangential2 (cos_in (RtoC (k ^ 2)) n) n = RtoC (k ^ 2)) by (apply tangential2_cos_in; exact (fine_nz _ N)).
    rewrite (layer_matrix wl s n _ l (fine_nz _ L) LI); rewrite TG; [|exact LO]. cbn [fst snd].
    rewrite <- omul_assoc. specialize (IH (layer_n l wl) L F'). unfold stack_matrix in IH. cbv zeta in IH. rewrite IH.
    rewrite refraction_step by assumption. rewrite propagation_value by lra. reflexivity.
Qed.

Lemma stack_where : forall sub ls n, ly_interface sub = None -> fine (layer_n sub wl) -> fine n ->
  List.Forall (fun l => fine (layer_n l wl)) ls -> forall w,
  st_where (fst (layer_transfer wl s (bare sub) (fst (transfer wl s (ASequence (map ALayer ls)) (LState n (Some (cos_in (RtoC (k ^ 2)) n)) w))))) =
  w && forallb open ls.
Proof.
  intros sub ls n SI SF. revert n. induction ls as [|l ls IH]; intros n N F w.
  - cbn [map forallb]. rewrite transfer_nil. cbn [fst]. unfold layer_transfer. cbv zeta. cbn [fst st_n st_direction st_where obind].
    rewrite snell_value by exact (fine_nz _ SF). cbn [obind]. change (ly_thickness (bare sub)) with 0%R. rewrite open_zero by lra. reflexivity.
  - inversion F as [|? ? L F']; subst. cbn [map]. rewrite transfer_cons. cbv zeta. cbn [fst].
    assert (E : fst (transfer wl s (ALayer l) (LState n (Some (cos_in (RtoC (k ^ 2)) n)) w)) =
      LState (layer_n l wl) (Some (cos_in (RtoC (k ^ 2)) (layer_n l wl))) (w && open l)).
    { change (transfer wl s (ALayer l) (LState n (Some (cos_in (RtoC (k ^ 2)) n)) w)) with (layer_transfer wl s l (LState n (Some (cos_in (RtoC (k ^ 2)) n)) w)).
      unfold layer_transfer. cbv zeta. cbn [fst st_n st_direction st_where obind]. rewrite snell_value by exact (fine_nz _ L).
      rewrite tangential2_cos_in by exact (fine_nz _ N). reflexivity. }
    rewrite E, IH by assumption. cbn [forallb]. rewrite andb_assoc. reflexivity.
Qed.
End Chain.

Local Open Scope R_scope.
Lemma angle_fine : forall k n th, wave_angle k n th -> fine k (RtoC n).
Proof.
  intros k n th V. split; [|exact (angle_critical k n th V)]. destruct V as (N & _). split; cbn; lra.
Qed.

Lemma angle_cos_in : forall k n th, wave_angle k n th -> cos_in (RtoC (k ^ 2)) (RtoC n) = RtoC (cos th).
Proof.
  intros k n th V. rewrite <- (angle_k k n th V). apply real_ambient; [destruct V; assumption|].
  split; [exact (angle_cos k n th V) | apply COS_bound].
Qed.

Lemma angle_factor : forall s k n th, wave_angle k n th -> factor s k (RtoC n) = RtoC (tilted s n th).
Proof.
  intros s k n th V. unfold factor. rewrite (angle_cos_in k n th V). destruct V as (N & _). unfold polarized, tilted. destruct s.
  - cring.
  - rewrite RtoC_div by lra. replace (Cconj (RtoC (cos th))) with (RtoC (cos th)) by cring. field. apply RtoC_neq_0. lra.
Qed.

Lemma smooth_fine : forall wl k l, smooth_layer wl k l -> fine k (layer_n l wl).
Proof. intros wl k l (P & _ & _ & O). split; assumption. Qed.

Lemma some_value : forall a b : R, Some a = Some b -> a = b.
Proof. intros a b H. congruence. Qed.

Lemma forward_efficiency : forall wl s n0 th0 ls sub ns ths, 0 < wl -> wave_angle (n0 * sin th0) n0 th0 ->
  List.Forall (smooth_layer wl (n0 * sin th0)) ls -> wave_angle (n0 * sin th0) ns ths -> half_space wl sub ns ->
  exists r t, multilayer_efficiency wl (RtoC (cos th0)) (RtoC n0) (ASequence (map ALayer ls)) (Some sub) s = (Some r, Some t) /\
    ((forall l, In l ls -> lossless (layer_n l wl)) -> r = 1 - t) /\
    t = if forallb (open wl (n0 * sin th0)) ls
        then tilted s ns ths / tilted s n0 th0 / Cmod (mxx (chain wl s (n0 * sin th0) (RtoC n0) ls (RtoC ns))) ^ 2 else 0.
Proof.
  intros wl s n0 th0 ls sub ns ths WL W F V (SN & SI). set (k := n0 * sin th0) in *.
  set (medium := fun n => passive n /\ ((forall l, In l ls -> lossless (layer_n l wl)) -> lossless n)).
  assert (I : ideal_stack medium wl n0 (cos th0) (ASequence (map ALayer ls)) (Some sub)).
  { split; [destruct W; assumption|]. split; [split; [exact (angle_cos _ _ _ W) | apply COS_bound]|]. split; [exact WL|].
    split; [apply periods_map|]. rewrite layers_of_map, (angle_k _ _ _ W). constructor.
    - cbn [substrate_layer ly_thickness ly_interface]. change (layer_n (Layer (ly_chemical sub) 0 (ly_interface sub)) wl) with (layer_n sub wl). rewrite SN.
      destruct (angle_fine _ _ _ V) as [A B]. split; [split; [exact A|]; intros _; split; [destruct V; assumption | reflexivity]|]. split; [lra|]. split; [exact SI | exact B].
    - rewrite List.Forall_forall in F |- *. intros l IL. destruct (F l IL) as (A & B & C & D).
      split; [split; [exact A | intros H; apply H; exact IL]|]. split; [exact B|]. split; [exact C | exact D]. }
  assert (NF := angle_fine _ _ _ W). assert (SF := angle_fine _ _ _ V).
  destruct (ideal_efficiency medium wl n0 (cos th0) (ASequence (map ALayer ls)) (Some sub) s (fun n H => proj1 H) I) as (r & t & EF & _ & _ & _ & SUM).
  exists r, t. split; [exact EF|]. split.
  { intros L. assert (r + t = 1) by (apply SUM; intros n [_ H]; exact (H L)). lra. }
  unfold multilayer_efficiency, multilayer_coefficients, multilayer_matrix in EF. cbv zeta in EF. apply (f_equal snd) in EF. cbn [fst snd] in EF.
  change (substrate_layer (Some (substrate_layer (Some sub)))) with (bare sub) in EF.
  change (layer_n (substrate_layer (Some sub)) wl) with (layer_n sub wl) in EF. rewrite SN in EF.
  rewrite <- (angle_cos_in _ _ _ W) in EF. fold k in EF.
  assert (SF' : fine k (layer_n sub wl)) by (rewrite SN; exact SF).
  assert (FF : List.Forall (fun l => fine k (layer_n l wl)) ls) by (eapply List.Forall_impl; [|exact F]; intros l; apply smooth_fine).
  rewrite (stack_where wl s k WL sub ls (RtoC n0) SI SF' NF FF true) in EF. cbn [andb] in EF.
  change (omul (snd (transfer wl s (ASequence (map ALayer ls)) (LState (RtoC n0) (Some (cos_in (RtoC (k ^ 2)) (RtoC n0))) true)))
     (snd (layer_transfer wl s (bare sub) (fst (transfer wl s (ASequence (map ALayer ls)) (LState (RtoC n0) (Some (cos_in (RtoC (k ^ 2)) (RtoC n0))) true))))))
    with (stack_matrix wl s sub ls (LState (RtoC n0) (Some (cos_in (RtoC (k ^ 2)) (RtoC n0))) true)) in EF.
  assert (Q0 := tilted_pos s _ _ _ W). assert (Q := tilted_pos s _ _ _ V).
  destruct (forallb (open wl k) ls) eqn:O.
  - rewrite (stack_chain wl s k WL sub ls (RtoC n0) SI SF' NF) in EF.
    2:{ rewrite List.Forall_forall in F |- *. rewrite forallb_forall in O. intros l IL. destruct (F l IL) as (A & B & C & D). split; [split; assumption|]. split; [exact C | exact (O l IL)]. }
    rewrite SN in EF. set (M := chain wl s k (RtoC n0) ls (RtoC ns)) in *. cbn [obind] in EF.
    destruct (cdiv 1 (mxx M)) as [x|] eqn:D; [|discriminate]. apply cdiv_inv in D. destruct D as [M0 ->]. cbn [obind] in EF.
    rewrite snell_value in EF by (apply RtoC_neq_0; destruct V; lra). rewrite tangential2_cos_in in EF by (apply RtoC_neq_0; destruct W; lra). cbn [obind] in EF.
    rewrite !fine_factor in EF by assumption. cbn [obind] in EF. rewrite (angle_factor s k n0 th0 W), (angle_factor s k ns ths V) in EF.
    rewrite cdiv_nz in EF by (apply RtoC_neq_0; lra). cbn [obind] in EF. apply some_value in EF. rewrite <- EF.
    rewrite <- RtoC_div by lra. change (Re (RtoC (tilted s ns ths / tilted s n0 th0))) with (tilted s ns ths / tilted s n0 th0). rewrite Cmod_div, Cmod_1 by exact M0. field. split; [lra|]. intros Z. apply Cmod_eq_0 in Z. contradiction.
  - destruct (stack_matrix wl s sub ls (LState (RtoC n0) (Some (cos_in (RtoC (k ^ 2)) (RtoC n0))) true)) as [M|]; cbn [obind] in EF;
    rewrite snell_value in EF by (apply RtoC_neq_0; destruct V; lra); rewrite tangential2_cos_in in EF by (apply RtoC_neq_0; destruct W; lra); cbn [obind] in EF;
    rewrite !fine_factor in EF by assumption; cbn [obind] in EF; rewrite (angle_factor s k n0 th0 W), (angle_factor s k ns ths V) in EF;
    rewrite cdiv_nz in EF by (apply RtoC_neq_0; lra); cbn [obind] in EF; apply some_value in EF; rewrite <- EF; rewrite Cmod_0; ring.
Qed.

Lemma reciprocity : forall wl s n0 th0 ls front back ns ths, 0 < wl -> wave_angle (n0 * sin th0) n0 th0 ->
  List.Forall (smooth_layer wl (n0 * sin th0)) ls -> wave_angle (n0 * sin th0) ns ths -> half_space wl front n0 -> half_space wl back ns ->
  exists r r' t,
    multilayer_efficiency wl (RtoC (cos th0)) (RtoC n0) (ASequence (map ALayer ls)) (Some back) s = (Some r, Some t) /\
    multilayer_efficiency wl (RtoC (cos ths)) (RtoC ns) (ASequence (map ALayer (rev ls))) (Some front) s = (Some r', Some t) /\
    ((forall l, In l ls -> lossless (layer_n l wl)) -> r = r').
Proof.
  intros wl s n0 th0 ls front back ns ths WL W F V A B.
  assert (E : ns * sin ths = n0 * sin th0) by (destruct V as (_ & _ & V); exact V).
  assert (W2 : wave_angle (ns * sin ths) ns ths) by (rewrite E; exact V). assert (V2 : wave_angle (ns * sin ths) n0 th0) by (rewrite E; exact W).
  assert (F2 : List.Forall (smooth_layer wl (ns * sin ths)) (rev ls)) by (rewrite E; apply Forall_rev; exact F).
  destruct (forward_efficiency wl s n0 th0 ls back ns ths WL W F V B) as (r & t & EF & L & T).
  destruct (forward_efficiency wl s ns ths (rev ls) front n0 th0 WL W2 F2 V2 A) as (r' & t' & EF' & L' & T').
  assert (TT : t' = t).
  { rewrite T, T', E. 
    assert (O : forallb (open wl (n0 * sin th0)) (rev ls) = forallb (open wl (n0 * sin th0)) ls).
    { apply eq_true_iff_eq. rewrite !forallb_forall. split; intros H x I; apply H; [apply -> in_rev | apply <- in_rev]; exact I. }
    rewrite O. destruct (forallb (open wl (n0 * sin th0)) ls); [|reflexivity].
    assert (FF : List.Forall (fun l => fine (n0 * sin th0) (layer_n l wl)) ls) by (eapply List.Forall_impl; [|exact F]; intros l; apply smooth_fine).
    assert (X := chain_flip wl s (n0 * sin th0) ls (RtoC n0) (RtoC ns) (angle_fine _ _ _ W) (angle_fine _ _ _ V) FF).
    apply (f_equal mxx) in X. cbn [flip scale mxx] in X. rewrite X.
    rewrite (angle_factor s _ n0 th0 W), (angle_factor s _ ns ths V). assert (Q0 := tilted_pos s _ _ _ W). assert (Q := tilted_pos s _ _ _ V).
    rewrite <- RtoC_div by lra. rewrite Cmod_mult, Cmod_R, Rpow_mult_distr, pow2_abs.
    set (m := mxx (chain wl s (n0 * sin th0) (RtoC ns) (rev ls) (RtoC n0))).
    destruct (Req_dec (Cmod m) 0) as [Z|Z].
    - rewrite Z. replace (0 ^ 2) with 0 by ring. unfold Rdiv. rewrite !Rmult_0_r, Rinv_0. ring.
    - field. repeat split; lra. }
  clear T T'. subst t'. exists r, r', t. split; [exact EF|]. split; [exact EF'|]. intros H. rewrite (L H). rewrite L'; [reflexivity|].
  intros l I. apply H. apply <- in_rev. exact I.
Qed.

(** ** Not with a rough interface *)
Lemma one_film : forall wl n0 n1 n2 h i1 i2 w1 w2, wl <> 0 -> 0 < n0 -> 0 < n1 -> 0 < n2 ->
  propagation wl 1 h (RtoC n1) = Some mat_id ->
  match i1 with None => Some 1 | Some p => profile_reflectivity p wl 1 (RtoC n0) end = Some w1 ->
  match i2 with None => Some 1 | Some p => profile_reflectivity p wl 1 (RtoC n1) end = Some w2 ->
  let m := (n0 + n1) / (2 * n0) * ((n1 + n2) / (2 * n1)) + w1 * ((n0 - n1) / (2 * n0)) * (w2 * ((n1 - n2) / (2 * n1))) in
  m <> 0 ->
  snd (multilayer_efficiency wl 1 (RtoC n0) (ASequence [ALayer (Layer (Some (fun _ => RtoC n1)) h i1)])
    (Some (Layer (Some (fun _ => RtoC n2)) 0 i2)) true) = Some (n2 / n0 / m ^ 2).
Proof.
  intros wl n0 n1 n2 h i1 i2 w1 w2 W N0 N1 N2 P I1 I2 m M.
  assert (C0 : RtoC n0 <> 0) by (apply RtoC_neq_0; lra). assert (C1 : RtoC n1 <> 0) by (apply RtoC_neq_0; lra). assert (C2 : RtoC n2 <> 0) by (apply RtoC_neq_0; lra).
  assert (Q : forall n, q_factor true 1 (RtoC n) = Some (RtoC n)) by (intros n; rewrite q_s; f_equal; ring).
  assert (R1 : refraction wl 1 1 true (RtoC n0) (RtoC n1) i1 =
    Some (Mat2 (RtoC ((n0 + n1) / (2 * n0))) (RtoC (w1 * ((n0 - n1) / (2 * n0)))) (RtoC (w1 * ((n0 - n1) / (2 * n0)))) (RtoC ((n0 + n1) / (2 * n0))))).
  { eapply refraction_eq; [apply Q | apply Q | exact C0 | rewrite <- RtoC_plus; apply RtoC_neq_0; lra | exact I1 | cnum; lra | cnum; lra]. }
  assert (R2 : refraction wl 1 1 true (RtoC n1) (RtoC n2) i2 =
    Some (Mat2 (RtoC ((n1 + n2) / (2 * n1))) (RtoC (w2 * ((n1 - n2) / (2 * n1)))) (RtoC (w2 * ((n1 - n2) / (2 * n1)))) (RtoC ((n1 + n2) / (2 * n1))))).
  { eapply refraction_eq; [apply Q | apply Q | exact C1 | rewrite <- RtoC_plus; apply RtoC_neq_0; lra | exact I2 | cnum; lra | cnum; lra]. }
  unfold multilayer_efficiency, multilayer_coefficients, multilayer_matrix. cbv zeta. rewrite transfer_single.
  set (l := Layer (Some (fun _ => RtoC n1)) h i1). set (b := Layer (Some (fun _ => RtoC n2)) 0 i2).
  change (substrate_layer (Some (substrate_layer (Some b)))) with b.
  change (layer_n (substrate_layer (Some b)) wl) with (RtoC n2).
  assert (T1 : transfer wl true (ALayer l) (LState (RtoC n0) (Some (RtoC 1)) true) = 
    (LState (RtoC n1) (Some (RtoC 1)) true, Some (Mat2 (RtoC ((n0 + n1) / (2 * n0))) (RtoC (w1 * ((n0 - n1) / (2 * n0)))) (RtoC (w1 * ((n0 - n1) / (2 * n0)))) (RtoC ((n0 + n1) / (2 * n0)))))).
  { cbn [transfer]. rewrite (layer_normal wl true l (LState (RtoC n0) (Some (RtoC 1)) true) _ _ eq_refl eq_refl C1 R1 P). cbv zeta.
    unfold where_propagation. destruct (Rlt_dec (Cmod (mxx mat_id)) (10 ^ 10)) as [L|L]; [|exfalso; apply L; cbn [mxx mat_id]; rewrite Cmod_1; lra].
    rewrite mat_id_r. reflexivity. }
  rewrite T1. cbn [fst snd].
  assert (T2 : layer_transfer wl true b (LState (RtoC n1) (Some (RtoC 1)) true) = 
    (LState (RtoC n2) (Some (RtoC 1)) true, Some (Mat2 (RtoC ((n1 + n2) / (2 * n1))) (RtoC (w2 * ((n1 - n2) / (2 * n1)))) (RtoC (w2 * ((n1 - n2) / (2 * n1)))) (RtoC ((n1 + n2) / (2 * n1)))))).
  { rewrite (layer_normal wl true b (LState (RtoC n1) (Some (RtoC 1)) true) _ _ eq_refl eq_refl C2 R2 (propagation_zero wl 1 (RtoC n2) W)). cbv zeta.
    unfold where_propagation. destruct (Rlt_dec (Cmod (mxx mat_id)) (10 ^ 10)) as [L|L]; [|exfalso; apply L; cbn [mxx mat_id]; rewrite Cmod_1; lra].
    rewrite mat_id_r. reflexivity. }
  rewrite T2. cbn [fst snd st_where omul omap obind mat_mul mxx mxy myx myy].
  assert (E : (RtoC ((n0 + n1) / (2 * n0)) * RtoC ((n1 + n2) / (2 * n1)) + RtoC (w1 * ((n0 - n1) / (2 * n0))) * RtoC (w2 * ((n1 - n2) / (2 * n1))))%C = RtoC m) by (unfold m; cring).
  rewrite E. rewrite cdiv_nz by (apply RtoC_neq_0; exact M). cbn [obind]. rewrite snell_normal by exact C2. cbn [obind].
  rewrite !Q. cbn [obind]. rewrite cdiv_nz by exact C0. cbn [obind]. f_equal.
  rewrite <- !RtoC_div by first [exact M | lra]. rewrite Cmod_R, pow2_abs. change (Re (RtoC (n2 / n0))) with (n2 / n0). field. split; [lra | exact M].
Qed.

Lemma rough_value : forall n, profile_reflectivity (Exponential 1) (4 * PI) 1 (RtoC n) = Some (1 / (1 + n ^ 2 / 2)).
Proof.
  intros n. assert (P := PI_RGT_0). unfold profile_reflectivity. rewrite (cdiv_eq _ _ (RtoC (- n / 2))).
  - cbn [obind]. cbv zeta. unfold profile_dft. replace (Re (RtoC (-2) * RtoC (- n / 2))%C) with n by (cbn; lra).
    assert (0 <= n ^ 2) by apply pow2_ge_0. unfold odiv. rewrite Rmult_1_r. destruct (Req_EM_T (1 + n ^ 2 / 2) 0); [lra|]. reflexivity.
  - apply RtoC_neq_0. lra.
  - cnum.
Qed.

Lemma whole_wave : propagation (4 * PI) 1 (2 * PI) 2 = Some mat_id.
Proof.
  assert (P := PI_RGT_0). rewrite propagation_value by lra. cbv zeta. unfold mat_id.
  f_equal. f_equal; unfold cexp.
  - replace (Re (- Ci * (RtoC (2 * PI * (2 * PI) / (4 * PI)) * (2 * 1)))%C) with 0 by (cparts; cbn; ring).
    replace (Im (- Ci * (RtoC (2 * PI * (2 * PI) / (4 * PI)) * (2 * 1)))%C) with (- (2 * PI)) by (cparts; cbn; field; lra).
    rewrite exp_0, cos_neg, sin_neg, cos_2PI, sin_2PI. cnum.
  - replace (Re (Ci * (RtoC (2 * PI * (2 * PI) / (4 * PI)) * (2 * 1)))%C) with 0 by (cparts; cbn; ring).
    replace (Im (Ci * (RtoC (2 * PI * (2 * PI) / (4 * PI)) * (2 * 1)))%C) with (2 * PI) by (cparts; cbn; field; lra).
    rewrite exp_0, cos_2PI, sin_2PI. cnum.
Qed.

Lemma rough_one_way : exists wl h p, 0 < wl /\ 0 < h /\
  snd (multilayer_efficiency wl 1 (RtoC 1) (ASequence [ALayer (Layer (Some (fun _ => RtoC 2)) h (Some p))])
    (Some (Layer (Some (fun _ => RtoC 3)) 0 None)) true) = Some (1728 / 2209) /\
  snd (multilayer_efficiency wl 1 (RtoC 3) (ASequence [ALayer (Layer (Some (fun _ => RtoC 2)) h None)])
    (Some (Layer (Some (fun _ => RtoC 1)) 0 (Some p))) true) = Some (432 / 529).
Proof.
  assert (P := PI_RGT_0). exists (4 * PI), (2 * PI), (Exponential 1). split; [lra|]. split; [lra|]. split.
  - rewrite (one_film (4 * PI) 1 2 3 (2 * PI) (Some (Exponential 1)) None (2 / 3) 1); try lra; try exact whole_wave; try reflexivity.
    + f_equal. field.
    + rewrite rough_value. f_equal. field.
  - rewrite (one_film (4 * PI) 3 2 1 (2 * PI) None (Some (Exponential 1)) 1 (1 / 3)); try lra; try exact whole_wave; try reflexivity.
    + f_equal. field.
    + rewrite rough_value. f_equal. field.
Qed.
