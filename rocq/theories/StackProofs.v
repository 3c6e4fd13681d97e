(** The transfer matrices solve the boundary conditions. *)
From Coq Require Import Reals List Bool Lra.
From Coquelicot Require Import Coquelicot.
From Verif Require Import Num NumLemmas ComplexModel ComplexLemmas ProfileModel LayerModel LayerSpec LayerProofs LayerTrivialProofs StackSpec.
Import ListNotations.
Open Scope C_scope.
Open Scope opt_scope.

Lemma refracts_iff : forall n c m c' : C, m <> 0 -> refracts n c m c' <-> c' = cos_in (tangential2 c n) m.
Proof.
  intros n c m c' M. unfold refracts. split.
  - intros [E B]. symmetry. unfold cos_in. apply csqrt_unique; [|exact B].
    unfold tangential2. rewrite <- E. field. exact M.
  - intros ->. split; [exact (tangential2_cos_in (tangential2 c n) m M)|].
    unfold cos_in. set (z := 1 - _). destruct (csqrt_Re z) as [P|P]; [left; exact P|]. right. split; [symmetry; exact P | apply csqrt_branch; symmetry; exact P].
Qed.

Lemma real_conj : forall c : C, Im c = 0%R -> Cconj c = c.
Proof. intros [a b] H. cbn in H. subst. unfold Cconj. cbn. f_equal. ring. Qed.

Lemma admittance_value : forall s d n, n <> (0 : C) -> s = true \/ Im d = 0%R -> q_factor s d n = Some (admittance s n d).
Proof.
  intros s d n N H. unfold q_factor, impedance, admittance, polarized. destruct s; cbn [obind].
  - f_equal. ring.
  - destruct H as [H|H]; [discriminate|]. rewrite cdiv_nz by exact N. cbn [obind]. rewrite real_conj by exact H. f_equal. unfold Cdiv. ring.
Qed.

(** The interface matrix is the matching condition. *)
Lemma refraction_matched : forall wl d d' s n m M, refraction wl d d' s n m None = Some M ->
  n <> (0 : C) -> m <> (0 : C) -> (s = true \/ Im d = 0%R) -> (s = true \/ Im d' = 0%R) ->
  forall A B A' B', matched (admittance s n d) (admittance s m d') A B A' B' <-> (A, B) = mat_apply M (A', B').
Proof.
  intros wl d d' s n m M H N M0 D D' A B A' B'. unfold refraction in H.
  rewrite (admittance_value s d n N D), (admittance_value s d' m M0 D') in H. cbn [obind] in H. cbv zeta in H.
  set (q := admittance s n d) in *. set (q' := admittance s m d') in *.
  destruct (cdiv (q - q') (q + q')) as [r|] eqn:ER; [|discriminate]. destruct (cdiv (2 * q) (q + q')) as [t|] eqn:ET; [|discriminate].
  cbn [obind] in H. destruct (cdiv 1 t) as [u|] eqn:EU; [|discriminate]. cbn [obind] in H.
  destruct (cdiv (r * RtoC 1) t) as [v|] eqn:EV; [|discriminate]. cbn [obind] in H. injection H as <-.
  apply cdiv_inv in ER, ET, EU, EV. destruct ER as [S0 ->]. destruct ET as [_ ->]. destruct EU as [T0 ->]. destruct EV as [_ ->].
  assert (Q0 : q <> 0). { intros Z. apply T0. rewrite Z. unfold Cdiv. ring. }
  assert (U : 1 / (2 * q / (q + q')) = (q + q') / (2 * q)) by (field; repeat split; try assumption; apply C2_neq_0).
  assert (V : (q - q') / (q + q') * 1 / (2 * q / (q + q')) = (q - q') / (2 * q)) by (field; repeat split; try assumption; apply C2_neq_0).
  rewrite U, V. clear U V T0. assert (TW : (2 : C) = 1 + 1) by cring. assert (T2 : (1 + 1 : C) <> 0) by (rewrite <- TW; apply C2_neq_0).
  rewrite TW. unfold mat_apply, matched. cbn [mxx mxy myx myy fst snd]. split.
  - intros [E1 E2].
    assert (X : (1 + 1) * q * A = (q + q') * A' + (q - q') * B').
    { replace ((1 + 1) * q * A) with (q * (A + B) + q * (A - B)) by ring. rewrite E1, E2. ring. }
    assert (Y : (1 + 1) * q * B = (q - q') * A' + (q + q') * B').
    { replace ((1 + 1) * q * B) with (q * (A + B) - q * (A - B)) by ring. rewrite E1, E2. ring. }
    f_equal.
    + replace A with ((1 + 1) * q * A / ((1 + 1) * q)) by (field; auto). rewrite X. field. auto.
    + replace B with ((1 + 1) * q * B / ((1 + 1) * q)) by (field; auto). rewrite Y. field. auto.
  - intros E. apply (f_equal fst) in E as EA. apply (f_equal snd) in E as EB. cbn [fst snd] in EA, EB. rewrite EA, EB.
    split; field; auto.
Qed.

(** Crossing a layer. *)
Lemma propagation_apply : forall wl l c P, (wl <> 0)%R -> propagation wl c (ly_thickness l) (layer_n l wl) = Some P ->
  forall A B X Y, (A, B) = mat_apply P (X, Y) <-> X = A * cexp (Ci * phase wl l c) /\ Y = B * cexp (- Ci * phase wl l c).
Proof.
  intros wl l c P W H A B X Y. rewrite propagation_value in H by exact W. cbv zeta in H. injection H as <-.
  fold (phase wl l c). set (b := phase wl l c). unfold mat_apply. cbn [mxx mxy myx myy fst snd].
  assert (E : cexp (Ci * b) * cexp (- Ci * b) = 1) by (replace (- Ci * b) with (- (Ci * b)) by ring; apply cexp_opp).
  set (e := cexp (Ci * b)) in *. set (f := cexp (- Ci * b)) in *. split.
  - intros H. apply (f_equal fst) in H as HA. apply (f_equal snd) in H as HB. cbn [fst snd] in HA, HB. rewrite HA, HB.
    split; [transitivity (e * f * X); [rewrite E|] | transitivity (e * f * Y); [rewrite E|]]; ring.
  - intros [-> ->]. f_equal; [transitivity (e * f * A); [rewrite E|] | transitivity (e * f * B); [rewrite E|]]; ring.
Qed.

Section Stack.
Variables (wl : R) (s : bool) (sub : layer).
Hypothesis W : (wl <> 0)%R.
Hypothesis SI : ly_interface sub = None.
Hypothesis SN : layer_n sub wl <> 0.

Definition bare (l : layer) : layer := Layer (ly_chemical l) 0 (ly_interface l).
Definition stack_matrix (ls : list layer) (st : lstate) : option mat2 :=
  let x := transfer wl s (ASequence (map ALayer ls)) st in omul (snd x) (snd (layer_transfer wl s (bare sub) (fst x))).

Definition good_cosine (k : C) (l : layer) : Prop := s = true \/ real_cosine k wl l.

Lemma layer_matrix : forall n d l, layer_n l wl <> 0 -> ly_interface l = None ->
  let c := cos_in (tangential2 d n) (layer_n l wl) in
  where_propagation (propagation wl c (ly_thickness l) (layer_n l wl)) = true ->
  layer_transfer wl s l (LState n (Some d) true) =
    (LState (layer_n l wl) (Some c) true,
     omul (refraction wl d c s n (layer_n l wl) None) (propagation wl c (ly_thickness l) (layer_n l wl))).
Proof.
  intros n d l N I c O. unfold layer_transfer. cbn [st_n st_direction st_where obind]. rewrite snell_value by exact N. fold c. cbn [obind].
  rewrite O, I. cbn [andb]. reflexivity.
Qed.

Lemma open_zero : forall c n, where_propagation (propagation wl c 0 n) = true.
Proof.
  intros c n. rewrite where_value by exact W. unfold opacity. replace (2 * PI * 0 / wl * Im (n * c)%C)%R with 0%R by (field; exact W).
  rewrite exp_0. apply Rlt_pow_R1; [lra | repeat constructor].
Qed.

Lemma stack_solution : forall ls (n d : C) M, n <> 0 ->
  List.Forall (fun l => layer_n l wl <> 0 /\ ly_interface l = None /\ transparent (tangential2 d n) wl l) ls ->
  (s = true \/ (Im d = 0%R /\ List.Forall (real_cosine (tangential2 d n) wl) (sub :: ls))) ->
  stack_matrix ls (LState n (Some d) true) = Some M ->
  forall A B t, stack_field wl s n d A B ls sub t <-> (A, B) = mat_apply M (t, RtoC 0).
Proof.
  induction ls as [|l ls IH]; intros n d M N F Q H A B t.
  - unfold stack_matrix in H. cbn [map] in H. rewrite transfer_nil in H. cbv zeta in H. cbn [fst snd] in H. rewrite omul_id_l in H.
    rewrite (layer_matrix n d (bare sub)) in H by (first [exact SN | exact SI | apply open_zero]). cbn [snd] in H.
    change (layer_n (bare sub) wl) with (layer_n sub wl) in H. set (c := cos_in (tangential2 d n) (layer_n sub wl)) in *.
    change (ly_thickness (bare sub)) with 0%R in H. rewrite propagation_zero in H by exact W. rewrite omul_id_r in H.
    assert (CR : s = true \/ Im c = 0%R).
    { destruct Q as [Q|[_ Q]]; [left; exact Q|]. right. inversion Q as [|? ? Q1 _]; subst. apply Q1. exact (tangential2_cos_in _ _ SN). }
    assert (DR : s = true \/ Im d = 0%R) by (destruct Q as [Q|[Q _]]; [left | right]; exact Q).
    cbn [stack_field]. rewrite <- (refraction_matched _ _ _ _ _ _ _ H N SN DR CR). split.
    + intros (c' & R & X). apply refracts_iff in R; [|exact SN]. fold c in R. subst c'. exact X.
    + intros X. exists c. split; [apply refracts_iff; [exact SN | reflexivity] | exact X].
  - inversion F as [|? ? (LN & LI & LT) F']; subst. unfold stack_matrix in H. cbn [map] in H. rewrite transfer_cons in H. cbv zeta in H. cbn [fst snd] in H.
    change (transfer wl s (ALayer l) (LState n (Some d) true)) with (layer_transfer wl s l (LState n (Some d) true)) in H.
    set (c := cos_in (tangential2 d n) (layer_n l wl)) in *.
    assert (TK : tangential2 c (layer_n l wl) = tangential2 d n) by (exact (tangential2_cos_in _ _ LN)).
    assert (O : where_propagation (propagation wl c (ly_thickness l) (layer_n l wl)) = true).
    { apply where_value; [exact W|]. apply (LT c). exact TK. }
    rewrite (layer_matrix n d l LN LI O) in H. cbn [fst snd] in H. fold c in H.
    rewrite <- omul_assoc in H. change (omul (snd (transfer wl s (ASequence (map ALayer ls)) (LState (layer_n l wl) (Some c) true)))
       (snd (layer_transfer wl s (bare sub) (fst (transfer wl s (ASequence (map ALayer ls)) (LState (layer_n l wl) (Some c) true))))))
      with (stack_matrix ls (LState (layer_n l wl) (Some c) true)) in H.
    destruct (refraction wl d c s n (layer_n l wl) None) as [R|] eqn:ER; [|discriminate].
    destruct (propagation wl c (ly_thickness l) (layer_n l wl)) as [P|] eqn:EP; [|discriminate].
    destruct (stack_matrix ls (LState (layer_n l wl) (Some c) true)) as [M'|] eqn:EM; [|discriminate].
    cbn [omul] in H. assert (HM : M = mat_mul (mat_mul R P) M') by congruence. subst M.
    assert (DR : s = true \/ Im d = 0%R) by (destruct Q as [Q|[Q _]]; [left | right]; exact Q).
    assert (CR : s = true \/ Im c = 0%R).
    { destruct Q as [Q|[_ Q]]; [left; exact Q|]. right. inversion Q as [|? ? _ Q2]; subst. inversion Q2 as [|? ? Q3 _]; subst. apply Q3. exact TK. }
    assert (Q' : s = true \/ (Im c = 0%R /\ List.Forall (real_cosine (tangential2 c (layer_n l wl)) wl) (sub :: ls))).
    { destruct Q as [Q|[_ Q]]; [left; exact Q|]. destruct CR as [CR|CR]; [left; exact CR|]. right. split; [exact CR|]. rewrite TK.
      inversion Q as [|? ? Q1 Q2]; subst. inversion Q2 as [|? ? Q3 Q4]; subst. constructor; assumption. }
    assert (F2 : List.Forall (fun l0 => layer_n l0 wl <> 0 /\ ly_interface l0 = None /\ transparent (tangential2 c (layer_n l wl)) wl l0) ls) by (rewrite TK; exact F').
    assert (J := IH (layer_n l wl) c M' LN F2 Q' EM).
    cbn [stack_field]. rewrite !mat_apply_mul.
    assert (RM := refraction_matched _ _ _ _ _ _ _ ER N LN DR CR). assert (PA := propagation_apply wl l c P W EP).
    split.
    + intros (c' & A' & B' & X & Y & Z). apply refracts_iff in X; [|exact LN]. fold c in X. subst c'.
      apply RM in Y. apply J in Z. rewrite Y. f_equal.
      destruct (mat_apply M' (t, RtoC 0)) as [X1 Y1]. apply (f_equal fst) in Z as Z1. apply (f_equal snd) in Z as Z2. cbn [fst snd] in Z1, Z2. apply PA. split; symmetry; assumption.
    + intros E. destruct (mat_apply M' (t, RtoC 0)) as [X1 Y1] eqn:EX. destruct (mat_apply P (X1, Y1)) as [A' B'] eqn:EPA.
      exists c, A', B'. split; [apply refracts_iff; [exact LN | reflexivity]|]. split; [apply RM; exact E|].
      apply J. symmetry in EPA. apply PA in EPA. destruct EPA as [-> ->]. rewrite EX. reflexivity.
Qed.

Lemma stack_open : forall ls (n d : C),
  List.Forall (fun l => layer_n l wl <> 0 /\ ly_interface l = None /\ transparent (tangential2 d n) wl l) ls ->
  st_where (fst (layer_transfer wl s (bare sub) (fst (transfer wl s (ASequence (map ALayer ls)) (LState n (Some d) true))))) = true.
Proof.
  induction ls as [|l ls IH]; intros n d F.
  - cbn [map]. rewrite transfer_nil. cbn [fst]. rewrite (layer_matrix n d (bare sub)) by (first [exact SN | exact SI | apply open_zero]). reflexivity.
  - inversion F as [|? ? (LN & LI & LT) F']; subst. cbn [map]. rewrite transfer_cons. cbv zeta. cbn [fst].
    change (transfer wl s (ALayer l) (LState n (Some d) true)) with (layer_transfer wl s l (LState n (Some d) true)).
    assert (TK : tangential2 (cos_in (tangential2 d n) (layer_n l wl)) (layer_n l wl) = tangential2 d n) by (exact (tangential2_cos_in _ _ LN)).
    rewrite (layer_matrix n d l LN LI) by (apply where_value; [exact W | apply (LT _ TK)]). cbn [fst]. apply IH. rewrite TK. exact F'.
Qed.
End Stack.

Lemma coefficients_field : forall wl s (n d : C) ls sub r t, (wl <> 0)%R -> n <> 0 -> layer_n sub wl <> 0 -> ly_interface sub = None ->
  List.Forall (fun l => layer_n l wl <> 0 /\ ly_interface l = None /\ transparent (n * n * (1 - d * d)) wl l) ls ->
  (s = true \/ (Im d = 0%R /\ List.Forall (real_cosine (n * n * (1 - d * d)) wl) (sub :: ls))) ->
  multilayer_coefficients wl d n (ASequence (map ALayer ls)) (Some sub) s = (Some r, Some t) ->
  forall r' t', stack_field wl s n d 1 r' ls sub t' <-> r' = r /\ t' = t.
Proof.
  intros wl s n d ls sub r t W N SN SI F Q H r' t'. unfold multilayer_coefficients, multilayer_matrix in H. cbv zeta in H. cbn [fst snd substrate_layer] in H.
  change (omul (snd (transfer wl s (ASequence (map ALayer ls)) (LState n (Some d) true)))
     (snd (layer_transfer wl s (Layer (ly_chemical sub) 0 (ly_interface sub)) (fst (transfer wl s (ASequence (map ALayer ls)) (LState n (Some d) true))))))
    with (stack_matrix wl s sub ls (LState n (Some d) true)) in H.
  destruct (stack_matrix wl s sub ls (LState n (Some d) true)) as [M|] eqn:EM; [|discriminate].
  cbn [obind] in H. apply (f_equal fst) in H as HR. apply (f_equal snd) in H as HT. cbn [fst snd] in HR, HT.
  change (Layer (ly_chemical sub) 0 (ly_interface sub)) with (bare sub) in HT.
  rewrite (stack_open wl s sub W SI SN ls n d F) in HT.
  apply cdiv_inv in HR, HT. destruct HR as [M0 ->]. destruct HT as [_ ->].
  rewrite (stack_solution wl s sub W SI SN ls n d M N F Q EM). unfold mat_apply. cbn [fst snd]. split.
  - intros E. apply (f_equal fst) in E as E1. apply (f_equal snd) in E as E2. cbn [fst snd] in E1, E2.
    assert (T : t' = 1 / mxx M). { replace t' with (mxx M * t' / mxx M) by (field; exact M0). rewrite E1. field. exact M0. }
    split; [|exact T]. rewrite E2, T. field. exact M0.
  - intros [-> ->]. f_equal; field; exact M0.
Qed.
