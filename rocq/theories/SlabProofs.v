(** Where the transfer matrix of one slab is not that of a layer (C101). *)
From Coq Require Import Reals Lra Psatz List Bool ZArith Lia.
From Coquelicot Require Import Coquelicot.
From Verif Require Import Vec VecLemmas Num NumLemmas ComplexModel ComplexLemmas ProfileModel SnellModel SnellSpec SnellProofs
  LayerModel LayerSpec LayerProofs LayerTrivialProofs EnergyProofs LayerCaseProofs CoatingProofs.
Import ListNotations.
Open Scope C_scope.
Open Scope opt_scope.

(** *** Beyond the critical angle *)
Lemma slab_total : forall w s d u n l, (0 < w)%R -> is_unit d -> is_unit u -> (dot d u < 0)%R -> (0 < n)%R ->
  (n * n < 1 - dot d u * dot d u)%R -> layer_n l w = RtoC n -> ly_interface l = None -> (0 <= ly_thickness l)%R ->
  slab_transfer w d s (ly_thickness l) (RtoC n) u = None /\
  (exists r t, multilayer_efficiency w (RtoC (- dot d u)) 1 (ALayer l) None s = (Some r, Some t) /\ 0 <= r /\ 0 <= t /\ r + t = 1)%R /\
  exists m, snd (multilayer_matrix w (RtoC (- dot d u)) 1 (ALayer l) None s) = Some m.
Proof.
  intros w s d u n l W D U F N T L LI H. split; [|].
  - unfold slab_transfer. change (Re (RtoC n)) with n.
    replace (snells_law d 1 n false u) with (@None vec3); [reflexivity|]. symmetry. apply snells_law_none_iff; try lra.
    unfold snell_radicand. cbv zeta. unfold is_unit, norm2 in D. rewrite D. replace (1 / (1 / n * (1 / n)))%R with (n * n)%R by (field; lra). lra.
  - assert (X : exists r t, multilayer_efficiency w (RtoC (- dot d u)) 1 (ALayer l) None s = (Some r, Some t) /\ (0 <= r /\ 0 <= t /\ r + t = 1)%R).
    { assert (I : ideal_stack lossless w 1 (- dot d u) (ALayer l) None).
      { assert (B : (dot d u * dot d u <= 1)%R) by nra.
        split; [lra|]. split; [nra|]. split; [exact W|]. split; [exact I|].
        apply Forall_cons; [|apply Forall_cons; [|apply Forall_nil]].
        - cbn [substrate_layer layer_n ly_chemical ly_thickness ly_interface]. split; [split; cbn; lra|]. split; [lra|]. split; [reflexivity|].
          unfold off_critical. rewrite <- RtoC_mult. intros E. apply RtoC_inj in E. nra.
        - rewrite L. split; [split; cbn; lra|]. split; [exact H|]. split; [exact LI|].
          unfold off_critical. rewrite <- RtoC_mult. intros E. apply RtoC_inj in E. nra. }
      destruct (ideal_efficiency lossless w 1 (- dot d u) (ALayer l) None s) as (r & t & E & A & B & _ & S); auto.
      { intros x [P Q]. split; [exact P | rewrite Q; lra]. }
      exists r, t. auto. }
    destruct X as (r & t & E & A). split; [exists r, t; auto|].
    unfold multilayer_efficiency, multilayer_coefficients in E. cbv zeta in E.
    change (multilayer_matrix w (RtoC (- dot d u)) 1 (ALayer l) (Some (substrate_layer None)) s) with (multilayer_matrix w (RtoC (- dot d u)) 1 (ALayer l) None s) in E.
    destruct (multilayer_matrix w (RtoC (- dot d u)) 1 (ALayer l) None s) as [st [m|]]; [exists m; reflexivity|].
    cbn in E. discriminate E.
Qed.

(** *** An absorbing slab at an angle *)
Definition trace (m : mat2) : C := mxx m + myy m.

Lemma slab_trace : forall (w : R) (c d' n : C) (h : R), (w <> 0)%R -> c <> 0 -> n <> 0 -> d' <> 0 -> c + d' * n <> 0 -> exists m,
  omul (omul (refraction w c d' true 1 n None) (propagation w d' h n)) (refraction w d' c true n 1 None) = Some m /\
  trace m = let beta := RtoC (2 * PI * h / w) * (n * d') in cexp (- Ci * beta) + cexp (Ci * beta).
Proof.
  intros w c d' n h W Cn N D A. cbv zeta.
  assert (Q : d' * n <> 0) by (apply Cmult_neq_0; assumption).
  set (qj := d' * n) in *.
  rewrite (refraction_eq w c d' true 1 n None c qj 1 ((c + qj) / (2 * c)) ((c - qj) / (2 * c))).
  - rewrite (refraction_eq w d' c true n 1 None qj c 1 ((c + qj) / (2 * qj)) ((qj - c) / (2 * qj))).
    + rewrite propagation_value by exact W. cbv zeta. set (beta := RtoC (2 * PI * h / w) * (n * d')) in *.
      cbn [omul]. eexists. split; [reflexivity|]. unfold trace, mat_mul. cbn [mxx mxy myx myy].
      set (ea := cexp (- Ci * beta)). set (eb := cexp (Ci * beta)).
      assert (T : RtoC 2 = 1 + 1) by cring. assert (T2 := C2_neq_0). rewrite T in *. field. repeat split; assumption.
    + reflexivity.
    + unfold q_factor. cbn. f_equal. ring.
    + exact Q.
    + replace (qj + c) with (c + qj) by ring. exact A.
    + reflexivity.
    + field. split; [exact Q|exact C2_neq_0].
    + field. split; [exact Q|exact C2_neq_0].
  - unfold q_factor. cbn. f_equal. ring.
  - reflexivity.
  - exact Cn.
  - exact A.
  - reflexivity.
  - field. split; [exact Cn|exact C2_neq_0].
  - field. split; [exact Cn|exact C2_neq_0].
Qed.

Lemma two_cos : forall a b : R, cexp (- Ci * (a, b)) + cexp (Ci * (a, b)) =
  (((exp b + exp (- b)) * cos a)%R, ((exp (- b) - exp b) * sin a)%R).
Proof.
  intros a b. apply C_eq.
  - unfold cexp. cparts. cbn [Re Im fst snd]. 
    replace (- 0 * a - - (1) * b)%R with b by ring. replace (- 0 * b + - (1) * a)%R with (- a)%R by ring.
    replace (0 * a - 1 * b)%R with (- b)%R by ring. replace (0 * b + 1 * a)%R with a by ring. rewrite cos_neg. ring.
  - unfold cexp. cparts. cbn [Re Im fst snd]. 
    replace (- 0 * a - - (1) * b)%R with b by ring. replace (- 0 * b + - (1) * a)%R with (- a)%R by ring.
    replace (0 * a - 1 * b)%R with (- b)%R by ring. replace (0 * b + 1 * a)%R with a by ring. rewrite sin_neg. ring.
Qed.

Lemma two_cos_inj : forall a b b' : R, (0 < b)%R -> (0 < b')%R ->
  cexp (- Ci * (PI, b)) + cexp (Ci * (PI, b)) = cexp (- Ci * (a, b')) + cexp (Ci * (a, b')) -> b = b'.
Proof.
  intros a b b' B B' H. rewrite !two_cos in H. rewrite cos_PI, sin_PI in H. injection H as H1 H2.
  assert (E : (1 < exp b)%R) by (rewrite <- exp_0; apply exp_increasing, B).
  assert (E' : (1 < exp b')%R) by (rewrite <- exp_0; apply exp_increasing, B').
  assert (I : (exp b * exp (- b) = 1)%R) by (rewrite <- exp_plus, Rplus_opp_r; apply exp_0).
  assert (I' : (exp b' * exp (- b') = 1)%R) by (rewrite <- exp_plus, Rplus_opp_r; apply exp_0).
  assert (P := exp_pos (- b)). assert (P' := exp_pos (- b')).
  assert (S : sin a = 0%R). { assert (exp (- b') < 1)%R by nra. assert (X : ((exp (- b') - exp b') * sin a = 0)%R) by lra. apply Rmult_integral in X. lra. }
  assert (T := sin2_cos2 a). unfold Rsqr in T. rewrite S in T.
  assert (K : cos a = (-1)%R). { assert (X : ((cos a - 1) * (cos a + 1) = 0)%R) by lra. apply Rmult_integral in X. destruct X as [X|X]; [|lra]. exfalso. nra. }
  rewrite K in H1.
  assert (G : (exp b + exp (- b) = exp b' + exp (- b'))%R) by lra.
  assert (M : ((exp b - exp b') * (exp b * exp b' - 1) = 0)%R).
  { replace ((exp b - exp b') * (exp b * exp b' - 1))%R with (exp b * exp b' * ((exp b + exp (- b)) - (exp b' + exp (- b'))) )%R.
    - rewrite G. ring.
    - replace (exp b * exp b' * (exp b + exp (- b) - (exp b' + exp (- b'))))%R
        with (exp b * exp b' * exp b + exp b' * (exp b * exp (- b)) - exp b * exp b' * exp b' - exp b * (exp b' * exp (- b')))%R by ring.
      rewrite I, I'. ring. }
  apply Rmult_integral in M. destruct M as [M|M]; [|exfalso; nra].
  apply exp_inv. lra.
Qed.

Definition oblique : vec3 := V3 (4 / 5) 0 (3 / 5).
Definition towards : vec3 := V3 0 0 (-1).
Definition tinted (h : R) : layer := Layer (Some (fun _ => (2, 1)%R)) h None.

Lemma slab_absorbing : exists h, (0 < h)%R /\
  (exists m, slab_transfer (2 * PI) oblique true h (2, 1)%R towards = Some m) /\
  slab_transfer (2 * PI) oblique true h (2, 1)%R towards <> snd (multilayer_matrix (2 * PI) (RtoC (- dot oblique towards)) 1 (ALayer (tinted h)) None true).
Proof.
  assert (PP := PI_RGT_0). assert (P4 := PI_4).
  assert (DU : (dot oblique towards = - (3 / 5))%R) by (unfold dot, oblique, towards; cbn; ring).
  assert (D : is_unit oblique) by (unfold is_unit, norm2, dot, oblique; cbn; field).
  assert (U : is_unit towards) by (unfold is_unit, norm2, dot, towards; cbn; field).
  destruct (snells_law_defined oblique 1 2 false towards) as (b & B); try lra.
  { unfold snell_radicand. cbv zeta. unfold is_unit, norm2 in D. rewrite D, DU. lra. }
  destruct (slab_direction oblique towards 2 b D U ltac:(lra) ltac:(lra) B) as [E0 E]. rewrite DU in E.
  set (e := dot (vopp b) towards) in *. 
  assert (EE : (e * e = 21 / 25)%R) by (rewrite E; field).
  assert (EP : (0 < e)%R) by nra.
  set (n := ((2, 1)%R : C)). assert (N0 : n <> 0) by (apply Cneq_pair; left; lra).
  set (d' := cos_in (RtoC (1 - 3 / 5 * (3 / 5))) n).
  assert (SQ : (n * d') * (n * d') = (59 / 25, 4)%R).
  { transitivity (n * n * (d' * d')); [ring|]. unfold d'. rewrite cos_in_sq by exact N0. unfold n. apply C_eq; cparts; cbn; field. }
  assert (R0 : (0 <= Re d')%R) by apply csqrt_Re.
  destruct (n * d') as [p q] eqn:PQ. 
  assert (S1 : (p * p - q * q = 59 / 25)%R) by (injection SQ as X Y; lra).
  assert (S2 : (p * q = 2)%R) by (injection SQ as X Y; lra).
  assert (RD : (Re d' = (2 * p + q) / 5)%R). { assert (X : (2 * Re d' - Im d' = p)%R) by (change p with (Re (p, q)); rewrite <- PQ; unfold n; cparts; cbn; ring).
    assert (Y : (2 * Im d' + Re d' = q)%R) by (change q with (Im (p, q)); rewrite <- PQ; unfold n; cparts; cbn; ring). lra. }
  assert (PPos : (0 < p)%R) by nra. assert (QPos : (0 < q)%R) by nra.
  assert (QE : q <> e). { intros X. assert (q * q = 21 / 25)%R by (rewrite X; exact EE). nra. }
  assert (DN : d' <> 0). { intros X. rewrite X, Cmult_0_r in PQ. apply (f_equal Re) in PQ. cbn in PQ. lra. }
  set (h := (PI / (2 * e))%R). assert (H0 : (0 < h)%R) by (apply Rdiv_lt_0_compat; lra).
  assert (HE : (h * e = PI / 2)%R) by (unfold h; field; lra).
  assert (Q2 : (q < 2)%R) by nra.
  assert (HQ : (h * q < 20)%R). { assert (1 / 2 < e)%R by nra. assert (h < PI)%R by nra. nra. }
  assert (L : snd (multilayer_matrix (2 * PI) (RtoC (- dot oblique towards)) 1 (ALayer (tinted h)) None true) =
     omul (omul (refraction (2 * PI) (RtoC (3 / 5)) d' true 1 n None) (propagation (2 * PI) d' h n)) (refraction (2 * PI) d' (RtoC (3 / 5)) true n 1 None)).
  { rewrite DU, Ropp_involutive. apply (slab_layer (2 * PI) true (3 / 5) n (tinted h)); try lra; try reflexivity; try assumption.
    fold d'. cbn [ly_thickness tinted]. unfold opacity. rewrite PQ. cbn [Im snd].
    replace (2 * PI * h / (2 * PI) * q)%R with (h * q)%R by (field; lra).
    eapply Rlt_trans; [|apply exp_20]. apply exp_increasing. exact HQ. }
  assert (SL : slab_transfer (2 * PI) oblique true h n towards = 
     omul (omul (refraction (2 * PI) (RtoC (3 / 5)) (RtoC e) true 1 n None) (propagation (2 * PI) (RtoC e) h n)) (refraction (2 * PI) (RtoC e) (RtoC (3 / 5)) true n 1 None)).
  { unfold slab_transfer. change (Re n) with 2%R. rewrite B. cbn [obind]. cbv zeta. fold e.
    replace (dot (vopp oblique) towards) with (3 / 5)%R by (unfold dot, vopp, oblique, towards; cbn; field). reflexivity. }
  assert (C35 : RtoC (3 / 5) <> 0) by (apply RtoC_neq_0; lra).
  assert (EN : RtoC e <> 0) by (apply RtoC_neq_0; lra).
  assert (A1 : RtoC (3 / 5) + RtoC e * n <> 0). { intros X. apply (f_equal Re) in X. unfold n in X. cbn in X. lra. }
  assert (A2 : RtoC (3 / 5) + d' * n <> 0). { replace (d' * n) with (n * d') by ring. rewrite PQ. intros X. apply (f_equal Re) in X. cbn in X. lra. }
  destruct (slab_trace (2 * PI) _ _ n h ltac:(lra) C35 N0 EN A1) as (m & M & T1).
  destruct (slab_trace (2 * PI) _ _ n h ltac:(lra) C35 N0 DN A2) as (m' & M' & T2).
  rewrite <- SL in M. rewrite <- L in M'.
  exists h. split; [exact H0|]. split; [exists m; exact M|]. intros EQ.
  assert (MM : m = m') by congruence. subst m'.
  cbv zeta in T1, T2. rewrite T1 in T2. rewrite PQ in T2.
  replace (2 * PI * h / (2 * PI))%R with h in T2 by (field; lra).
  replace (RtoC h * (n * RtoC e)) with ((PI, (PI / 2)%R) : C) in T2.
  2: { unfold n. apply C_eq; cparts; cbn [Re Im fst snd]; nra. }
  replace (RtoC h * (p, q)) with ((h * p, h * q)%R : C) in T2 by (apply C_eq; cparts; cbn; ring).
  apply two_cos_inj in T2; nra.
Qed.
