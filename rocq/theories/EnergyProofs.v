(** Energy balance of a stack (C34, C35). *)
From Coq Require Import Reals Lra Psatz List Bool ZArith Lia.
From Coquelicot Require Import Coquelicot.
From Verif Require Import Num NumLemmas ComplexModel ComplexLemmas ProfileModel LayerModel LayerSpec LayerProofs
  LayerTrivialProofs.
Import ListNotations.
Open Scope C_scope.
Open Scope opt_scope.

(** The flux carried to the right by the amplitudes [v] of the two waves. *)
Definition power_flux (q : C) (v : C * C) : R := Re ((fst v + snd v) * Cconj (q * (fst v - snd v))).

(** ** Interfaces *)
Lemma refraction_value : forall wavelength di dj s ni nj qi qj,
  q_factor s di ni = Some qi -> q_factor s dj nj = Some qj -> qi <> 0 -> qi + qj <> 0 ->
  refraction wavelength di dj s ni nj None =
    Some (let u := (qi + qj) / (2 * qi) in let v := (qi - qj) / (2 * qi) in Mat2 u v v u).
Proof.
  intros wl di dj s ni nj qi qj I J Q A. unfold refraction. rewrite I, J. cbn [obind]. cbv zeta.
  rewrite !(cdiv_nz _ (qi + qj)) by exact A. cbn [obind].
  assert (Q2 : 2 * qi <> 0) by (apply Cmult_neq_0; [apply C2_neq_0 | exact Q]).
  assert (T : 2 * qi / (qi + qj) <> 0) by (apply Cdiv_neq_0; assumption).
  rewrite !cdiv_nz by exact T. cbn [obind]. f_equal. f_equal; field; repeat split; auto using C2_neq_0.
Qed.

Lemma interface_flux : forall qi qj v, qi <> (0 : C) ->
  let m := (let u := (qi + qj) / (2 * qi) in let w := (qi - qj) / (2 * qi) in Mat2 u w w u) in
  power_flux qi (mat_apply m v) = power_flux qj v.
Proof.
  intros qi qj [a b] Q m. unfold power_flux, m, mat_apply. cbn [fst snd mxx mxy myx myy].
  set (u := (qi + qj) / (2 * qi)). set (w := (qi - qj) / (2 * qi)).
  assert (U : u + w = 1) by (unfold u, w, Cdiv; rewrite <- Cmult_plus_distr_r; replace (qi + qj + (qi - qj)) with (2 * qi) by cring; apply Cinv_r; apply Cmult_neq_0; auto using C2_neq_0).
  assert (V : qi * (u - w) = qj) by (unfold u, w; transitivity (qi * ((qi + qj - (qi - qj)) / (2 * qi))); [field; auto using C2_neq_0|]; replace (qi + qj - (qi - qj)) with (2 * qj) by cring; field; auto using C2_neq_0).
  replace (u * a + w * b + (w * a + u * b)) with ((u + w) * (a + b)) by ring.
  replace (qi * (u * a + w * b - (w * a + u * b))) with (qi * (u - w) * (a - b)) by ring.
  rewrite U, V. replace (1 * (a + b)) with (a + b) by ring. reflexivity.
Qed.

Lemma interface_det : forall qi qj, qi <> (0 : C) -> qj <> (0 : C) ->
  mat_det (let u := (qi + qj) / (2 * qi) in let w := (qi - qj) / (2 * qi) in Mat2 u w w u) <> 0.
Proof.
  intros qi qj I J. cbv zeta. unfold mat_det; cbn [mxx mxy myx myy].
  replace ((qi + qj) / (2 * qi) * ((qi + qj) / (2 * qi)) - (qi - qj) / (2 * qi) * ((qi - qj) / (2 * qi)))
    with (qj / qi); [apply Cdiv_neq_0; assumption|].
  transitivity ((2 * qi) * (2 * qj) / ((2 * qi) * (2 * qi))); [field; auto using C2_neq_0|].
  transitivity ((qi + qj + (qi - qj)) * (qi + qj - (qi - qj)) / ((2 * qi) * (2 * qi))); [|field; auto using C2_neq_0].
  replace (qi + qj + (qi - qj)) with (2 * qi) by cring. replace (qi + qj - (qi - qj)) with (2 * qj) by cring. reflexivity.
Qed.

(** ** Propagation *)
Lemma sinh_ge : forall y, (0 <= y -> 2 * y <= exp y - exp (- y))%R.
Proof.
  intros y H. destruct (MVT_gen (fun y => exp y - exp (- y)) 0 y (fun y => exp y + exp (- y)))%R as (c & C1 & C2).
  - intros x _. auto_derive; [exact I | ring].
  - intros x _. apply continuity_pt_filterlim. apply (ex_derive_continuous (fun y => exp y - exp (- y)))%R.
    auto_derive. exact I.
  - rewrite Ropp_0, exp_0 in C2. assert (P := exp_pos c). assert (Q := exp_pos (- c)).
    assert (PQ : (exp c * exp (- c) = 1)%R) by (rewrite <- exp_plus, Rplus_opp_r; apply exp_0).
    
    assert (G : (0 <= exp c * (exp c + exp (- c) - 2))%R)
      by (replace (exp c * (exp c + exp (- c) - 2))%R with (exp c * exp c - 2 * exp c + exp c * exp (- c))%R by ring;
          rewrite PQ; replace (exp c * exp c - 2 * exp c + 1)%R with (Rsqr (exp c - 1)) by (unfold Rsqr; ring); apply Rle_0_sqr).
    assert (2 <= exp c + exp (- c))%R.
    { destruct (Rle_lt_dec 2 (exp c + exp (- c))) as [|L]; [assumption|]. exfalso.
      assert (exp c * (exp c + exp (- c) - 2) < 0)%R by nra. lra. }
    rewrite Rminus_0_r in C2. nra.
Qed.

Lemma abs_sin_le : forall x, (0 <= x -> Rabs (sin x) <= x)%R.
Proof.
  intros x H. destruct (MVT_gen sin 0 x cos) as (c & C1 & C2).
  - intros y _. apply is_derive_Reals, derivable_pt_lim_sin.
  - intros y _. apply continuity_sin.
  - rewrite sin_0 in C2. replace (sin x) with (cos c * x)%R by lra. assert (B := COS_bound c).
    apply Rabs_le. split; nra.
Qed.

Lemma flux_change : forall q (kappa : C) (t : R) (a b : C),
  let x := (t * Re kappa)%R in let y := (t * Im kappa)%R in
  (power_flux q (cexp (- Ci * (RtoC t * kappa)) * a, cexp (Ci * (RtoC t * kappa)) * b)%C - power_flux q (a, b) =
   Re q * ((exp y - exp (- y)) * (exp y * Cmod a ^ 2 + exp (- y) * Cmod b ^ 2))
   - 2 * Im q * Im (a * Cconj b * ((cos x * cos x - sin x * sin x - 1)%R, (- (2 * sin x * cos x))%R))%C)%R.
Proof.
  intros q kappa t a b x y. rewrite !Cmod_sq. unfold power_flux. cbn [fst snd].
  assert (E1 : cexp (- Ci * (RtoC t * kappa)) = ((exp y * cos x)%R, (- (exp y * sin x))%R)).
  { unfold cexp. replace (Re (- Ci * (RtoC t * kappa))) with y by (unfold y; cparts; ring).
    replace (Im (- Ci * (RtoC t * kappa))) with (- x)%R by (unfold x; cparts; ring).
    rewrite cos_neg, sin_neg. f_equal. ring. }
  assert (E2 : cexp (Ci * (RtoC t * kappa)) = ((exp (- y) * cos x)%R, (exp (- y) * sin x)%R)).
  { unfold cexp. replace (Re (Ci * (RtoC t * kappa))) with (- y)%R by (unfold y; cparts; ring).
    replace (Im (Ci * (RtoC t * kappa))) with x by (unfold x; cparts; ring). reflexivity. }
  rewrite E1, E2. clear E1 E2.
  assert (P : (exp y * exp (- y) = 1)%R) by (rewrite <- exp_plus, Rplus_opp_r; apply exp_0).
  assert (S := sin2_cos2 x). unfold Rsqr in S.
  set (e := exp y) in *. set (f := exp (- y)) in *. set (c := cos x) in *. set (sn := sin x) in *.
  clearbody e f c sn. destruct a as [a1 a2], b as [b1 b2], q as [q1 q2].
  unfold Cminus. unfold Re, Im, Cmult, Cplus, Copp, Cconj. cbn [fst snd].
  apply Rminus_diag_uniq.
  transitivity (q1 * (e * e * (a1 * a1 + a2 * a2) - f * f * (b1 * b1 + b2 * b2)) * (sn * sn + c * c - 1) +
    (q1 * ((a1 * a1 + a2 * a2) - (b1 * b1 + b2 * b2)) -
     2 * q2 * ((c * c - sn * sn) * (a2 * b1 - a1 * b2) - 2 * sn * c * (a1 * b1 + a2 * b2))) * (e * f - 1))%R; [ring|].
  rewrite S, P. ring.
Qed.

(** The relation between the phase in a medium and the factor of the Poynting flux. *)
Definition wave_pair (q kappa : C) : Prop :=
  kappa <> 0 /\ (0 <= Re kappa)%R /\ (0 <= Im kappa)%R /\
  exists r : R, (0 < r)%R /\ (q = RtoC r * kappa \/ q = RtoC r * Cconj kappa).

Lemma wave_pair_Re : forall q kappa, wave_pair q kappa -> (0 <= Re q)%R.
Proof. intros q k (_ & A & B & r & R0 & [-> | ->]); cparts; nra. Qed.

Lemma wave_pair_neq_0 : forall q kappa, wave_pair q kappa -> q <> 0.
Proof.
  intros q k (K & _ & _ & r & R0 & [-> | ->]); apply Cmult_neq_0;
    auto using Cconj_neq_0; apply RtoC_neq_0; lra.
Qed.

Lemma flux_decreases : forall q kappa t a b, wave_pair q kappa -> (0 <= t)%R ->
  (power_flux q (a, b) <= power_flux q (cexp (- Ci * (RtoC t * kappa)) * a, cexp (Ci * (RtoC t * kappa)) * b)%C)%R.
Proof.
  intros q kappa t a b (K & KR & KI & r & R0 & Q) T.
  assert (F := flux_change q kappa t a b). cbv zeta in F.
  set (x := (t * Re kappa)%R) in *. set (y := (t * Im kappa)%R) in *.
  assert (X : (0 <= x)%R) by (apply Rmult_le_pos; assumption).
  assert (Y : (0 <= y)%R) by (apply Rmult_le_pos; assumption).
  assert (QR : (0 <= Re q)%R) by (destruct Q as [-> | ->]; cparts; nra).
  assert (QXY : (Rabs (Im q) * x = Re q * y)%R).
  { assert (A : Rabs (Im q) = (r * Im kappa)%R).
    { destruct Q as [-> | ->]; cparts;
        [replace (r * Im kappa + 0 * Re kappa)%R with (r * Im kappa)%R by ring |
         replace (r * - Im kappa + 0 * Re kappa)%R with (- (r * Im kappa))%R by ring; rewrite Rabs_Ropp];
        apply Rabs_pos_eq, Rmult_le_pos; lra. }
    rewrite A. destruct Q as [-> | ->]; cparts; unfold x, y; ring. }
  set (z := a * Cconj b) in *.
  set (w := ((cos x * cos x - sin x * sin x - 1)%R, (- (2 * sin x * cos x))%R) : C) in *.
  assert (W : Cmod w = (2 * Rabs (sin x))%R).
  { unfold Cmod, w; cbn [fst snd].
    replace ((cos x * cos x - sin x * sin x - 1) ^ 2 + (- (2 * sin x * cos x)) ^ 2)%R with ((2 * sin x) * (2 * sin x))%R.
    - change ((2 * sin x) * (2 * sin x))%R with (Rsqr (2 * sin x)). rewrite sqrt_Rsqr_abs, Rabs_mult, (Rabs_pos_eq 2) by lra.
      reflexivity.
    - assert (S := sin2_cos2 x). unfold Rsqr in S.
      replace (cos x * cos x)%R with (1 - sin x * sin x)%R by lra.
      replace ((- (2 * sin x * cos x)) ^ 2)%R with (4 * (sin x * sin x) * (cos x * cos x))%R by ring.
      replace (cos x * cos x)%R with (1 - sin x * sin x)%R by lra. ring. }
  assert (Z : Cmod z = (Cmod a * Cmod b)%R).
  { unfold z. rewrite Cmod_mult. f_equal. unfold Cmod, Cconj; cbn [fst snd]. f_equal. ring. }
  assert (I1 : (Rabs (Im (z * w)%C) <= Cmod a * Cmod b * (2 * Rabs (sin x)))%R).
  { rewrite <- W, <- Z, <- Cmod_mult. eapply Rle_trans; [apply Rmax_r | apply Rmax_Cmod]. }
  assert (I2 := sinh_ge y Y). assert (I3 := abs_sin_le x X).
  set (A := Cmod a) in *. set (B := Cmod b) in *.
  assert (PA : (0 <= A)%R) by apply Cmod_ge_0. assert (PB : (0 <= B)%R) by apply Cmod_ge_0.
  assert (P : (exp y * exp (- y) = 1)%R) by (rewrite <- exp_plus, Rplus_opp_r; apply exp_0).
  assert (PE : (0 < exp y)%R) by apply exp_pos. assert (PF : (0 < exp (- y))%R) by apply exp_pos.
  set (e := exp y) in *. set (f := exp (- y)) in *.
  assert (G1 : (2 * (A * B) <= e * A ^ 2 + f * B ^ 2)%R).
  { assert (H : (0 <= e * (e * A ^ 2 + f * B ^ 2 - 2 * (A * B)))%R).
    { replace (e * (e * A ^ 2 + f * B ^ 2 - 2 * (A * B)))%R with (Rsqr (e * A - B))%R; [apply Rle_0_sqr|].
      unfold Rsqr. transitivity (e * e * A ^ 2 + (e * f) * B ^ 2 - 2 * (e * A * B))%R; [rewrite P; ring | ring]. }
    destruct (Rle_lt_dec (2 * (A * B)) (e * A ^ 2 + f * B ^ 2)) as [L|L]; [exact L|]. exfalso.
    assert (e * (e * A ^ 2 + f * B ^ 2 - 2 * (A * B)) < 0)%R by nra. lra. }
  assert (AB : (0 <= A * B)%R) by (apply Rmult_le_pos; assumption).
  assert (G2 : (2 * y * (2 * (A * B)) <= (e - f) * (e * A ^ 2 + f * B ^ 2))%R).
  { apply Rmult_le_compat; lra. }
  assert (G3 : (Re q * (2 * y * (2 * (A * B))) <= Re q * ((e - f) * (e * A ^ 2 + f * B ^ 2)))%R)
    by (apply Rmult_le_compat_l; assumption).
  assert (G4 : (2 * Im q * Im (z * w)%C <= 2 * (Rabs (Im q) * (A * B * (2 * x))))%R).
  { assert (H1 : (Im q * Im (z * w)%C <= Rabs (Im q) * Rabs (Im (z * w)%C))%R) by (rewrite <- Rabs_mult; apply Rle_abs).
    assert (H2 : (Rabs (Im q) * Rabs (Im (z * w)%C) <= Rabs (Im q) * (A * B * (2 * x)))%R).
    { apply Rmult_le_compat_l; [apply Rabs_pos|]. eapply Rle_trans; [exact I1|]. apply Rmult_le_compat_l; lra. }
    lra. }
  assert (G5 : (2 * (Rabs (Im q) * (A * B * (2 * x))) = Re q * (2 * y * (2 * (A * B))))%R).
  { transitivity (Rabs (Im q) * x * (4 * (A * B)))%R; [ring|]. rewrite QXY. ring. }
  lra.
Qed.

Lemma flux_preserved : forall q kappa t a b, wave_pair q kappa -> (Re kappa * Im kappa = 0)%R ->
  power_flux q (cexp (- Ci * (RtoC t * kappa)) * a, cexp (Ci * (RtoC t * kappa)) * b)%C = power_flux q (a, b).
Proof.
  intros q kappa t a b (K & KR & KI & r & R0 & Q) H.
  assert (F := flux_change q kappa t a b). cbv zeta in F.
  apply Rmult_integral in H. destruct H as [H|H]; rewrite H in F; rewrite Rmult_0_r in F.
  - assert (QR : Re q = 0%R) by (destruct Q as [-> | ->]; cparts; rewrite H; ring).
    rewrite QR, sin_0, cos_0 in F.
    replace ((1 * 1 - 0 * 0 - 1)%R, (- (2 * 0 * 1))%R) with (0 : C) in F by (apply C_eq; cbn; ring).
    rewrite Cmult_0_r, Im_R in F. lra.
  - assert (QI : Im q = 0%R) by (destruct Q as [-> | ->]; cparts; rewrite H; ring).
    rewrite QI, Ropp_0, exp_0 in F. lra.
Qed.

(** ** Waves in passive media *)
Lemma wave_in_medium : forall (k : R) n, (0 <= k)%R -> passive n -> off_critical (RtoC k) n ->
  let kappa := n * cos_in (RtoC k) n in
  kappa <> 0 /\ (0 <= Re kappa)%R /\ (0 <= Im kappa)%R /\ (Im n = 0 -> Re kappa * Im kappa = 0)%R.
Proof.
  intros k n K (NR & NI) OC kappa.
  assert (N : n <> 0) by (intros E; rewrite E in NR; cbn in NR; lra).
  assert (S : kappa * kappa = n * n - RtoC k).
  { unfold kappa. rewrite <- (cos_in_sq (RtoC k) n N). ring. }
  assert (CI : (0 <= Im (cos_in (RtoC k) n))%R).
  { apply csqrt_Im. unfold Cdiv. cparts. 
    assert (D : (0 < (Re n * Re n - Im n * Im n) ^ 2 + (Re n * Im n + Im n * Re n) ^ 2)%R).
    { replace ((Re n * Re n - Im n * Im n) ^ 2 + (Re n * Im n + Im n * Re n) ^ 2)%R with ((Re n * Re n + Im n * Im n) ^ 2)%R by ring.
      apply pow_lt. nra. }
    match goal with |- (0 <= ?e)%R => replace e with (k * (2 * (Re n * Im n)) / ((Re n * Re n - Im n * Im n) ^ 2 + (Re n * Im n + Im n * Re n) ^ 2))%R by (field; lra) end.
    apply Rmult_le_pos; [apply Rmult_le_pos; [exact K|]; apply Rmult_le_pos; [lra|]; apply Rmult_le_pos; lra | left; apply Rinv_0_lt_compat; exact D]. }
  assert (CR : (0 <= Re (cos_in (RtoC k) n))%R) by apply csqrt_Re.
  assert (KI : (0 <= Im kappa)%R) by (unfold kappa; cparts; nra).
  assert (SI := f_equal Im S). autorewrite with cparts in SI.
  split; [|split; [|split]].
  - apply Cmult_neq_0; [exact N | apply cos_in_neq_0; assumption].
  - destruct (Rle_lt_dec 0 (Re kappa)) as [|L]; [assumption|]. exfalso.
    assert (E : Im kappa = 0%R) by nra.
    assert (E2 : (Re n * Im (cos_in (RtoC k) n) + Im n * Re (cos_in (RtoC k) n) = 0)%R)
      by (rewrite <- E; unfold kappa; cparts; ring).
    assert (E3 : Im (cos_in (RtoC k) n) = 0%R) by nra.
    assert (0 <= Re kappa)%R by (unfold kappa; cparts; rewrite E3; nra). lra.
  - exact KI.
  - intros E. rewrite E in SI. lra.
Qed.

Lemma wave_q : forall s (k : R) n, (0 <= k)%R -> passive n -> off_critical (RtoC k) n ->
  exists q, q_factor s (cos_in (RtoC k) n) n = Some q /\ wave_pair q (n * cos_in (RtoC k) n) /\
    (0 <= (if s then Im q else - Im q))%R.
Proof.
  intros s k n K P OC. destruct (wave_in_medium k n K P OC) as (A & B & C' & _).
  assert (N : n <> 0) by (intros E; destruct P as [P _]; rewrite E in P; cbn in P; lra).
  unfold q_factor, impedance, polarized. destruct s.
  - cbn [obind]. eexists; split; [reflexivity|]. split.
    + repeat split; auto. exists 1%R. split; [lra|]. left. cring.
    + replace (cos_in (RtoC k) n * n) with (n * cos_in (RtoC k) n) by ring. exact C'.
  - rewrite cdiv_nz by exact N. cbn [obind]. eexists; split; [reflexivity|].
    assert (D := norm_pos n N).
    assert (E : Cconj (cos_in (RtoC k) n) * (1 / n) = RtoC (/ (Re n ^ 2 + Im n ^ 2)) * Cconj (n * cos_in (RtoC k) n)).
    { unfold Cdiv. apply C_eq; cparts; field; lra. }
    rewrite E. assert (I0 : (0 < / (Re n ^ 2 + Im n ^ 2))%R) by (apply Rinv_0_lt_compat; exact D). split.
    + repeat split; auto. exists (/ (Re n ^ 2 + Im n ^ 2))%R. split; [exact I0 | right; reflexivity].
    + cparts. autorewrite with cparts in C'. nra.
Qed.

(** Two media never have opposite factors. *)
Lemma q_sum_neq_0 : forall (s : bool) (qi qj ki kj : C), wave_pair qi ki -> wave_pair qj kj ->
  (0 <= (if s then Im qi else - Im qi))%R -> (0 <= (if s then Im qj else - Im qj))%R -> qi + qj <> 0.
Proof.
  intros s qi qj ki kj A B I J E. assert (RA := wave_pair_Re _ _ A). assert (RB := wave_pair_Re _ _ B).
  apply (wave_pair_neq_0 _ _ A). apply C0_iff. apply C0_iff in E. autorewrite with cparts in E.
  destruct s; split; lra.
Qed.

(** ** Stacks *)
Section Stack.
Variables (wavelength : R) (s : bool) (k : R) (medium : C -> Prop).
Hypothesis wavelength_pos : (0 < wavelength)%R.
Hypothesis k_nonneg : (0 <= k)%R.
Hypothesis medium_passive : forall n, medium n -> passive n.

Definition all_lossless : Prop := forall n, medium n -> lossless n.

Definition good_medium (n : C) : Prop := medium n /\ off_critical (RtoC k) n.
Definition good_layer (l : layer) : Prop :=
  good_medium (layer_n l wavelength) /\ (0 <= ly_thickness l)%R /\ ly_interface l = None.

(** The wave in the medium described by a state. *)
Definition good_state (st : lstate) (q : C) : Prop :=
  good_medium (st_n st) /\ st_direction st = Some (cos_in (RtoC k) (st_n st)) /\
  q_factor s (cos_in (RtoC k) (st_n st)) (st_n st) = Some q.

(** What a part of the stack does. *)
Definition passes (f : lstate -> lstate * option mat2) : Prop :=
  forall st q, good_state st q -> exists st' q' m, f st = (st', Some m) /\ good_state st' q' /\ mat_det m <> 0 /\
    (st_where st = false -> st_where st' = false /\ m = mat_id) /\
    (st_where st = true -> st_where st' = true -> forall v,
       (power_flux q' v <= power_flux q (mat_apply m v))%R /\
       (all_lossless -> power_flux q' v = power_flux q (mat_apply m v))) /\
    (st_where st = true -> st_where st' = false -> forall a : C,
       (0 <= power_flux q (mat_apply m (a, RtoC 0)))%R /\
       (all_lossless -> power_flux q (mat_apply m (a, RtoC 0)) = 0%R)).

Lemma good_neq_0 : forall n, good_medium n -> n <> 0.
Proof. intros n [M _] E. apply medium_passive in M. destruct M as [M _]. rewrite E in M. cbn in M. lra. Qed.

Lemma good_q : forall n, good_medium n -> exists q, q_factor s (cos_in (RtoC k) n) n = Some q /\
  wave_pair q (n * cos_in (RtoC k) n) /\ (0 <= (if s then Im q else - Im q))%R.
Proof. intros n [M OC]. apply wave_q; auto. Qed.

Lemma flux_forward : forall q a, power_flux q (a, RtoC 0) = (Re q * Cmod a ^ 2)%R.
Proof. intros q a. rewrite Cmod_sq. unfold power_flux; cbn [fst snd]. cparts. ring. Qed.

Lemma where_false : forall d h n, where_propagation (propagation wavelength d h n) = false ->
  (0 <= 2 * PI * h / wavelength)%R -> (0 <= Im (n * d)%C)%R -> (0 < Im (n * d)%C)%R.
Proof.
  intros d h n H T I. destruct I as [I|I]; [exact I|]. exfalso.
  assert (W := where_value wavelength d h n ltac:(lra)). rewrite H in W. destruct W as [_ W].
  assert (X : false = true); [|discriminate]. apply W. unfold opacity. rewrite <- I, Rmult_0_r, exp_0. lra.
Qed.

Lemma layer_passes : forall l, good_layer l -> passes (layer_transfer wavelength s l).
Proof.
  intros l (GM & H & I) st q (GS & D & Q).
  assert (N0 := good_neq_0 _ GM). assert (NS := good_neq_0 _ GS).
  destruct (good_q _ GS) as (q0 & Q0 & WS & SS). rewrite Q in Q0. injection Q0 as <-.
  destruct (good_q _ GM) as (q' & Q' & WM & SM).
  set (n := layer_n l wavelength) in *. set (c := cos_in (RtoC k) n) in *.
  assert (SN : snells_law_scalar (cos_in (RtoC k) (st_n st)) (st_n st) n = Some c)
    by (rewrite snell_value, tangential2_cos_in by assumption; reflexivity).
  assert (SUM := q_sum_neq_0 s _ _ _ _ WS WM SS SM).
  assert (QN := wave_pair_neq_0 _ _ WS). assert (QN' := wave_pair_neq_0 _ _ WM).
  assert (RF := refraction_value wavelength _ _ s _ _ _ _ Q Q' QN SUM).
  set (w := (let u := (q + q') / (2 * q) in let v := (q - q') / (2 * q) in Mat2 u v v u)) in *.
  assert (IF : forall v, power_flux q (mat_apply w v) = power_flux q' v) by (intros v; exact (interface_flux q q' v QN)).
  assert (DET : mat_det w <> 0) by (exact (interface_det q q' QN QN')).
  clearbody w.
  assert (PR := propagation_value wavelength c (ly_thickness l) n ltac:(lra)). cbv zeta in PR.
  set (t := (2 * PI * ly_thickness l / wavelength)%R) in *.
  assert (T : (0 <= t)%R).
  { unfold t. apply Rmult_le_pos; [apply Rmult_le_pos; [assert (P := PI_RGT_0); lra | exact H] | left; apply Rinv_0_lt_compat; assumption]. }
  unfold layer_transfer. cbv zeta. fold n. rewrite D. cbn [obind]. rewrite SN. cbn [obind]. rewrite I, RF, PR.
  destruct (wave_in_medium k n k_nonneg (medium_passive _ (proj1 GM)) (proj2 GM)) as (K1 & K2 & K3 & K4).
  fold c in K1, K2, K3, K4.
  destruct (st_where st) eqn:Wst; cbn [andb].
  - rewrite <- PR. destruct (where_propagation (propagation wavelength c (ly_thickness l) n)) eqn:WP.
    + rewrite PR. cbn [omul].
      set (p := Mat2 (cexp (- Ci * (RtoC t * (n * c)))) 0 0 (cexp (Ci * (RtoC t * (n * c))))).
      exists (LState n (Some c) true), q', (mat_mul w p). split; [reflexivity|]. split; [repeat split; auto; apply GM|].
      split; [|split; [discriminate|split; [|discriminate]]].
      * rewrite mat_det_mul. apply Cmult_neq_0; [exact DET|].
        unfold p, mat_det; cbn [mxx mxy myx myy]. replace (0 * 0) with (0 : C) by ring.
        intros E. apply (Cmult_neq_0 (cexp (- Ci * (RtoC t * (n * c)))) (cexp (Ci * (RtoC t * (n * c))))); auto using cexp_neq_0.
        rewrite <- E. ring.
      * intros _ _ [a b]. rewrite mat_apply_mul. rewrite IF.
        replace (mat_apply p (a, b)) with (cexp (- Ci * (RtoC t * (n * c))) * a, cexp (Ci * (RtoC t * (n * c))) * b)
          by (unfold mat_apply, p; cbn; f_equal; ring).
        split; [apply flux_decreases; assumption|]. intros L. symmetry. apply (flux_preserved q' (n * c)); [assumption|].
        apply K4. apply (L n), GM.
    + exists (LState n (Some c) false), q', w. split; [reflexivity|]. split; [repeat split; auto; apply GM|].
      split; [exact DET|]. split; [discriminate|split; [discriminate|]].
      intros _ _ a. rewrite IF, flux_forward.
      assert (RQ := wave_pair_Re _ _ WM). assert (MA := pow2_ge_0 (Cmod a)). split; [apply Rmult_le_pos; assumption|].
      intros L. assert (KI := where_false c _ n WP T K3).
      assert (KR : Re (n * c) = 0%R).
      { specialize (K4 (proj2 (L n (proj1 GM)))). apply Rmult_integral in K4. destruct K4; [assumption | lra]. }
      destruct WM as (_ & _ & _ & r & _ & [E|E]); rewrite E; rewrite Re_mult, ?Re_conj, Re_R, Im_R, KR; ring.
  - exists (LState n (Some c) false), q', mat_id. split; [reflexivity|]. split; [repeat split; auto; apply GM|].
    split; [unfold mat_det; cbn; intros E; apply (f_equal Re) in E; cbn in E; lra|].
    split; [auto|]. split; discriminate.
Qed.

Lemma identity_passes : passes (fun st => (st, Some mat_id)).
Proof.
  intros st q G. exists st, q, mat_id. split; [reflexivity|]. split; [exact G|].
  split; [unfold mat_det; cbn; intros E; apply (f_equal Re) in E; cbn in E; lra|].
  split; [auto|]. split.
  - intros _ _ [a b]. replace (mat_apply mat_id (a, b)) with (a, b) by (unfold mat_apply; cbn; f_equal; ring).
    split; [apply Rle_refl | reflexivity].
  - intros A B. rewrite A in B. discriminate.
Qed.

Lemma compose_passes : forall f g, passes f -> passes g ->
  passes (fun st => let x := f st in let y := g (fst x) in (fst y, omul (snd x) (snd y))).
Proof.
  intros f g F G st q S. destruct (F st q S) as (st1 & q1 & m1 & E1 & S1 & D1 & A1 & B1 & C1).
  destruct (G st1 q1 S1) as (st2 & q2 & m2 & E2 & S2 & D2 & A2 & B2 & C2).
  exists st2, q2, (mat_mul m1 m2). cbv zeta. rewrite E1. cbn [fst snd]. rewrite E2. cbn [fst snd omul].
  split; [reflexivity|]. split; [exact S2|].
  split; [rewrite mat_det_mul; apply Cmult_neq_0; assumption|]. split; [|split].
  - intros W. destruct (A1 W) as (W1 & ->). destruct (A2 W1) as (W2 & ->). split; [exact W2 | apply mat_id_l].
  - intros W W2 v. destruct (st_where st1) eqn:W1.
    + rewrite mat_apply_mul. destruct (B1 W eq_refl (mat_apply m2 v)) as [L1 M1]. destruct (B2 eq_refl W2 v) as [L2 M2].
      split; [lra|]. intros L. rewrite M2, M1 by exact L. reflexivity.
    + destruct (A2 eq_refl) as [X _]. congruence.
  - intros W W2 a. rewrite mat_apply_mul. destruct (st_where st1) eqn:W1.
    + destruct (B1 W eq_refl (mat_apply m2 (a, RtoC 0))) as [L1 M1]. destruct (C2 eq_refl W2 a) as [L2 M2].
      split; [lra|]. intros L. rewrite <- M1 by exact L. apply M2, L.
    + destruct (A2 eq_refl) as [_ ->].
      replace (mat_apply mat_id (a, RtoC 0)) with (a, RtoC 0) by (unfold mat_apply; cbn; f_equal; ring).
      apply C1; auto.
Qed.

Lemma passes_ext : forall f g, (forall st, f st = g st) -> passes f -> passes g.
Proof.
  intros f g E F st q S. destruct (F st q S) as (st1 & q1 & m1 & E1 & X).
  exists st1, q1, m1. rewrite <- E. split; [exact E1 | exact X].
Qed.

Lemma sequence_passes : forall ls, List.Forall (fun l => passes (transfer wavelength s l)) ls ->
  passes (transfer wavelength s (ASequence ls)).
Proof.
  intros ls H. induction H as [|l ls A _ IH].
  - exact identity_passes.
  - eapply passes_ext; [intros st; symmetry; apply transfer_cons|]. apply compose_passes; assumption.
Qed.

Lemma layers_all : forall ls, layers_of (ASequence ls) = concat (map layers_of ls).
Proof. induction ls as [|l ls IH]; [reflexivity|]. cbn [map concat]. rewrite <- IH. reflexivity. Qed.

Lemma periods_all : forall ls, periods_positive (ASequence ls) <-> List.Forall periods_positive ls.
Proof.
  induction ls as [|l ls IH].
  - split; [constructor | cbn; auto].
  - change (periods_positive (ASequence (l :: ls))) with (periods_positive l /\ periods_positive (ASequence ls)).
    rewrite IH. split; [intros []; constructor; auto | intros H; inversion H; auto].
Qed.

Lemma Forall_parts : forall (P : layer -> Prop) ls, List.Forall P (layers_of (ASequence ls)) ->
  List.Forall (fun l => List.Forall P (layers_of l)) ls.
Proof.
  intros P ls H. rewrite layers_all in H. induction ls as [|l ls IH]; constructor; cbn in H; apply Forall_app in H; tauto.
Qed.

Lemma stack_passes : forall l, periods_positive l -> List.Forall good_layer (layers_of l) -> passes (transfer wavelength s l).
Proof.
  induction l as [l|ls IH|ls num IH] using alayer_induction; intros P G.
  - inversion G; subst. apply layer_passes; assumption.
  - apply sequence_passes. rewrite periods_all in P. apply Forall_parts in G.
    rewrite Forall_forall in *. intros x X. apply IH; auto.
  - destruct P as [N P].
    assert (E : List.Forall (fun l => passes (transfer wavelength s l)) ls).
    { apply periods_all in P. apply (Forall_parts _ ls) in G. rewrite Forall_forall in *. intros x X. apply IH; auto. }
    intros st q S.
    assert (R' : List.Forall (fun l => passes (transfer wavelength s l)) (list_times ls num)).
    { unfold list_times. clear - E. induction (Z.to_nat num); cbn; [constructor|]. apply Forall_app; auto. }
    rewrite (periodic_is_repetition wavelength s ls num st (cos_in (RtoC k) (st_n st)) N).
    + apply (sequence_passes _ R' st q S).
    + eapply Forall_impl; [|exact G]. intros a (A & _). exact (good_neq_0 _ A).
    + apply S.
    + intros _. assert (D : List.Forall (fun l => passes (transfer wavelength s l)) (ls ++ ls)) by (apply Forall_app; auto).
      destruct (sequence_passes _ D st q S) as (? & ? & m & E' & _). exists m. rewrite E'. reflexivity.
Qed.
End Stack.

(** ** The efficiency of a stack *)
Lemma real_ambient : forall n0 c0, (0 < n0)%R -> (0 < c0 <= 1)%R ->
  tangential2 (RtoC c0) (RtoC n0) = RtoC (n0 ^ 2 * (1 - c0 ^ 2)) /\
  cos_in (RtoC (n0 ^ 2 * (1 - c0 ^ 2))) (RtoC n0) = RtoC c0.
Proof.
  intros n0 c0 N C0.
  assert (E : tangential2 (RtoC c0) (RtoC n0) = RtoC (n0 ^ 2 * (1 - c0 ^ 2))) by (unfold tangential2; cring).
  split; [exact E|]. rewrite <- E.
  assert (X := snell_identity (RtoC c0) (RtoC n0) (RtoC_neq_0 n0 ltac:(lra)) ltac:(cbn; lra)).
  rewrite snell_value in X by (apply RtoC_neq_0; lra). congruence.
Qed.

Lemma ideal_efficiency : forall (medium : C -> Prop) wavelength n0 c0 layers substrate s,
  (forall n, medium n -> passive n) ->
  ideal_stack medium wavelength n0 c0 layers substrate ->
  exists r t, multilayer_efficiency wavelength (RtoC c0) (RtoC n0) layers substrate s = (Some r, Some t) /\
    (0 <= r)%R /\ (0 <= t)%R /\ (r + t <= 1)%R /\ ((forall n, medium n -> lossless n) -> (r + t = 1)%R).
Proof.
  intros medium wl n0 c0 layers substrate s MP (N & C0 & W & PP & G).
  set (k := (n0 ^ 2 * (1 - c0 ^ 2))%R) in *.
  assert (K : (0 <= k)%R) by (unfold k; apply Rmult_le_pos; nra).
  destruct (real_ambient n0 c0 N C0) as (T0 & C1). fold k in T0, C1.
  (* widen the class of media by the ambient one *)
  set (medium' := fun n => medium n \/ n = RtoC n0).
  assert (MP' : forall n, medium' n -> passive n).
  { intros n [M | ->]; [auto | split; cbn; lra]. }
  assert (G' : List.Forall (good_layer wl k medium') (substrate_layer substrate :: layers_of layers)).
  { eapply Forall_impl; [|exact G]. intros a (A1 & A2 & A3 & A4). repeat split; auto. left; exact A1. }
  inversion G' as [|? ? GS GL]; subst. clear G'.
  set (st0 := LState (RtoC n0) (Some (RtoC c0)) true).
  assert (N0 : RtoC n0 <> 0) by (apply RtoC_neq_0; lra).
  assert (OC : off_critical (RtoC k) (RtoC n0)).
  { unfold off_critical. rewrite <- RtoC_mult. intros E. apply RtoC_inj in E. unfold k in E.
    assert (P : (0 < n0 * c0)%R) by (apply Rmult_lt_0_compat; lra).
    assert (P2 : (0 < (n0 * c0) * (n0 * c0))%R) by (apply Rmult_lt_0_compat; exact P). lra. }
  assert (GM0 : good_medium k medium' (RtoC n0)) by (split; [right; reflexivity | exact OC]).
  destruct (good_q s k medium' K MP' (RtoC n0) GM0) as (q0 & Q0 & W0 & _).
  assert (S0 : good_state s k medium' st0 q0).
  { split; [exact GM0|]. cbn [st0 st_n st_direction]. rewrite C1 in *. auto. }
  assert (Q0' := Q0). rewrite C1 in Q0'.
  assert (QR : exists x, (0 < x)%R /\ q0 = RtoC x).
  { unfold q_factor, impedance, polarized in Q0'. destruct s; cbn [obind] in Q0'.
    - injection Q0' as <-. exists (c0 * n0)%R. split; [nra | cring].
    - rewrite cdiv_nz in Q0' by exact N0. cbn [obind] in Q0'. injection Q0' as <-. exists (c0 / n0)%R.
      split; [apply Rmult_lt_0_compat; [lra | apply Rinv_0_lt_compat; lra]|].
      rewrite RtoC_div by lra. replace (Cconj (RtoC c0)) with (RtoC c0) by cring. field. exact N0. }
  destruct QR as (x & X & QX).
  assert (PASS := compose_passes s k medium' _ _
    (stack_passes wl s k medium' W K MP' layers PP GL) (layer_passes wl s k medium' W K MP' _ GS)).
  destruct (PASS st0 q0 S0) as (st' & q' & m & E & S' & D & _ & B & C2). clear PASS. cbv zeta in E.
  assert (MM : multilayer_matrix wl (RtoC c0) (RtoC n0) layers (Some (substrate_layer substrate)) s = (st', Some m)).
  { unfold multilayer_matrix. cbv zeta. fold st0.
    replace (substrate_layer (Some (substrate_layer substrate))) with (substrate_layer substrate) by (destruct substrate; reflexivity).
    exact E. }
  assert (ST : st_n st' = layer_n (substrate_layer substrate) wl).
  { assert (X1 := f_equal fst E). cbn [fst] in X1. rewrite <- X1. reflexivity. }
  set (ns := layer_n (substrate_layer substrate) wl) in *.
  destruct S' as (GM' & D' & Q'). rewrite ST in *.
  assert (NS : ns <> 0) by (exact (good_neq_0 k medium' MP' ns GM')).
  destruct (good_q s k medium' K MP' ns GM') as (q2 & Q2 & W2 & _). rewrite Q' in Q2. injection Q2 as <-.
  assert (RQ := wave_pair_Re _ _ W2).
  assert (F0 : forall a b, power_flux q0 (a, b) = (x * (Cmod a ^ 2 - Cmod b ^ 2))%R).
  { intros a b. rewrite !Cmod_sq, QX. unfold power_flux; cbn [fst snd]. cparts. ring. }
  assert (AP : mat_apply m (RtoC 1, RtoC 0) = (mxx m, myx m)) by (unfold mat_apply; cbn; f_equal; ring).
  assert (M11 : (Cmod (myx m) ^ 2 <= Cmod (mxx m) ^ 2)%R).
  { destruct (st_where st') eqn:WH.
    - destruct (B eq_refl eq_refl (RtoC 1, RtoC 0)) as [L _]. rewrite AP, F0, flux_forward, Cmod_1 in L. nra.
    - destruct (C2 eq_refl eq_refl (RtoC 1)) as [L _]. rewrite AP, F0 in L. nra. }
  assert (M0 : mxx m <> 0).
  { intros Z. rewrite Z, Cmod_0 in M11. assert (Y : myx m = 0).
    { apply Cmod_eq_0. assert (P := pow2_ge_0 (Cmod (myx m))). assert (Cmod (myx m) ^ 2 = 0)%R by lra.
      destruct (Req_dec (Cmod (myx m)) 0) as [|NZ]; [assumption|]. exfalso. assert (P2 := pow_nonzero _ 2 NZ). lra. }
    apply D. unfold mat_det. rewrite Z, Y. ring. }
  assert (A0 : (0 < Cmod (mxx m))%R) by (apply Cmod_gt_0; exact M0).
  set (A := Cmod (mxx m)) in *. set (Bm := Cmod (myx m)) in *.
  unfold multilayer_efficiency, multilayer_coefficients. cbv zeta. rewrite MM. cbn [fst snd obind].
  rewrite !(cdiv_nz _ (mxx m)) by exact M0. cbn [omap].
  assert (SN : snells_law_scalar (RtoC c0) (RtoC n0) ns = Some (cos_in (RtoC k) ns)) by (rewrite snell_value, T0 by exact NS; reflexivity).
  fold ns. rewrite SN. cbn [obind]. rewrite Q0'. cbn [obind]. rewrite Q'.
  assert (Q0N : q0 <> 0) by (exact (wave_pair_neq_0 _ _ W0)).
  assert (RQX : Re (q' / q0)%C = (Re q' / x)%R) by (rewrite QX; unfold Cdiv; cparts; field; lra).
  assert (MR : (Cmod (myx m / mxx m)%C ^ 2 = Bm ^ 2 / A ^ 2)%R) by (rewrite Cmod_div by exact M0; fold A Bm; field; lra).
  assert (MT : (Cmod (1 / mxx m)%C ^ 2 = / A ^ 2)%R) by (rewrite Cmod_div, Cmod_1 by exact M0; fold A; field; lra).
  assert (IA : (0 < / A ^ 2)%R) by (apply Rinv_0_lt_compat, pow_lt, A0).
  assert (PB := pow2_ge_0 Bm).
  destruct (st_where st') eqn:WH.
  - cbn [obind]. rewrite cdiv_nz by exact Q0N. cbn [obind]. eexists; eexists; split; [reflexivity|].
    rewrite MR, MT, RQX.
    destruct (B eq_refl eq_refl (RtoC 1, RtoC 0)) as [L LE]. rewrite AP, F0, flux_forward, Cmod_1 in L, LE. fold A Bm in L, LE.
    assert (SUM : (Bm ^ 2 / A ^ 2 + / A ^ 2 * (Re q' / x) = (x * Bm ^ 2 + Re q') / (x * A ^ 2))%R) by (field; split; lra).
    repeat split.
    + apply Rmult_le_pos; lra.
    + apply Rmult_le_pos; [lra|]. apply Rmult_le_pos; [exact RQ | left; apply Rinv_0_lt_compat; exact X].
    + rewrite SUM. apply Rle_div_l; [apply Rmult_lt_0_compat; [exact X | apply pow_lt, A0]|]. lra.
    + intros LL. rewrite SUM. assert (LL' : all_lossless medium') by (intros n [M | ->]; [auto | split; cbn; lra]).
      specialize (LE LL'). apply Rmult_eq_reg_r with (x * A ^ 2)%R.
      * field_simplify; [lra | split; lra].
      * apply Rmult_integral_contrapositive_currified; [lra | apply pow_nonzero; lra].
  - cbn [obind]. rewrite cdiv_nz by exact Q0N. cbn [obind]. eexists; eexists; split; [reflexivity|].
    rewrite MR, Cmod_0. destruct (C2 eq_refl eq_refl (RtoC 1)) as [L LE]. rewrite AP, F0 in L, LE. fold A Bm in L, LE.
    repeat split.
    + apply Rmult_le_pos; lra.
    + lra.
    + assert (Bm ^ 2 / A ^ 2 <= 1)%R; [|lra]. apply Rle_div_l; [apply pow_lt, A0|]. nra.
    + intros LL. assert (LL' : all_lossless medium') by (intros n [M | ->]; [auto | split; cbn; lra]).
      specialize (LE LL'). assert (EQ : (Bm ^ 2 = A ^ 2)%R) by nra. rewrite EQ. field. lra.
Qed.
