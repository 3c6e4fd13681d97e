(** Efficiencies of the materials, and stacks that break the conservation of energy or the
    other claims about multilayers (C32, C35, C36). *)
From Coq Require Import Reals Lra Psatz List Bool ZArith Lia.
From Coquelicot Require Import Coquelicot.
From Verif Require Import Vec VecLemmas Num NumLemmas ComplexModel ComplexLemmas ProfileModel LayerModel LayerSpec LayerProofs
  LayerTrivialProofs EnergyProofs AbsorbanceProofs.
Import ListNotations.
Open Scope C_scope.
Open Scope opt_scope.

(** ** The efficiency of films, mirrors and filters *)
Lemma ambient_lossless : forall wavelength index, ambient_n wavelength 0 index = RtoC index.
Proof. intros. unfold ambient_n, RtoC. f_equal. unfold Rdiv. ring. Qed.

Lemma average_bounds : forall a b, (0 <= a <= 1)%R -> (0 <= b <= 1)%R -> exists x, average (Some a) (Some b) = Some x /\ (0 <= x <= 1)%R.
Proof. intros a b A B. eexists. split; [reflexivity|]. lra. Qed.

Lemma film_bounds : forall (medium : C -> Prop) layers wavelength index direction normal,
  (forall n, medium n -> passive n) ->
  ideal_stack medium wavelength index (- dot direction normal) layers None ->
  exists e, film_efficiency layers wavelength 0 index direction normal = Some e /\ (0 <= e <= 1)%R.
Proof.
  intros medium layers wl index d n MP I. unfold film_efficiency. rewrite ambient_lossless. cbv zeta.
  unfold ambient_direction. replace (dot (vopp d) n) with (- dot d n)%R by (unfold dot, vopp; cbn; ring).
  destruct (ideal_efficiency medium wl index _ layers None true MP I) as (r1 & t1 & E1 & A1 & B1 & S1 & _).
  destruct (ideal_efficiency medium wl index _ layers None false MP I) as (r2 & t2 & E2 & A2 & B2 & S2 & _).
  rewrite E1, E2. cbn [snd]. apply average_bounds; lra.
Qed.

Lemma mirror_bounds : forall (medium : C -> Prop) layers substrate wavelength index direction normal,
  (forall n, medium n -> passive n) ->
  ideal_stack medium wavelength index (- dot direction normal) layers substrate ->
  exists e, mirror_efficiency layers substrate wavelength 0 index direction normal = Some e /\ (0 <= e <= 1)%R.
Proof.
  intros medium layers substrate wl index d n MP I. unfold mirror_efficiency. rewrite ambient_lossless. cbv zeta.
  unfold ambient_direction. replace (dot (vopp d) n) with (- dot d n)%R by (unfold dot, vopp; cbn; ring).
  destruct (ideal_efficiency medium wl index _ layers substrate true MP I) as (r1 & t1 & E1 & A1 & B1 & S1 & _).
  destruct (ideal_efficiency medium wl index _ layers substrate false MP I) as (r2 & t2 & E2 & A2 & B2 & S2 & _).
  rewrite E1, E2. cbn [fst]. apply average_bounds; lra.
Qed.

Lemma filter_bounds : forall (medium : C -> Prop) l oxide mesh wavelength index direction normal,
  (forall n, medium n -> passive n) -> (0 <= mesh <= 1)%R ->
  ideal_stack medium wavelength index (- dot direction normal) (ASequence [ALayer oxide; ALayer l; ALayer oxide]) None ->
  exists e, filter_efficiency l oxide mesh wavelength 0 index direction normal = Some e /\ (0 <= e <= 1)%R.
Proof.
  intros medium l oxide mesh wl index d n MP M I. unfold filter_efficiency.
  destruct (film_bounds medium _ wl index d n MP I) as (e & E & B). rewrite E. cbn [omap]. eexists. split; [reflexivity|]. nra.
Qed.

(** ** Computing at normal incidence *)
Lemma cos_in_0 : forall n, cos_in 0 n = 1.
Proof.
  intros n. unfold cos_in. replace (1 - 0 / (n * n)) with (1 * 1 : C) by (unfold Cdiv; ring).
  apply csqrt_of_sq. cbn. lra.
Qed.

Lemma snell_normal : forall n m, m <> (0 : C) -> snells_law_scalar 1 n m = Some (RtoC 1).
Proof.
  intros n m M. rewrite snell_value by exact M. replace (tangential2 1 n) with (0 : C) by (unfold tangential2; ring).
  rewrite cos_in_0. reflexivity.
Qed.

Lemma snell_against : forall n m, m <> (0 : C) -> snells_law_scalar (RtoC (-1)) n m = Some (RtoC 1).
Proof.
  intros n m M. rewrite snell_value by exact M. replace (tangential2 (RtoC (-1)) n) with (0 : C) by (unfold tangential2; cring).
  rewrite cos_in_0. reflexivity.
Qed.

Ltac cnum := apply C_eq; unfold Cminus; unfold Re, Im, RtoC, Cplus, Cmult, Copp, Cconj, Ci; cbn [fst snd]; try field; try lra.
Ltac cnz := apply C0_iff; cbn; intros []; lra.

Lemma Cneq_pair : forall a b, (a <> 0 \/ b <> 0)%R -> (a, b) <> (0 : C).
Proof. intros a b H E. injection E as -> ->. destruct H; lra. Qed.

Lemma cdiv_eq : forall a b c, b <> (0 : C) -> c * b = a -> cdiv a b = Some c.
Proof. intros a b c B <-. rewrite cdiv_nz by exact B. f_equal. field. exact B. Qed.

Lemma refraction_eq : forall wavelength di dj s ni nj i qi qj w u v,
  q_factor s di ni = Some qi -> q_factor s dj nj = Some qj -> qi <> 0 -> qi + qj <> 0 ->
  match i with None => Some 1%R | Some p => profile_reflectivity p wavelength (polarized s di) ni end = Some w ->
  u * (2 * qi) = qi + qj -> v * (2 * qi) = RtoC w * (qi - qj) ->
  refraction wavelength di dj s ni nj i = Some (Mat2 u v v u).
Proof.
  intros wl di dj s ni nj i qi qj w u v I J Q A W U V. unfold refraction. rewrite I, J. cbn [obind]. cbv zeta.
  rewrite !(cdiv_nz _ (qi + qj)) by exact A. cbn [obind]. rewrite W. cbn [obind].
  assert (Q2 : 2 * qi <> 0) by (apply Cmult_neq_0; [apply C2_neq_0 | exact Q]).
  assert (T : 2 * qi / (qi + qj) <> 0) by (apply Cdiv_neq_0; assumption).
  rewrite (cdiv_eq _ _ u T), (cdiv_eq _ _ v T); [reflexivity | |].
  - replace (v * (2 * qi / (qi + qj))) with (v * (2 * qi) / (qi + qj)) by (field; exact A). rewrite V. field. exact A.
  - replace (u * (2 * qi / (qi + qj))) with (u * (2 * qi) / (qi + qj)) by (field; exact A). rewrite U. field. exact A.
Qed.

Lemma q_s : forall d n, q_factor true d n = Some (d * n).
Proof. reflexivity. Qed.
Lemma q_p : forall d n i, n <> (0 : C) -> i * n = 1 -> q_factor false d n = Some (Cconj d * i).
Proof. intros d n i N I. unfold q_factor, impedance. rewrite (cdiv_eq _ _ i N I). reflexivity. Qed.

(** A coating with one perfect interface. *)
Lemma bare_substrate : forall wavelength d n sub s qi qj,
  (wavelength <> 0)%R -> ly_interface sub = None -> layer_n sub wavelength <> 0 ->
  q_factor s d n = Some qi -> (forall c, snells_law_scalar d n (layer_n sub wavelength) = Some c ->
    q_factor s c (layer_n sub wavelength) = Some qj) -> qi <> 0 -> qi + qj <> 0 ->
  multilayer_efficiency wavelength d n (ASequence []) (Some sub) s =
    (Some (Cmod ((qi - qj) / (qi + qj))%C ^ 2)%R, Some (Cmod (2 * qi / (qi + qj))%C ^ 2 * Re (qj / qi)%C)%R).
Proof.
  intros wl d n sub s qi qj W I N Q QJ Q0 A. unfold multilayer_efficiency, multilayer_coefficients, multilayer_matrix. cbv zeta.
  rewrite transfer_nil. cbn [fst snd]. rewrite omul_id_l.
  unfold layer_transfer. cbv zeta. cbn [fst snd st_n st_direction st_where obind].
  change (layer_n (substrate_layer (Some (substrate_layer (Some sub)))) wl) with (layer_n sub wl).
  change (layer_n (substrate_layer (Some sub)) wl) with (layer_n sub wl). cbn [substrate_layer ly_interface ly_thickness].
  rewrite I. rewrite snell_value by exact N. cbn [obind]. specialize (QJ _ (snell_value _ _ _ N)).
  rewrite (refraction_value wl d _ s n _ qi qj Q QJ Q0 A). rewrite propagation_zero by exact W. cbn [where_propagation mat_id mxx].
  destruct (Rlt_dec (Cmod 1) (10 ^ 10)) as [L|L]; [|exfalso; apply L; rewrite Cmod_1; lra].
  cbn [andb omul obind]. rewrite mat_id_r. cbv zeta. cbn [mxx myx].
  assert (Z : (qi + qj) / (2 * qi) <> 0) by (apply Cdiv_neq_0; [exact A | apply Cmult_neq_0; [apply C2_neq_0 | exact Q0]]).
  rewrite !(cdiv_nz _ ((qi + qj) / (2 * qi))) by exact Z. cbn [omap obind]. rewrite Q, QJ. cbn [obind].
  rewrite cdiv_nz by exact Q0. cbn [obind].
  replace ((qi - qj) / (2 * qi) / ((qi + qj) / (2 * qi))) with ((qi - qj) / (qi + qj)) by (field; auto using C2_neq_0).
  replace (1 / ((qi + qj) / (2 * qi))) with (2 * qi / (qi + qj)) by (field; auto using C2_neq_0). reflexivity.
Qed.

(** *** A ray along the normal instead of against it (a negative cosine) *)
Lemma along_normal : mirror_efficiency (ASequence []) (Some glass) 1 0 1 (V3 0 0 1) (V3 0 0 1) = Some 9%R /\
  mirror_efficiency (ASequence []) (Some glass) 1 0 1 (V3 0 0 1) (V3 0 0 (-1)) = Some (/ 9)%R.
Proof.
  assert (G : layer_n glass 1 <> 0) by (cbn; apply RtoC_neq_0; lra).
  assert (S : forall c qi (d : R), RtoC d * (1 : C) = qi -> (d = 1 \/ d = -1)%R -> c = 1 -> qi <> 0 -> qi + 2 <> 0 ->
    multilayer_efficiency 1 (RtoC d) 1 (ASequence []) (Some glass) true =
    (Some (Cmod ((qi - 2) / (qi + 2))%C ^ 2)%R, Some (Cmod (2 * qi / (qi + 2))%C ^ 2 * Re (2 / qi)%C)%R)).
  { intros c qi d E D _ Q A. apply bare_substrate; try assumption; try reflexivity; try lra.
    - rewrite q_s, E. reflexivity.
    - intros c' SC. assert (c' = 1). { destruct D as [-> | ->]; [rewrite snell_normal in SC by exact G | rewrite snell_against in SC by exact G]; congruence. }
      subst c'. rewrite q_s. cbn. f_equal. cring. }
  assert (P : forall qi (d : R), RtoC d * (1 : C) = qi -> (d = 1 \/ d = -1)%R -> qi <> 0 -> qi + RtoC (/2) <> 0 ->
    multilayer_efficiency 1 (RtoC d) 1 (ASequence []) (Some glass) false =
    (Some (Cmod ((qi - RtoC (/2)) / (qi + RtoC (/2)))%C ^ 2)%R, Some (Cmod (2 * qi / (qi + RtoC (/2)))%C ^ 2 * Re (RtoC (/2) / qi)%C)%R)).
  { intros qi d E D Q A. apply bare_substrate; try assumption; try reflexivity; try lra.
    - rewrite (q_p _ _ 1) by (try apply C1_neq_0; ring). f_equal. rewrite <- E. cring.
    - intros c' SC. assert (c' = 1). { destruct D as [-> | ->]; [rewrite snell_normal in SC by exact G | rewrite snell_against in SC by exact G]; congruence. }
      subst c'. rewrite (q_p _ _ (RtoC (/ 2))) by (try exact G; cbn; cnum). f_equal. cring. }
  unfold mirror_efficiency. rewrite ambient_lossless. cbv zeta. unfold ambient_direction. 
  replace (dot (vopp (V3 0 0 1)) (V3 0 0 1)) with (-1)%R by (unfold dot, vopp; cbn; ring).
  replace (dot (vopp (V3 0 0 1)) (V3 0 0 (-1))) with 1%R by (unfold dot, vopp; cbn; ring).
  rewrite (S 1 (RtoC (-1)) (-1)%R), (P (RtoC (-1)) (-1)%R), (S 1 1 1%R), (P 1 1%R); try (right; reflexivity); try (left; reflexivity);
    try ring; try (apply RtoC_neq_0; lra); try (rewrite <- RtoC_plus; apply RtoC_neq_0; lra); try reflexivity.
  cbn [fst average obind].
  assert (E : forall x y z, (y <> 0)%R -> (z * y = x)%R -> Cmod (RtoC x / RtoC y)%C = Rabs z).
  { intros x y z Y <-. rewrite <- RtoC_div by exact Y. rewrite Cmod_R. f_equal. field. exact Y. }
  rewrite <- !RtoC_minus, <- !RtoC_plus.
  rewrite (E _ _ (-3)%R) by lra. rewrite (E _ _ 3%R) by lra. rewrite (E _ _ (-1/3)%R) by lra. rewrite (E _ _ (1/3)%R) by lra.
  rewrite !pow2_abs. split; f_equal; lra.
Qed.

(** *** One layer in vacuum at normal incidence *)
Lemma vacuum_after : forall wavelength s st m, (wavelength <> 0)%R -> st_direction st = Some (RtoC 1) -> st_where st = true ->
  refraction wavelength 1 1 s (st_n st) 1 None = Some m ->
  layer_transfer wavelength s (substrate_layer None) st = (LState 1 (Some (RtoC 1)) true, Some m).
Proof.
  intros wl s st m W D WH M. unfold layer_transfer. cbv zeta. rewrite D, WH. cbn [obind andb].
  change (layer_n (substrate_layer None) wl) with (RtoC 1).
  rewrite snell_normal by apply C1_neq_0. cbn [obind substrate_layer ly_interface ly_thickness]. rewrite M.
  rewrite propagation_zero by exact W. cbn [where_propagation mat_id mxx].
  destruct (Rlt_dec (Cmod 1) (10 ^ 10)) as [L|L]; [|exfalso; apply L; rewrite Cmod_1; lra].
  cbn [omul]. rewrite mat_id_r. reflexivity.
Qed.

Lemma layer_normal : forall wavelength s l st w p, st_direction st = Some (RtoC 1) -> st_where st = true ->
  layer_n l wavelength <> 0 ->
  refraction wavelength 1 1 s (st_n st) (layer_n l wavelength) (ly_interface l) = Some w ->
  propagation wavelength 1 (ly_thickness l) (layer_n l wavelength) = Some p ->
  layer_transfer wavelength s l st =
    let v := where_propagation (Some p) in
    (LState (layer_n l wavelength) (Some (RtoC 1)) v, Some (if v then mat_mul w p else w)).
Proof.
  intros wl s l st w p D WH N RF PR. unfold layer_transfer. cbv zeta. rewrite D, WH. cbn [obind andb].
  rewrite snell_normal by exact N. cbn [obind]. rewrite RF, PR. destruct (where_propagation (Some p)); reflexivity.
Qed.

Lemma one_layer : forall wavelength s l n0 w1 p w2, (wavelength <> 0)%R -> layer_n l wavelength <> 0 ->
  refraction wavelength 1 1 s n0 (layer_n l wavelength) (ly_interface l) = Some w1 ->
  propagation wavelength 1 (ly_thickness l) (layer_n l wavelength) = Some p -> (Cmod (mxx p) < 10 ^ 10)%R ->
  refraction wavelength 1 1 s (layer_n l wavelength) 1 None = Some w2 ->
  multilayer_matrix wavelength 1 n0 (ASequence [ALayer l]) None s =
    (LState 1 (Some (RtoC 1)) true, Some (mat_mul (mat_mul w1 p) w2)).
Proof.
  intros wl s l n0 w1 p w2 W N R1 PR C1 R2. unfold multilayer_matrix. cbv zeta. rewrite transfer_single. cbn [transfer].
  rewrite (layer_normal wl s l _ w1 p) by (try reflexivity; assumption). cbv zeta.
  unfold where_propagation. destruct (Rlt_dec (Cmod (mxx p)) (10 ^ 10)); [|contradiction]. cbn [fst snd].
  rewrite (vacuum_after wl s _ w2) by (try reflexivity; assumption). reflexivity.
Qed.

Lemma film_value : forall wavelength s layers n0 st m q0, multilayer_matrix wavelength 1 n0 layers None s = (st, Some m) ->
  st_where st = true -> mxx m <> 0 -> q_factor s 1 n0 = Some q0 -> q0 <> 0 ->
  multilayer_efficiency wavelength 1 n0 layers None s =
    (Some ((Cmod (myx m) / Cmod (mxx m)) ^ 2)%R, Some ((1 / Cmod (mxx m)) ^ 2 * Re (1 / q0)%C)%R).
Proof.
  intros wl s layers n0 st m q0 E W M Q Q0. unfold multilayer_efficiency, multilayer_coefficients. cbv zeta.
  replace (multilayer_matrix wl 1 n0 layers (Some (substrate_layer None)) s) with (st, Some m) by (rewrite <- E; reflexivity).
  cbn [fst snd obind]. rewrite !(cdiv_nz _ (mxx m)) by exact M. rewrite W. cbn [omap obind].
  change (layer_n (substrate_layer None) wl) with (RtoC 1). rewrite snell_normal by apply C1_neq_0. cbn [obind]. rewrite Q. cbn [obind].
  assert (Q1 : q_factor s 1 1 = Some (1 : C)).
  { destruct s; [rewrite q_s; f_equal; ring | rewrite (q_p _ _ 1) by (try apply C1_neq_0; ring); f_equal; cring]. }
  rewrite Q1. cbn [obind]. rewrite cdiv_nz by exact Q0. cbn [obind]. rewrite !Cmod_div by exact M. rewrite Cmod_1. reflexivity.
Qed.

(** *** A rough interface of an absorbing film *)
Definition rough_film : layer := Layer (Some (fun _ => (1, 2)%R)) 0 (Some (Exponential (sqrt 2))).

Lemma rough_factor : forall s, profile_reflectivity (Exponential (sqrt 2)) (4 * PI) (polarized s 1) 1 = Some (/ 2)%R.
Proof.
  intros s. assert (P := PI_RGT_0). unfold profile_reflectivity.
  rewrite (cdiv_eq _ _ (RtoC (- / 2))).
  - cbn [obind]. cbv zeta. unfold profile_dft. replace (Re (RtoC (-2) * RtoC (- / 2))) with 1%R by (cbn; lra).
    rewrite Rmult_1_l. rewrite pow2_sqrt by lra. unfold odiv. destruct (Req_EM_T (1 + 2 / 2) 0); [lra|]. f_equal. lra.
  - apply RtoC_neq_0. lra.
  - destruct s; unfold polarized; cnum.
Qed.

Lemma rough_film_transmits : film_efficiency (ASequence [ALayer rough_film]) (4 * PI) 0 1 (V3 0 0 1) (V3 0 0 (-1)) = Some (20 / 17)%R.
Proof.
  assert (P := PI_RGT_0).
  assert (W : (4 * PI <> 0)%R) by lra.
  assert (N : ((1, 2)%R : C) <> 0) by (apply Cneq_pair; left; lra).
  assert (NI : ((1 / 5, - 2 / 5)%R : C) <> 0) by (apply Cneq_pair; left; lra).
  assert (I : ((1 / 5, - 2 / 5)%R : C) * (1, 2)%R = 1) by cnum.
  assert (QS : q_factor true 1 (1, 2)%R = Some ((1, 2)%R : C)) by (rewrite q_s; f_equal; cnum).
  assert (QP : q_factor false 1 (1, 2)%R = Some ((1 / 5, - 2 / 5)%R : C)) by (rewrite (q_p _ _ _ N I); f_equal; cnum).
  assert (Q1 : forall s, q_factor s 1 1 = Some (1 : C)).
  { intros []; [rewrite q_s; f_equal; ring | rewrite (q_p _ _ 1) by (try apply C1_neq_0; ring); f_equal; cring]. }
  assert (E : forall s, exists m st, multilayer_matrix (4 * PI) 1 1 (ASequence [ALayer rough_film]) None s = (st, Some m) /\
     st_where st = true /\ mxx m = (9 / 10, 2 / 10)%R).
  { intros s. eexists. eexists. split.
    - apply (one_layer (4 * PI) s rough_film 1
        (if s then let u := (1, 1)%R in let v := (0, - / 2)%R in Mat2 u v v u
              else let u := (3 / 5, - 1 / 5)%R in let v := (2 / 10, 1 / 10)%R in Mat2 u v v u) mat_id
        (if s then let u := (3 / 5, - 1 / 5)%R in let v := (2 / 5, 1 / 5)%R in Mat2 u v v u
              else let u := (1, 1)%R in let v := (0, - 1)%R in Mat2 u v v u) W N).
      + destruct s; cbv zeta; (eapply refraction_eq; [apply Q1 | cbn; (exact QS || exact QP) | apply C1_neq_0 | intros Z; apply (f_equal Re) in Z; cbn in Z; lra | cbn [rough_film ly_interface]; apply rough_factor | cnum | cnum]).
      + apply propagation_zero, W.
      + cbn. rewrite Cmod_1. lra.
      + destruct s; cbv zeta; (eapply refraction_eq; [cbn; (exact QS || exact QP) | apply Q1 | assumption | intros Z; apply (f_equal Re) in Z; cbn in Z; lra | reflexivity | cnum | cnum]).
    - split; [reflexivity|]. destruct s; cbv zeta; cbn [mat_mul mat_id mxx mxy myx myy]; cnum. }
  unfold film_efficiency. rewrite ambient_lossless. cbv zeta. unfold ambient_direction.
  replace (dot (vopp (V3 0 0 1)) (V3 0 0 (-1))) with 1%R by (unfold dot, vopp; cbn; ring).
  assert (T : forall s, snd (multilayer_efficiency (4 * PI) 1 1 (ASequence [ALayer rough_film]) None s) = Some (20 / 17)%R).
  { intros s. destruct (E s) as (m & st & EM & WS & EX). assert (M0 : mxx m <> 0) by (rewrite EX; apply Cneq_pair; left; lra).
    rewrite (film_value (4 * PI) s _ 1 st m 1 EM WS M0 (Q1 s) C1_neq_0). cbn [snd]. f_equal.
    assert (MS := Cmod_sq (mxx m)). rewrite EX in *. cbn [Re Im fst snd] in MS.
    assert (CP : (0 < Cmod (9 / 10, 2 / 10)%R)%R) by (apply Cmod_gt_0, M0). set (c := Cmod _) in *.
    replace (Re (1 / 1)%C) with 1%R by (unfold Cdiv; cparts; field). 
    replace ((1 / c) ^ 2)%R with (/ c ^ 2)%R by (field; lra). rewrite MS. field. }
  rewrite !T. cbn [average obind]. f_equal. lra.
Qed.

(** *** An absorbing ambient medium *)
Lemma absorbing_ambient : exists r t, 
  multilayer_efficiency 16 1 (1, 1)%R (ASequence [ALayer glass]) None true = (Some r, Some t) /\ (r + t = 29 / 17)%R.
Proof.
  assert (N0 : ((1, 1)%R : C) <> 0) by (apply Cneq_pair; left; lra).
  assert (N1 : RtoC 2 <> 0) by (apply RtoC_neq_0; lra).
  set (h := (1 / sqrt 2)%R).
  assert (H2 : (h * h = / 2)%R).
  { unfold h. assert (X := sqrt_sqrt 2 ltac:(lra)). assert (Y := sqrt_lt_R0 2 ltac:(lra)).
    replace (1 / sqrt 2 * (1 / sqrt 2))%R with (1 / (sqrt 2 * sqrt 2))%R by (field; lra). rewrite X. lra. }
  assert (PR : propagation 16 1 1 2 = Some (Mat2 (h, - h)%R 0 0 (h, h)%R)).
  { rewrite propagation_value by lra. cbv zeta. f_equal.
    assert (A : (2 * PI * 1 / 16 * 2 = PI / 4)%R) by field.
    f_equal; unfold cexp.
    - replace (Re (- Ci * (RtoC (2 * PI * 1 / 16) * (2 * 1)))) with 0%R by (cparts; cbn; ring).
      replace (Im (- Ci * (RtoC (2 * PI * 1 / 16) * (2 * 1)))) with (- (PI / 4))%R by (rewrite <- A; cparts; cbn; ring).
      rewrite exp_0, cos_neg, sin_neg, cos_PI4, sin_PI4. fold h. f_equal; ring.
    - replace (Re (Ci * (RtoC (2 * PI * 1 / 16) * (2 * 1)))) with 0%R by (cparts; cbn; ring).
      replace (Im (Ci * (RtoC (2 * PI * 1 / 16) * (2 * 1)))) with (PI / 4)%R by (rewrite <- A; cparts; cbn; ring).
      rewrite exp_0, cos_PI4, sin_PI4. fold h. f_equal; ring. }
  assert (CM : (Cmod (h, - h)%R < 10 ^ 10)%R).
  { unfold Cmod. cbn [fst snd]. apply Rle_lt_trans with (sqrt 1); [apply sqrt_le_1_alt; nra | rewrite sqrt_1; lra]. }
  assert (MM := one_layer 16 true glass (1, 1)%R
     (let u := (1, - / 2)%R in let v := (0, / 2)%R in Mat2 u v v u) (Mat2 (h, - h)%R 0 0 (h, h)%R)
     (let u := (3 / 4, 0)%R in let v := (1 / 4, 0)%R in Mat2 u v v u) ltac:(lra) N1).
  assert (R1 : refraction 16 1 1 true (1, 1)%R (layer_n glass 16) (ly_interface glass) =
     Some (let u := (1, - / 2)%R in let v := (0, / 2)%R in Mat2 u v v u)).
  { cbv zeta. apply (refraction_eq 16 1 1 true (1, 1)%R 2 None (1, 1)%R 2 1%R); try assumption; try reflexivity.
    - rewrite q_s. f_equal. ring.
    - rewrite q_s. f_equal. ring.
    - intros Z; apply (f_equal Re) in Z; cbn in Z; lra.
    - cnum.
    - cnum. }
  assert (R2 : refraction 16 1 1 true (layer_n glass 16) 1 None =
     Some (let u := (3 / 4, 0)%R in let v := (1 / 4, 0)%R in Mat2 u v v u)).
  { cbv zeta. apply (refraction_eq 16 1 1 true 2 1 None 2 1 1%R); try assumption; try reflexivity.
    - rewrite q_s. f_equal. ring.
    - rewrite q_s. f_equal. ring.
    - intros Z; apply (f_equal Re) in Z; cbn in Z; lra.
    - cnum.
    - cnum. }
  specialize (MM R1 PR CM R2). clear R1 R2 PR.
  set (m := mat_mul _ _) in MM.
  assert (M11 : (Cmod (mxx m) ^ 2 = 17 / 32)%R).
  { rewrite Cmod_sq. unfold m, mat_mul, Cplus, Cmult, RtoC, Re, Im. cbn [mxx mxy myx myy fst snd].
    match goal with |- (?x = _)%R => replace x with (17 / 16 * (h * h))%R by field end. rewrite H2. lra. }
  assert (M21 : (Cmod (myx m) ^ 2 = 13 / 32)%R).
  { rewrite Cmod_sq. unfold m, mat_mul, Cplus, Cmult, RtoC, Re, Im. cbn [mxx mxy myx myy fst snd].
    match goal with |- (?x = _)%R => replace x with (13 / 16 * (h * h))%R by field end. rewrite H2. lra. }
  assert (M0 : mxx m <> 0). { intros Z. rewrite Z, Cmod_0 in M11. lra. }
  assert (QQ : q_factor true 1 (1, 1)%R = Some ((1, 1)%R : C)) by (rewrite q_s; f_equal; ring).
  rewrite (film_value 16 true _ (1, 1)%R _ m (1, 1)%R MM eq_refl M0 QQ N0).
  eexists. eexists. split; [reflexivity|].
  assert (CP : (0 < Cmod (mxx m))%R) by (apply Cmod_gt_0, M0).
  replace ((Cmod (myx m) / Cmod (mxx m)) ^ 2)%R with (Cmod (myx m) ^ 2 / Cmod (mxx m) ^ 2)%R by (field; lra).
  replace ((1 / Cmod (mxx m)) ^ 2)%R with (/ Cmod (mxx m) ^ 2)%R by (field; lra).
  rewrite M11, M21. replace (Re (1 / (1, 1)%R)%C) with (/ 2)%R by (unfold Cdiv; cparts; cbn; field). field.
Qed.

(** *** Opaque layers *)
Lemma exp_INR : forall j, exp (INR j) = (exp 1 ^ j)%R.
Proof.
  induction j as [|j IH]; [cbn; apply exp_0|]. rewrite S_INR, exp_plus, IH. cbn [pow]. ring.
Qed.
Lemma exp_20 : (exp 20 < 10 ^ 10)%R.
Proof.
  replace 20%R with (INR 20) by (rewrite INR_IZR_INZ; reflexivity). rewrite exp_INR. assert (A := exp_le_3). assert (B := exp_pos 1).
  apply Rle_lt_trans with (3 ^ 20)%R; [apply pow_incr; lra | lra].
Qed.
Lemma exp_40 : (10 ^ 10 <= exp 40)%R.
Proof.
  replace 40%R with (INR 40) by (rewrite INR_IZR_INZ; reflexivity). rewrite exp_INR. assert (A := exp_ineq1 1 ltac:(lra)).
  apply Rle_trans with (2 ^ 40)%R; [lra | apply pow_incr; lra].
Qed.

(** Of this medium a thickness [h] attenuates the amplitude by [exp (-h)] at the wavelength [2 * PI]. *)
Definition dark (h : R) : layer := Layer (Some (fun _ => (1, 1)%R)) h None.

Lemma dark_n : forall h w, layer_n (dark h) w <> 0.
Proof. intros h w. apply Cneq_pair. left; lra. Qed.

Lemma dark_opacity : forall h, opacity (2 * PI) h (1, 1)%R 1 = exp h.
Proof.
  intros h. assert (P := PI_RGT_0). unfold opacity. replace (Im ((1, 1)%R * 1)) with 1%R by (cbn; ring). f_equal. field. lra.
Qed.

Lemma dark_where : forall h p, propagation (2 * PI) 1 h (1, 1)%R = Some p -> 
  where_propagation (Some p) = if Rlt_dec (exp h) (10 ^ 10) then true else false.
Proof.
  intros h p E. assert (P := PI_RGT_0). assert (A := where_value (2 * PI) 1 h (1, 1)%R ltac:(lra)). rewrite dark_opacity, E in A.
  destruct (Rlt_dec (exp h) (10 ^ 10)); [tauto|]. destruct (where_propagation (Some p)); [|reflexivity]. exfalso; tauto.
Qed.

(** The interface from vacuum into the medium. *)
Lemma dark_interface : refraction (2 * PI) 1 1 true 1 (1, 1)%R None =
  Some (Mat2 (1, / 2)%R (0, - / 2)%R (0, - / 2)%R (1, / 2)%R).
Proof.
  apply (refraction_eq (2 * PI) 1 1 true 1 (1, 1)%R None 1 (1, 1)%R 1%R); try reflexivity.
  - rewrite q_s. f_equal. ring.
  - rewrite q_s. f_equal. ring.
  - apply C1_neq_0.
  - intros Z; apply (f_equal Re) in Z; cbn in Z; lra.
  - cnum.
  - cnum.
Qed.

Definition dark_same : forall wavelength, refraction wavelength 1 1 true (1, 1)%R (1, 1)%R None = Some mat_id :=
  fun w => refraction_same w 1 true (1, 1)%R None C1_neq_0 (Cneq_pair 1 1 (or_introl R1_neq_R0)) I.

Lemma cdiv_1_neq : forall y, cdiv 1 y <> Some (RtoC 0).
Proof.
  intros y. destruct (Ceq_dec y 0) as [->|Z]; [rewrite cdiv_z; discriminate|]. rewrite cdiv_nz by exact Z. intros E.
  assert (F : 1 / y = RtoC 0) by congruence. apply C1_neq_0. transitivity ((1 / y) * y); [field; exact Z | rewrite F; ring].
Qed.

Lemma dark_layer : forall h st w, st_direction st = Some (RtoC 1) -> st_where st = true ->
  refraction (2 * PI) 1 1 true (st_n st) (1, 1)%R None = Some w ->
  exists p, (exp h < 10 ^ 10 -> layer_transfer (2 * PI) true (dark h) st = (LState (1, 1)%R (Some (RtoC 1)) true, Some (mat_mul w p)))%R /\
  (10 ^ 10 <= exp h -> layer_transfer (2 * PI) true (dark h) st = (LState (1, 1)%R (Some (RtoC 1)) false, Some w))%R.
Proof.
  intros h st w D W R1. assert (P := PI_RGT_0). assert (NZ : (2 * PI <> 0)%R) by lra.
  assert (PV := propagation_value (2 * PI) 1 h (1, 1)%R NZ). cbv zeta in PV.
  eexists. assert (L := layer_normal (2 * PI) true (dark h) st w _ D W (dark_n _ _) R1 PV). cbv zeta in L.
  rewrite (dark_where _ _ PV) in L. split; intros X; destruct (Rlt_dec (exp h) (10 ^ 10)); try (exfalso; lra); exact L.
Qed.

Lemma dark_vacuum : refraction (2 * PI) 1 1 true (1, 1)%R 1 None = Some (Mat2 (3 / 4, - / 4)%R (/ 4, / 4)%R (/ 4, / 4)%R (3 / 4, - / 4)%R).
Proof.
  apply (refraction_eq (2 * PI) 1 1 true (1, 1)%R 1 None (1, 1)%R 1 1%R); try reflexivity.
  - rewrite q_s. f_equal. ring.
  - rewrite q_s. f_equal. ring.
  - apply Cneq_pair; left; lra.
  - intros Z; apply (f_equal Re) in Z; cbn in Z; lra.
  - cnum.
  - cnum.
Qed.

(** [exp 20 < 10^10 <= exp 40]: together the two layers are opaque, each of them is not. *)
Lemma split_opaque : 
  snd (multilayer_coefficients (2 * PI) 1 1 (ASequence [ALayer (dark (20 + 20))]) None true) = Some (RtoC 0) /\
  snd (multilayer_coefficients (2 * PI) 1 1 (ASequence [ALayer (dark 20); ALayer (dark 20)]) None true) <> Some (RtoC 0).
Proof.
  assert (P := PI_RGT_0). assert (W : (2 * PI <> 0)%R) by lra.
  set (st0 := LState 1 (Some (RtoC 1)) true). split.
  - unfold multilayer_coefficients, multilayer_matrix. cbv zeta. rewrite transfer_single. cbn [transfer]. fold st0.
    destruct (dark_layer (20 + 20) st0 _ eq_refl eq_refl dark_interface) as (p & _ & L).
    rewrite L by (replace (20 + 20)%R with 40%R by ring; apply exp_40). reflexivity.
  - unfold multilayer_coefficients, multilayer_matrix. cbv zeta. rewrite transfer_cons. cbv zeta. rewrite transfer_single. cbn [transfer].
    fold st0. destruct (dark_layer 20 st0 _ eq_refl eq_refl dark_interface) as (p & L & _).
    rewrite L by apply exp_20. cbn [fst snd]. set (st1 := LState (1, 1)%R (Some (RtoC 1)) true).
    destruct (dark_layer 20 st1 _ eq_refl eq_refl (dark_same _)) as (p' & L' & _). rewrite L' by apply exp_20. cbn [fst snd]. fold st1.
    rewrite (vacuum_after (2 * PI) true st1 _ W eq_refl eq_refl dark_vacuum). cbn [fst snd st_where omul obind].
    apply cdiv_1_neq.
Qed.

(** *** Absorbance *)
(** An opaque layer reflects 1/5 and absorbs 4/5 of the light; below it nothing is left. *)
Definition dark_pair : list alayer := [ALayer (dark 40); ALayer (dark 1)].
Definition dark_w : mat2 := Mat2 (1, / 2)%R (0, - / 2)%R (0, - / 2)%R (1, / 2)%R.
Definition dark_r : C := (- 1 / 5, - 2 / 5)%R.
Notation vacuum0 := (LState 1 (Some (RtoC 1)) true).
Notation opaque1 := (LState (1, 1)%R (Some (RtoC 1)) false).

Lemma opaque_after : forall l, layer_n l (2 * PI) <> 0 -> layer_transfer (2 * PI) true l opaque1 = (LState (layer_n l (2 * PI)) (Some (RtoC 1)) false, Some mat_id).
Proof.
  intros l N. unfold layer_transfer. cbv zeta. cbn [st_n st_direction st_where obind andb]. rewrite snell_normal by exact N. reflexivity.
Qed.

Lemma dark_prefix1 : transfer (2 * PI) true (ASequence [ALayer (dark 40)]) vacuum0 = (opaque1, Some dark_w).
Proof.
  rewrite transfer_single. cbn [transfer]. destruct (dark_layer 40 vacuum0 _ eq_refl eq_refl dark_interface) as (p & _ & L). apply L, exp_40.
Qed.

Lemma dark_prefix2 : transfer (2 * PI) true (ASequence dark_pair) vacuum0 = (opaque1, Some dark_w).
Proof.
  change dark_pair with ([ALayer (dark 40)] ++ [ALayer (dark 1)]). rewrite transfer_app. cbv zeta. rewrite dark_prefix1. cbn [fst snd].
  rewrite transfer_single. cbn [transfer]. rewrite opaque_after by apply dark_n. cbn [fst snd omul]. rewrite mat_id_r. reflexivity.
Qed.

Lemma dark_matrix : multilayer_matrix (2 * PI) 1 1 (ASequence dark_pair) None true = (LState 1 (Some (RtoC 1)) false, Some dark_w).
Proof.
  unfold multilayer_matrix. cbv zeta. rewrite dark_prefix2. cbn [fst snd].
  rewrite opaque_after by apply C1_neq_0. cbn [fst snd omul]. rewrite mat_id_r. reflexivity.
Qed.

Lemma dark_coefficients : multilayer_coefficients (2 * PI) 1 1 (ASequence dark_pair) None true = (Some dark_r, Some (RtoC 0)).
Proof.
  unfold multilayer_coefficients. cbv zeta. rewrite dark_matrix. cbn [fst snd obind st_where].
  rewrite (cdiv_eq _ _ dark_r); [reflexivity | apply Cneq_pair; left; lra | unfold dark_r, dark_w; cbn [mxx myx]; cnum].
Qed.

Lemma dark_efficiency : multilayer_efficiency (2 * PI) 1 1 (ASequence dark_pair) None true = (Some (1 / 5)%R, Some 0%R).
Proof.
  unfold multilayer_efficiency. cbv zeta.
  change (multilayer_coefficients (2 * PI) 1 1 (ASequence dark_pair) (Some (substrate_layer None)) true)
    with (multilayer_coefficients (2 * PI) 1 1 (ASequence dark_pair) None true).
  rewrite dark_coefficients. cbn [fst snd omap obind]. change (layer_n (substrate_layer None) (2 * PI)) with (RtoC 1).
  rewrite snell_normal by apply C1_neq_0. cbn [obind]. rewrite !q_s. cbn [obind].
  rewrite cdiv_nz by (rewrite Cmult_1_l; apply C1_neq_0). cbn [obind]. rewrite Cmod_0, Cmod_sq. unfold dark_r; cbn [Re Im fst snd].
  f_equal; f_equal; field.
Qed.

Lemma dark_inverse : exists b, mat_inverse dark_w = Some b /\ mat_apply b (RtoC 1, dark_r) = ((4 / 5, - 2 / 5)%R, RtoC 0).
Proof.
  destruct (mat_inverse_some dark_w) as (b & B & _).
  { intros Z. apply (f_equal Re) in Z. unfold mat_det, dark_w in Z. cbn in Z. lra. }
  exists b. split; [exact B|]. apply (inverse_unique dark_w b _ _ B). unfold mat_apply, dark_w, dark_r. cbn [mxx mxy myx myy fst snd]. f_equal; cnum.
Qed.

Lemma id_inverse : mat_inverse mat_id = Some mat_id.
Proof.
  destruct (mat_inverse_some mat_id) as (b & B & _ & C1); [unfold mat_det; cbn; intros Y; apply (f_equal Re) in Y; cbn in Y; lra|].
  rewrite mat_id_r in C1. subst b. exact B.
Qed.

Lemma cdiv_one : forall a, cdiv a (1 * 1) = Some a.
Proof. intros a. apply cdiv_eq; [rewrite Cmult_1_l; apply C1_neq_0 | ring]. Qed.

Lemma dark_absorbance : forall i, (i = 0 \/ i = 1)%Z ->
  layer_absorbance i (2 * PI) 1 1 (ASequence dark_pair) None true = Some (RtoC (4 / 5)).
Proof.
  intros i H. destruct dark_inverse as (b & B & V).
  unfold layer_absorbance. cbv zeta. cbn [layer_sequence]. rewrite dark_coefficients. cbn [fst obind].
  assert (Q : q_factor true 1 (1, 1)%R = Some ((1, 1)%R : C)) by (rewrite q_s; f_equal; ring).
  destruct H as [-> | ->].
  - change (py_index dark_pair 0) with (Some (ALayer (dark 40))). change (py_slice_to dark_pair 0) with (@nil alayer).
    change (py_slice_to dark_pair (0 + 1)) with [ALayer (dark 40)]. rewrite dark_prefix1, transfer_nil. cbn [fst snd obind first_layer].
    cbn [layer_n dark ly_chemical ly_interface]. rewrite snell_normal by (apply Cneq_pair; left; lra). cbn [obind st_n st_direction st_where].
    rewrite dark_interface. fold dark_w. cbn [omul obind]. rewrite mat_id_l, B. cbn [obind]. rewrite V. cbn [fst snd].
    rewrite !(flux_value _ _ _ _ _ _ Q). cbn [obind impedance]. rewrite cdiv_one. f_equal. f_equal.
    unfold power_flux. cbn. field.
  - change (py_index dark_pair 1) with (Some (ALayer (dark 1))). change (py_slice_to dark_pair 1) with [ALayer (dark 40)].
    change (py_slice_to dark_pair (1 + 1)) with dark_pair. rewrite dark_prefix1, dark_prefix2. cbn [fst snd obind first_layer].
    cbn [layer_n dark ly_chemical ly_interface]. rewrite snell_normal by (apply Cneq_pair; left; lra). cbn [obind st_n st_direction st_where].
    rewrite dark_same. cbn [omul obind]. rewrite mat_id_r, B. cbn [obind]. rewrite V. cbn [fst snd].
    rewrite !(flux_value _ _ _ _ _ _ Q). cbn [obind impedance]. rewrite cdiv_one. f_equal. f_equal.
    unfold power_flux. cbn. field.
Qed.

Lemma dark_absorbance_last : layer_absorbance (-1) (2 * PI) 1 1 (ASequence dark_pair) None true = Some (RtoC 0).
Proof.
  destruct dark_inverse as (b & B & V).
  unfold layer_absorbance. cbv zeta. cbn [layer_sequence]. rewrite dark_coefficients. cbn [fst obind].
  assert (Q : q_factor true 1 (1, 1)%R = Some ((1, 1)%R : C)) by (rewrite q_s; f_equal; ring).
  assert (Q1 : q_factor true 1 1 = Some (1 : C)) by (rewrite q_s; f_equal; ring).
  change (py_index dark_pair (-1)) with (Some (ALayer (dark 1))). change (py_slice_to dark_pair (-1)) with [ALayer (dark 40)].
  change (py_slice_to dark_pair (-1 + 1)) with (@nil alayer). rewrite dark_prefix1, transfer_nil. cbn [fst snd obind first_layer].
  cbn [layer_n dark ly_chemical ly_interface]. rewrite snell_normal by (apply Cneq_pair; left; lra). cbn [obind st_n st_direction st_where].
  rewrite dark_same. cbn [omul obind]. rewrite mat_id_r, id_inverse, B. cbn [obind]. rewrite V. cbn [fst snd].
  rewrite (flux_value _ _ _ _ _ _ Q), (flux_value _ _ _ _ _ _ Q1). cbn [obind impedance].
  rewrite cdiv_one. f_equal. f_equal.
  unfold mat_apply, mat_id, power_flux, dark_r. cbn. field.
Qed.
