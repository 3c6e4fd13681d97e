(** Proofs about polynomial fits. *)
From Coq Require Import Reals List Bool Arith Lra Lia.
From Verif Require Import Vec Num NumLemmas RayModel DistortionModel FitModel FitSpec.
Import ListNotations.
Open Scope R_scope.
Open Scope opt_scope.

(** * Polynomials *)

Lemma poly_ext : forall d f g, (forall c, f c = g c) -> is_polynomial d f -> is_polynomial d g.
Proof. intros d f g E (l & L & F). exists l. split; [exact L|]. intros c. rewrite <- E. apply F. Qed.
Lemma poly_le : forall d e f, (d <= e)%nat -> is_polynomial d f -> is_polynomial e f.
Proof.
  intros d e f H (l & L & F). exists l. split; [|exact F]. eapply Forall_impl; [|exact L]. intros [[[i j] k] a] T. lia.
Qed.
Lemma poly_add : forall d f g, is_polynomial d f -> is_polynomial d g -> is_polynomial d (fun c => f c + g c).
Proof.
  intros d f g (l & L & F) (m & M & G). exists (l ++ m). split; [apply Forall_app; auto|].
  intros c. rewrite map_app, rsum_app, F, G. reflexivity.
Qed.
Lemma poly_scale : forall d a f, is_polynomial d f -> is_polynomial d (fun c => a * f c).
Proof.
  intros d a f (l & L & F). exists (map (fun t => (fst t, a * snd t)) l). split.
  - rewrite Forall_map. eapply Forall_impl; [|exact L]. intros [[[i j] k] b] T. exact T.
  - intros c. rewrite F, map_map, <- rsum_map_scale. f_equal. apply map_ext. intros [[[i j] k] b]. cbn. ring.
Qed.
Lemma poly_sub : forall d f g, is_polynomial d f -> is_polynomial d g -> is_polynomial d (fun c => f c - g c).
Proof.
  intros d f g F G. apply (poly_ext d (fun c => f c + -1 * g c)); [intros; ring|].
  apply poly_add; [exact F|]. apply poly_scale, G.
Qed.
Lemma poly_mono : forall d i j k, (i + j + k <= d)%nat ->
  is_polynomial d (fun c => sp_wavelength c ^ i * sp_x c ^ j * sp_y c ^ k).
Proof.
  intros d i j k H. exists [(i, j, k, 1)]. split; [constructor; [exact H|constructor]|]. intros c. cbn. ring.
Qed.
Lemma poly_const : forall d a, is_polynomial d (fun _ => a).
Proof.
  intros d a. apply (poly_ext d (fun c => a * (sp_wavelength c ^ 0 * sp_x c ^ 0 * sp_y c ^ 0))); [intros; cbn; ring|].
  apply poly_scale, poly_mono. lia.
Qed.
Lemma poly_up : forall (f : spv -> R) (u : spv -> R) d,
  (u = sp_wavelength \/ u = sp_x \/ u = sp_y) -> is_polynomial d f -> is_polynomial (S d) (fun c => u c * f c).
Proof.
  intros f u d U (l & L & F).
  assert (X : forall up : nat * nat * nat -> nat * nat * nat,
    (forall e, total_degree (up e) = S (total_degree e)) ->
    (forall e c, monomial (up e) c = u c * monomial e c) -> is_polynomial (S d) (fun c => u c * f c)).
  { intros up U1 U2. exists (map (fun t => (up (fst t), snd t)) l). split.
    - rewrite Forall_map. eapply Forall_impl; [|exact L]. intros [[[i j] k] b] T. cbn.
      specialize (U1 (i, j, k)). destruct (up (i, j, k)) as [[i' j'] k']. cbn in U1. lia.
    - intros c. rewrite F, map_map, <- rsum_map_scale. f_equal. apply map_ext. intros [[[i j] k] b]. cbn.
      specialize (U2 (i, j, k) c). destruct (up (i, j, k)) as [[i' j'] k']. cbn in U2. rewrite U2. ring. }
  destruct U as [U|[U|U]]; subst u.
  - apply (X (fun e => let '(i, j, k) := e in (S i, j, k))); intros [[i j] k]; [cbn; lia|intros c; cbn; ring].
  - apply (X (fun e => let '(i, j, k) := e in (i, S j, k))); intros [[i j] k]; [cbn; lia|intros c; cbn; ring].
  - apply (X (fun e => let '(i, j, k) := e in (i, j, S k))); intros [[i j] k]; [cbn; lia|intros c; cbn; ring].
Qed.
Lemma poly_shift_mono : forall o i j k, is_polynomial (i + j + k)
  (fun c => (sp_wavelength c - sp_wavelength o) ^ i * (sp_x c - sp_x o) ^ j * (sp_y c - sp_y o) ^ k).
Proof.
  intros o.
  assert (K : forall k, is_polynomial k (fun c => (sp_y c - sp_y o) ^ k)).
  { induction k as [|k IH]; [exact (poly_const 0 1)|]. apply (poly_ext _ (fun c => sp_y c * (sp_y c - sp_y o) ^ k - sp_y o * (sp_y c - sp_y o) ^ k)).
    - intros c. cbn. ring.
    - apply poly_sub; [apply (poly_up _ sp_y); auto|]. apply poly_scale. apply (poly_le k); [lia|exact IH]. }
  assert (J : forall k j, is_polynomial (j + k) (fun c => (sp_x c - sp_x o) ^ j * (sp_y c - sp_y o) ^ k)).
  { intros k. induction j as [|j IH]; [apply (poly_ext _ (fun c => (sp_y c - sp_y o) ^ k)); [intros; cbn; ring|apply K]|].
    apply (poly_ext _ (fun c => sp_x c * ((sp_x c - sp_x o) ^ j * (sp_y c - sp_y o) ^ k) - sp_x o * ((sp_x c - sp_x o) ^ j * (sp_y c - sp_y o) ^ k))).
    - intros c. cbn. ring.
    - apply poly_sub; [apply (poly_up _ sp_x); auto|]. apply poly_scale. apply (poly_le (j + k)); [lia|exact IH]. }
  induction i as [|i IH]; intros j k.
  - apply (poly_ext _ (fun c => (sp_x c - sp_x o) ^ j * (sp_y c - sp_y o) ^ k)); [intros; cbn; ring|apply J].
  - specialize (IH j k).
    apply (poly_ext _ (fun c => sp_wavelength c * ((sp_wavelength c - sp_wavelength o) ^ i * (sp_x c - sp_x o) ^ j * (sp_y c - sp_y o) ^ k)
       - sp_wavelength o * ((sp_wavelength c - sp_wavelength o) ^ i * (sp_x c - sp_x o) ^ j * (sp_y c - sp_y o) ^ k))).
    + intros c. cbn. ring.
    + apply poly_sub; [apply (poly_up _ sp_wavelength); auto|]. apply poly_scale. apply (poly_le (i + j + k)); [lia|exact IH].
Qed.
Lemma poly_sum : forall (A : Type) d (f : A -> spv -> R) l, (forall a, In a l -> is_polynomial d (f a)) ->
  is_polynomial d (fun c => rsum (map (fun a => f a c) l)).
Proof.
  intros A d f l. induction l as [|a l IH]; intros H; [exact (poly_const d 0)|].
  cbn [map]. apply (poly_ext _ (fun c => f a c + rsum (map (fun a => f a c) l))); [reflexivity|].
  apply poly_add; [apply H; left; reflexivity|]. apply IH. intros b I. apply H. right. exact I.
Qed.
Lemma poly_shift : forall d f o, is_polynomial d f -> is_polynomial d (fun c => f (sp_sub c o)).
Proof.
  intros d f o (l & L & F).
  apply (poly_ext _ (fun c => rsum (map (fun t => (let '(i, j, k, a) := t in fun c =>
     a * ((sp_wavelength c - sp_wavelength o) ^ i * (sp_x c - sp_x o) ^ j * (sp_y c - sp_y o) ^ k)) c) l))).
  { intros c. rewrite F. f_equal. apply map_ext. intros [[[i j] k] a]. reflexivity. }
  apply poly_sum. intros [[[i j] k] a] I. rewrite Forall_forall in L. specialize (L _ I). cbn in L.
  apply poly_scale. apply (poly_le (i + j + k)); [exact L|]. apply poly_shift_mono.
Qed.
Lemma poly_unshift : forall d f o, is_polynomial d f -> is_polynomial d (fun c => f (sp_add c o)).
Proof.
  intros d f o F. apply (poly_ext _ (fun c => f (sp_sub c (mkSpv (- sp_wavelength o) (- sp_x o) (- sp_y o))))); [|apply poly_shift, F].
  intros c. f_equal. unfold sp_sub, sp_add. cbn. f_equal; ring.
Qed.
Lemma sub_add : forall c o, sp_add (sp_sub c o) o = c.
Proof. intros [w x y] o. unfold sp_sub, sp_add. cbn. f_equal; ring. Qed.
Lemma evaluate_poly : forall d p, Forall (fun t => (total_degree (fst t) <= d)%nat) p -> is_polynomial d (evaluate p).
Proof.
  intros d p H. exists p. split.
  - eapply Forall_impl; [|exact H]. intros [[[i j] k] a] T. exact T.
  - intros c. unfold evaluate. f_equal. apply map_ext. intros [[[i j] k] a]. reflexivity.
Qed.

(** * Fits *)

Lemma squares_ext : forall f g l, (forall p, In p l -> f (fst p) = g (fst p)) -> squares f l = squares g l.
Proof. intros f g l H. unfold squares. apply rsum_map_ext. intros p I. rewrite (H p I). reflexivity. Qed.
Lemma squares_nonneg : forall f l, 0 <= squares f l.
Proof. intros. apply rsum_map_nonneg. intros. apply pow2_ge_0. Qed.
Lemma squares_zero : forall f l, squares f l <= 0 -> forall p, In p l -> f (fst p) = snd p.
Proof.
  intros f l. induction l as [|a l IH]; intros H p I; [destruct I|].
  unfold squares in H. cbn [map rsum fold_right] in H. fold (squares f l) in H. change (fold_right Rplus 0 (map (fun p => (f (fst p) - snd p) ^ 2) l)) with (squares f l) in H.
  assert (N := squares_nonneg f l). assert (Q := pow2_ge_0 (f (fst a) - snd a)).
  destruct I as [->|I]; [assert (Z : (f (fst p) - snd p) ^ 2 = 0) by lra; nra|]. apply IH; [lra|exact I].
Qed.

Lemma all_of_some : forall (A : Type) (l : list A), all_of (map Some l) = Some l.
Proof. intros A l. induction l as [|a l IH]; [reflexivity|]. cbn. rewrite IH. reflexivity. Qed.
Lemma all_of_in : forall (A : Type) (l : list (option A)) m, all_of l = Some m -> l = map Some m.
Proof.
  intros A l. induction l as [|[a|] l IH]; intros m H; cbn in H; [injection H as <-; reflexivity| |discriminate].
  destruct (all_of l) as [m'|]; [|discriminate]. cbn in H. injection H as <-. cbn. rewrite (IH m'); reflexivity.
Qed.
Lemma mean_some : forall l, l <> [] -> exists m, mean l = Some m.
Proof.
  intros l H. unfold mean. eexists. apply odiv_nz. destruct l; [congruence|]. cbn [length]. apply not_0_INR. lia.
Qed.
Lemma sp_mean_some : forall l, l <> [] -> exists m, sp_mean l = Some m.
Proof.
  intros l H. unfold sp_mean.
  assert (N : forall f : spv -> R, map f l <> []) by (intros f E; apply map_eq_nil in E; congruence).
  destruct (mean_some _ (N sp_wavelength)) as [w ->]. destruct (mean_some _ (N sp_x)) as [x ->]. destruct (mean_some _ (N sp_y)) as [y ->].
  eexists; reflexivity.
Qed.

(** The fit is the least-squares polynomial, whatever the center. *)
Lemma fit_best : forall solve d o l, least_squares solve -> exists g,
  is_polynomial d g /\ (forall c, fit solve d (Some o) (map Some l) c = Some (g c)) /\
  forall f, is_polynomial d f -> squares g l <= squares f l.
Proof.
  intros solve d o l S. destruct (S d (map (fun p => (sp_sub (fst p) o, snd p)) l)) as [D M].
  set (p := solve d (map (fun p => (sp_sub (fst p) o, snd p)) l)) in *.
  exists (fun c => evaluate p (sp_sub c o)). split; [apply poly_shift, evaluate_poly, D|]. split.
  - intros c. unfold fit. cbn [obind]. rewrite all_of_some. reflexivity.
  - intros f F. specialize (M (fun c => f (sp_add c o)) (poly_unshift _ _ _ F)).
    unfold squares in *. rewrite !map_map in M. cbn [fst snd] in M.
    replace (rsum (map (fun p0 => (f (fst p0) - snd p0) ^ 2) l)) with (rsum (map (fun x => (f (sp_add (sp_sub (fst x) o) o) - snd x) ^ 2) l)); [exact M|].
    apply rsum_map_ext. intros q _. rewrite sub_add. reflexivity.
Qed.

(** Least squares are unique at the points. *)
Lemma best_unique : forall d g h l, is_polynomial d g -> is_polynomial d h ->
  (forall f, is_polynomial d f -> squares g l <= squares f l) ->
  (forall f, is_polynomial d f -> squares h l <= squares f l) ->
  forall p, In p l -> g (fst p) = h (fst p).
Proof.
  intros d g h l G H BG BH.
  assert (M : is_polynomial d (fun c => / 2 * (g c + h c))) by (apply poly_scale, poly_add; assumption).
  specialize (BG _ M). specialize (BH _ M).
  assert (E : squares (fun c => / 2 * (g c + h c)) l = / 2 * (squares g l + squares h l) - / 4 * rsum (map (fun p => (g (fst p) - h (fst p)) ^ 2) l)).
  { unfold squares. clear. induction l as [|a l IH]; cbn [map rsum fold_right]; [field|]. fold (rsum (map (fun p => (/ 2 * (g (fst p) + h (fst p)) - snd p) ^ 2) l)) in *.
    unfold rsum in *. rewrite IH. field. }
  assert (Z : rsum (map (fun p => (g (fst p) - h (fst p)) ^ 2) l) <= 0) by lra.
  intros p I. assert (Q := squares_zero (fun c => g c) (map (fun p => (fst p, h (fst p))) l)).
  unfold squares in Q. rewrite map_map in Q. specialize (Q Z (fst p, h (fst p))). cbn in Q. apply Q.
  apply in_map_iff. exists p. auto.
Qed.
Lemma best_exact : forall d f g l, is_polynomial d f -> (forall h, is_polynomial d h -> squares g l <= squares h l) ->
  (forall p, In p l -> f (fst p) = snd p) -> forall p, In p l -> g (fst p) = snd p.
Proof.
  intros d f g l F B E. apply squares_zero. eapply Rle_trans; [exact (B f F)|]. unfold squares.
  rewrite (rsum_map_ext _ (fun _ => 0)); [rewrite rsum_map_0; lra|]. intros p I. rewrite (E p I). ring.
Qed.

(** * Distortion *)

Lemma measured_forward : forall points l (out : R * R -> R), measured points l ->
  map (fun k => omap (fun s => (k_scene k, out s)) (k_sensor k)) (selected points) = map Some (map (fun p => (fst p, out (snd p))) l).
Proof.
  intros points l out M. unfold measured in M. unfold selected.
  transitivity (map (fun q : spv * option (R * R) => omap (fun s => (fst q, out s)) (snd q)) (map (fun k => (k_scene k, k_sensor k)) (filter k_where points))).
  - rewrite map_map. reflexivity.
  - rewrite M, !map_map. reflexivity.
Qed.
Lemma measured_backward : forall points l (out : spv -> R), measured points l ->
  map (fun k => omap (fun i => (i, out (k_scene k))) (inverse_input k)) (selected points) = map Some (map (fun p => (sensor_spv p, out (fst p))) l).
Proof.
  intros points l out M. unfold measured in M. unfold selected.
  transitivity (map (fun q : spv * option (R * R) => omap (fun s => (mkSpv (sp_wavelength (fst q)) (fst s) (snd s), out (fst q))) (snd q))
     (map (fun k => (k_scene k, k_sensor k)) (filter k_where points))).
  - rewrite map_map. apply map_ext. intros k. unfold inverse_input. cbn [fst snd]. destruct (k_sensor k); reflexivity.
  - rewrite M, !map_map. reflexivity.
Qed.

Lemma distort_best : forall solve d points l, least_squares solve -> points <> [] -> measured points l -> exists g h,
  is_polynomial d g /\ is_polynomial d h /\
  (forall c, poly_distort solve d points c = Some (mkSpv (sp_wavelength c) (g c) (h c))) /\
  forall f, is_polynomial d f ->
    squares g (map (fun p => (fst p, fst (snd p))) l) <= squares f (map (fun p => (fst p, fst (snd p))) l) /\
    squares h (map (fun p => (fst p, snd (snd p))) l) <= squares f (map (fun p => (fst p, snd (snd p))) l).
Proof.
  intros solve d points l S N M.
  destruct (sp_mean_some (map k_scene points)) as [o O]; [intros E; apply map_eq_nil in E; congruence|].
  destruct (fit_best solve d o (map (fun p => (fst p, fst (snd p))) l) S) as (g & G1 & G2 & G3).
  destruct (fit_best solve d o (map (fun p => (fst p, snd (snd p))) l) S) as (h & H1 & H2 & H3).
  exists g, h. split; [exact G1|]. split; [exact H1|]. split.
  - intros c. unfold poly_distort, fit_forward. rewrite O, !(measured_forward points l) by exact M. rewrite G2, H2. reflexivity.
  - intros f F. split; auto.
Qed.
Lemma undistort_best : forall solve d points l, least_squares solve -> points <> [] -> all_numbers points -> measured points l -> exists g h,
  is_polynomial d g /\ is_polynomial d h /\
  (forall c, poly_undistort solve d points c = Some (mkSpv (sp_wavelength c) (g c) (h c))) /\
  forall f, is_polynomial d f ->
    squares g (map (fun p => (sensor_spv p, sp_x (fst p))) l) <= squares f (map (fun p => (sensor_spv p, sp_x (fst p))) l) /\
    squares h (map (fun p => (sensor_spv p, sp_y (fst p))) l) <= squares f (map (fun p => (sensor_spv p, sp_y (fst p))) l).
Proof.
  intros solve d points l S N A M.
  assert (I : exists m, all_of (map inverse_input points) = Some m /\ m <> []).
  { assert (X : forall q, (forall k, In k q -> k_sensor k <> None) -> exists m, all_of (map inverse_input q) = Some m /\ length m = length q).
    { induction q as [|k q IH]; intros B; [exists []; split; reflexivity|].
      destruct IH as (m & E & L); [intros k' I; apply B; right; exact I|].
      assert (K := B k (or_introl eq_refl)). cbn [map all_of]. unfold inverse_input at 1. destruct (k_sensor k) as [s|]; [|congruence].
      cbn [omap obind]. rewrite E. cbn [obind]. eexists. split; [reflexivity|]. cbn. rewrite L. reflexivity. }
    destruct (X points A) as (m & E & L). exists m. split; [exact E|]. intros ->. destruct points; [congruence|discriminate]. }
  destruct I as (m & E & NM). destruct (sp_mean_some m NM) as [o O].
  destruct (fit_best solve d o (map (fun p => (sensor_spv p, sp_x (fst p))) l) S) as (g & G1 & G2 & G3).
  destruct (fit_best solve d o (map (fun p => (sensor_spv p, sp_y (fst p))) l) S) as (h & H1 & H2 & H3).
  exists g, h. split; [exact G1|]. split; [exact H1|]. split.
  - intros c. unfold poly_undistort, fit_backward. rewrite E. cbn [obind]. rewrite O, !(measured_backward points l) by exact M. rewrite G2, H2. reflexivity.
  - intros f F. split; auto.
Qed.

Lemma distort_exact : forall solve d points l fx fy, least_squares solve -> points <> [] -> measured points l ->
  is_polynomial d fx -> is_polynomial d fy ->
  (forall p, In p l -> snd p = (fx (fst p), fy (fst p))) ->
  (forall p, In p l -> poly_distort solve d points (fst p) = Some (mkSpv (sp_wavelength (fst p)) (fx (fst p)) (fy (fst p)))) /\
  (unisolvent d (map fst l) -> forall c, poly_distort solve d points c = Some (mkSpv (sp_wavelength c) (fx c) (fy c))).
Proof.
  intros solve d points l fx fy S N M FX FY E.
  destruct (distort_best solve d points l S N M) as (g & h & G & H & D & B).
  assert (EG : forall p, In p l -> g (fst p) = fx (fst p)).
  { intros p I. assert (Q := best_exact d fx g _ FX (fun f F => proj1 (B f F))).
    assert (X : forall q, In q (map (fun p : spv * (R * R) => (fst p, fst (snd p))) l) -> fx (fst q) = snd q).
    { intros q J. apply in_map_iff in J. destruct J as (p' & <- & J). cbn. rewrite (E p' J). reflexivity. }
    specialize (Q X (fst p, fst (snd p))). cbn [fst snd] in Q. rewrite Q; [rewrite (E p I); reflexivity|]. apply in_map_iff. exists p. auto. }
  assert (EH : forall p, In p l -> h (fst p) = fy (fst p)).
  { intros p I. assert (Q := best_exact d fy h _ FY (fun f F => proj2 (B f F))).
    assert (X : forall q, In q (map (fun p : spv * (R * R) => (fst p, snd (snd p))) l) -> fy (fst q) = snd q).
    { intros q J. apply in_map_iff in J. destruct J as (p' & <- & J). cbn. rewrite (E p' J). reflexivity. }
    specialize (Q X (fst p, snd (snd p))). cbn [fst snd] in Q. rewrite Q; [rewrite (E p I); reflexivity|]. apply in_map_iff. exists p. auto. }
  split.
  - intros p I. rewrite D, (EG p I), (EH p I). reflexivity.
  - intros U c. rewrite D.
    assert (Z1 := U (fun c => g c - fx c) (poly_sub _ _ _ G FX)).
    assert (Z2 := U (fun c => h c - fy c) (poly_sub _ _ _ H FY)). cbn beta in *.
    f_equal. f_equal; apply Rminus_diag_uniq; [apply Z1|apply Z2]; intros p I; apply in_map_iff in I; destruct I as (q & <- & I).
    + rewrite (EG q I); ring.
    + rewrite (EH q I); ring.
Qed.
Lemma undistort_exact : forall solve d points l fx fy, least_squares solve -> points <> [] -> all_numbers points -> measured points l ->
  is_polynomial d fx -> is_polynomial d fy ->
  (forall p, In p l -> fx (sensor_spv p) = sp_x (fst p) /\ fy (sensor_spv p) = sp_y (fst p)) ->
  (forall p, In p l -> poly_undistort solve d points (sensor_spv p) = Some (fst p)) /\
  (unisolvent d (map sensor_spv l) -> forall c, poly_undistort solve d points c = Some (mkSpv (sp_wavelength c) (fx c) (fy c))).
Proof.
  intros solve d points l fx fy S N A M FX FY E.
  destruct (undistort_best solve d points l S N A M) as (g & h & G & H & D & B).
  assert (EG : forall p, In p l -> g (sensor_spv p) = sp_x (fst p)).
  { intros p I. assert (Q := best_exact d fx g _ FX (fun f F => proj1 (B f F))).
    assert (X : forall q, In q (map (fun p : spv * (R * R) => (sensor_spv p, sp_x (fst p))) l) -> fx (fst q) = snd q).
    { intros q J. apply in_map_iff in J. destruct J as (p' & <- & J). cbn [fst snd]. apply (E p' J). }
    specialize (Q X (sensor_spv p, sp_x (fst p))). cbn [fst snd] in Q. apply Q. apply in_map_iff. exists p. auto. }
  assert (EH : forall p, In p l -> h (sensor_spv p) = sp_y (fst p)).
  { intros p I. assert (Q := best_exact d fy h _ FY (fun f F => proj2 (B f F))).
    assert (X : forall q, In q (map (fun p : spv * (R * R) => (sensor_spv p, sp_y (fst p))) l) -> fy (fst q) = snd q).
    { intros q J. apply in_map_iff in J. destruct J as (p' & <- & J). cbn [fst snd]. apply (E p' J). }
    specialize (Q X (sensor_spv p, sp_y (fst p))). cbn [fst snd] in Q. apply Q. apply in_map_iff. exists p. auto. }
  split.
  - intros p I. rewrite D, (EG p I), (EH p I). destruct p as [[w x y] s]. reflexivity.
  - intros U c. rewrite D.
    assert (Z1 := U (fun c => g c - fx c) (poly_sub _ _ _ G FX)).
    assert (Z2 := U (fun c => h c - fy c) (poly_sub _ _ _ H FY)). cbn beta in *.
    f_equal. f_equal; apply Rminus_diag_uniq; [apply Z1|apply Z2]; intros p I; apply in_map_iff in I; destruct I as (q & <- & I).
    + rewrite (EG q I), (proj1 (E q I)); ring.
    + rewrite (EH q I), (proj2 (E q I)); ring.
Qed.

(** Points that are not selected do not matter for the forward fit. *)
Lemma distort_masked : forall solve d points points' l, least_squares solve -> points <> [] -> points' <> [] ->
  measured points l -> measured points' l -> unisolvent d (map fst l) ->
  forall c, poly_distort solve d points c = poly_distort solve d points' c.
Proof.
  intros solve d points points' l S N N' M M' U c.
  destruct (distort_best solve d points l S N M) as (g & h & G & H & D & B).
  destruct (distort_best solve d points' l S N' M') as (g' & h' & G' & H' & D' & B').
  rewrite D, D'. f_equal.
  assert (Z1 := U (fun c => g c - g' c) (poly_sub _ _ _ G G')).
  assert (Z2 := U (fun c => h c - h' c) (poly_sub _ _ _ H H')). cbn beta in *.
  assert (Q1 := best_unique d g g' _ G G' (fun f F => proj1 (B f F)) (fun f F => proj1 (B' f F))).
  assert (Q2 := best_unique d h h' _ H H' (fun f F => proj2 (B f F)) (fun f F => proj2 (B' f F))).
  f_equal; apply Rminus_diag_uniq; [apply Z1|apply Z2]; intros p I; apply in_map_iff in I; destruct I as (q & <- & I).
  - specialize (Q1 (fst q, fst (snd q))). cbn in Q1. rewrite Q1; [ring|]. apply in_map_iff. exists q. auto.
  - specialize (Q2 (fst q, snd (snd q))). cbn in Q2. rewrite Q2; [ring|]. apply in_map_iff. exists q. auto.
Qed.
Lemma undistort_masked : forall solve d points points' l, least_squares solve -> points <> [] -> points' <> [] ->
  all_numbers points -> all_numbers points' ->
  measured points l -> measured points' l -> unisolvent d (map sensor_spv l) ->
  forall c, poly_undistort solve d points c = poly_undistort solve d points' c.
Proof.
  intros solve d points points' l S N N' A A' M M' U c.
  destruct (undistort_best solve d points l S N A M) as (g & h & G & H & D & B).
  destruct (undistort_best solve d points' l S N' A' M') as (g' & h' & G' & H' & D' & B').
  rewrite D, D'. f_equal.
  assert (Z1 := U (fun c => g c - g' c) (poly_sub _ _ _ G G')).
  assert (Z2 := U (fun c => h c - h' c) (poly_sub _ _ _ H H')). cbn beta in *.
  assert (Q1 := best_unique d g g' _ G G' (fun f F => proj1 (B f F)) (fun f F => proj1 (B' f F))).
  assert (Q2 := best_unique d h h' _ H H' (fun f F => proj2 (B f F)) (fun f F => proj2 (B' f F))).
  f_equal; apply Rminus_diag_uniq; [apply Z1|apply Z2]; intros p I; apply in_map_iff in I; destruct I as (q & <- & I).
  - specialize (Q1 (sensor_spv q, sp_x (fst q))). cbn in Q1. rewrite Q1; [ring|]. apply in_map_iff. exists q. auto.
  - specialize (Q2 (sensor_spv q, sp_y (fst q))). cbn in Q2. rewrite Q2; [ring|]. apply in_map_iff. exists q. auto.
Qed.

(** * The calibration points of a system *)

Lemma calibration_of_rays : forall scene rays ps, ps <> [] -> map r_position (filter r_unvignetted rays) = map Some ps ->
  ray_calibration scene rays
  = mkCalibration scene (Some (rsum (map vx ps) / INR (length ps), rsum (map vy ps) / INR (length ps))) true.
Proof.
  intros scene rays ps N E. unfold ray_calibration.
  assert (W : existsb r_unvignetted rays = true).
  { destruct (filter r_unvignetted rays) as [|r l] eqn:F; [destruct ps; [congruence|discriminate]|].
    apply existsb_exists. exists r. apply filter_In. rewrite F. left. reflexivity. }
  rewrite W. cbn [negb]. rewrite (filter_ext (fun r => r_unvignetted r || false) r_unvignetted) by (intros r; apply orb_false_r).
  rewrite E, all_of_some. cbn [obind]. unfold mean. rewrite !map_length.
  assert (L : INR (length ps) <> 0) by (apply not_0_INR; destruct ps; [congruence|discriminate]).
  rewrite !odiv_nz by exact L. reflexivity.
Qed.

Lemma calibration_where : forall scene rays,
  k_scene (ray_calibration scene rays) = scene /\
  (k_where (ray_calibration scene rays) = true <-> exists r, In r rays /\ r_unvignetted r = true).
Proof. intros scene rays. split; [reflexivity|]. cbn. apply existsb_exists. Qed.
