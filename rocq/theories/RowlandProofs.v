(** The Rowland circle. *)
From Coq Require Import Reals Lra Psatz List.
From Coquelicot Require Import Coquelicot.
From Verif Require Import Vec VecLemmas Num NumLemmas RayModel SnellModel SnellSpec SnellProofs SurfaceModel RulingModel
  SagModel SagSpec FocusSpec InvariantProofs FermatSpec FermatProofs GratingProofs ParaxialProofs RowlandSpec.
Import ListNotations.
Open Scope R_scope.
Open Scope opt_scope.

(** ** Functions with a value and a derivative at 0 *)
Definition der (f : R -> R) (c v : R) : Prop := f 0 = c /\ is_derive f 0 v.
Lemma der_const c : der (fun _ => c) c 0.
Proof. split; [reflexivity|]. apply (is_derive_const c 0). Qed.
Lemma der_plus f g a b v w : der f a v -> der g b w -> der (fun t => f t + g t) (a + b) (v + w).
Proof. intros [<- F] [<- G]. split; [reflexivity|]. exact (is_derive_plus f g 0 v w F G). Qed.
Lemma der_opp f a v : der f a v -> der (fun t => - f t) (- a) (- v).
Proof. intros [<- F]. split; [reflexivity|]. exact (is_derive_opp f 0 v F). Qed.
Lemma der_minus f g a b v w : der f a v -> der g b w -> der (fun t => f t - g t) (a - b) (v - w).
Proof. intros [<- F] [<- G]. split; [reflexivity|]. exact (is_derive_minus f g 0 v w F G). Qed.
Lemma der_mult f g a b v w : der f a v -> der g b w -> der (fun t => f t * g t) (a * b) (v * b + a * w).
Proof. intros [<- F] [<- G]. split; [reflexivity|]. exact (is_derive_mult f g 0 v w F G Rmult_comm). Qed.
Lemma der_sqrt f a v : der f a v -> 0 < a -> der (fun t => sqrt (f t)) (sqrt a) (v / (2 * sqrt a)).
Proof. intros [<- F] P. split; [reflexivity|]. exact (is_derive_sqrt f 0 v F P). Qed.
Lemma der_div f g a b v w : der f a v -> der g b w -> b <> 0 -> der (fun t => f t / g t) (a / b) ((v * b - a * w) / (b * b)).
Proof.
  intros [<- F] [<- G] N. split; [reflexivity|]. replace (g 0 * g 0) with (g 0 ^ 2) by ring. exact (is_derive_div f g 0 v w F G N).
Qed.
Lemma der_value f a b v w : der f a v -> a = b -> v = w -> der f b w.
Proof. intros F <- <-. exact F. Qed.
Lemma der_cont f a v : der f a v -> cont f a.
Proof. intros [Z D]. split; [exact Z|]. apply derivable_continuous_pt. exists v. apply is_derive_Reals. exact D. Qed.
Ltac dv := lazymatch goal with
  | |- der (fun _ => ?c) _ _ => apply (der_const c)
  | |- der (fun t => @?f t + @?g t) _ _ => apply (der_plus f g); dv
  | |- der (fun t => @?f t - @?g t) _ _ => apply (der_minus f g); dv
  | |- der (fun t => @?f t * @?g t) _ _ => apply (der_mult f g); dv
  | |- der (fun t => - @?f t) _ _ => apply (der_opp f); dv
  | |- der (fun t => ?f t) _ _ => match goal with H : der f _ _ |- _ => exact H | H : der (fun t => f t) _ _ |- _ => exact H end
  | |- der ?f _ _ => match goal with H : der f _ _ |- _ => exact H end
  end.

(** A function that vanishes at 0 has the derivative 0 there exactly if its absolute value has. *)
Lemma derive_abs (g : R -> R) : g 0 = 0 -> is_derive (fun t => Rabs (g t)) 0 0 <-> is_derive g 0 0.
Proof.
  intros Z. rewrite !is_derive_Reals. unfold derivable_pt_lim. rewrite Z, Rabs_R0. split; intros H eps E; destruct (H eps E) as [d D]; exists d; intros h H0 H1;
    specialize (D h H0 H1); rewrite !Rplus_0_l in *; rewrite !Rminus_0_r in *; rewrite !Rabs_div in *; try assumption; rewrite ?Rabs_Rabsolu in *; exact D.
Qed.
(** A smaller one has, too. *)
Lemma derive_below (f g : R -> R) : g 0 = 0 -> (forall t, Rabs (f t) <= g t) -> is_derive g 0 0 -> is_derive f 0 0.
Proof.
  intros Z L D. assert (F0 : f 0 = 0).
  { assert (X := L 0). rewrite Z in X. assert (Y := Rabs_pos (f 0)). destruct (Req_dec (f 0) 0) as [E|E]; [exact E|]. assert (V := Rabs_pos_lt _ E). lra. }
  revert D. rewrite !is_derive_Reals. unfold derivable_pt_lim. rewrite Z, F0. intros H eps E. destruct (H eps E) as [d D]. exists d. intros h H0 H1.
  specialize (D h H0 H1). rewrite !Rplus_0_l in *. rewrite !Rminus_0_r in *. rewrite !Rabs_div in * by assumption.
  eapply Rle_lt_trans; [|exact D]. apply Rmult_le_compat_r; [left; apply Rinv_0_lt_compat, Rabs_pos_lt; assumption|].
  assert (Q := L h). assert (V := Rle_abs (g h)). lra.
Qed.
(** A vector that vanishes at 0: its length has the derivative 0 there exactly if its components have. *)
Lemma derive_vlen (g : R -> vec3) : g 0 = V3 0 0 0 ->
  is_derive (fun t => vlen (g t)) 0 0 <-> is_derive (fun t => vx (g t)) 0 0 /\ is_derive (fun t => vy (g t)) 0 0 /\ is_derive (fun t => vz (g t)) 0 0.
Proof.
  intros Z. assert (X : vx (g 0) = 0) by (rewrite Z; reflexivity). assert (Y : vy (g 0) = 0) by (rewrite Z; reflexivity). assert (W : vz (g 0) = 0) by (rewrite Z; reflexivity).
  assert (V0 : vlen (g 0) = 0) by (rewrite Z; unfold vlen; replace (norm2 (V3 0 0 0)) with 0 by (vec_unfold; ring); apply sqrt_0).
  assert (B : forall v, vlen v * vlen v = vx v * vx v + vy v * vy v + vz v * vz v) by (intros v; unfold vlen; rewrite sqrt_def by apply norm2_nonneg; vec_unfold; ring).
  assert (P : forall v, 0 <= vlen v) by (intros v; apply sqrt_pos).
  assert (S : forall a b, 0 <= b -> a * a <= b * b -> Rabs a <= b).
  { intros a b Hb H. rewrite <- (Rabs_right b) by lra. apply Rsqr_le_abs_0. exact H. }
  split.
  - intros D. split; [apply (derive_below (fun t => vx (g t)) (fun t => vlen (g t)) V0)
      |split; [apply (derive_below (fun t => vy (g t)) (fun t => vlen (g t)) V0) | apply (derive_below (fun t => vz (g t)) (fun t => vlen (g t)) V0)]];
      try exact D; intros t; apply S; try apply P; rewrite B.
    + assert (0 <= vy (g t) * vy (g t)) by nra. assert (0 <= vz (g t) * vz (g t)) by nra. lra.
    + assert (0 <= vx (g t) * vx (g t)) by nra. assert (0 <= vz (g t) * vz (g t)) by nra. lra.
    + assert (0 <= vx (g t) * vx (g t)) by nra. assert (0 <= vy (g t) * vy (g t)) by nra. lra.
  - intros (D1 & D2 & D3). apply (derive_abs (fun t => vx (g t)) X) in D1. apply (derive_abs (fun t => vy (g t)) Y) in D2. apply (derive_abs (fun t => vz (g t)) W) in D3.
    apply (derive_below _ (fun t => Rabs (vx (g t)) + Rabs (vy (g t)) + Rabs (vz (g t)))).
    + cbv beta. rewrite X, Y, W, Rabs_R0. ring.
    + intros t. assert (A1 := Rabs_pos (vx (g t))). assert (A2 := Rabs_pos (vy (g t))). assert (A3 := Rabs_pos (vz (g t))).
      rewrite (Rabs_right (vlen (g t))) by (apply Rle_ge; apply P).
      assert (Q : forall a, a * a = Rabs a * Rabs a) by (intros a; rewrite <- Rabs_mult; symmetry; apply Rabs_right; nra).
      assert (BB := B (g t)). rewrite (Q (vx (g t))), (Q (vy (g t))), (Q (vz (g t))) in BB. revert BB A1 A2 A3.
      generalize (Rabs (vx (g t))) (Rabs (vy (g t))) (Rabs (vz (g t))). intros a b c BB A1 A2 A3.
      apply Rsqr_incr_0; [|apply P|lra]. unfold Rsqr. rewrite BB.
      assert (0 <= a * b) by (apply Rmult_le_pos; assumption). assert (0 <= a * c) by (apply Rmult_le_pos; assumption). assert (0 <= b * c) by (apply Rmult_le_pos; assumption). lra.
    + assert (E : der (fun t => Rabs (vx (g t)) + Rabs (vy (g t)) + Rabs (vz (g t))) 0 0); [|exact (proj2 E)].
      assert (R1 : der (fun t => Rabs (vx (g t))) 0 0) by (split; [rewrite X; apply Rabs_R0 | exact D1]).
      assert (R2 : der (fun t => Rabs (vy (g t))) 0 0) by (split; [rewrite Y; apply Rabs_R0 | exact D2]).
      assert (R3 : der (fun t => Rabs (vz (g t))) 0 0) by (split; [rewrite W; apply Rabs_R0 | exact D3]).
      eapply der_value; [dv | ring | ring].
Qed.

(** The derivative of a unit vector is at right angles to it. *)
Lemma unit_derive (f g h : R -> R) a b c u v w : der f a u -> der g b v -> der h c w -> locally 0 (fun t => f t * f t + g t * g t + h t * h t = 1) ->
  a * u + b * v + c * w = 0.
Proof.
  intros F G H L. assert (D : der (fun t => f t * f t + g t * g t + h t * h t) (a * a + b * b + c * c) (u * a + a * u + (v * b + b * v) + (w * c + c * w))) by dv.
  destruct D as [_ D]. assert (D0 : is_derive (fun t => f t * f t + g t * g t + h t * h t) 0 0).
  { apply (is_derive_ext_loc (fun _ => 1)); [revert L; apply filter_imp; intros t ->; reflexivity|]. apply (is_derive_const 1 0). }
  assert (U := is_derive_unique _ _ _ D). assert (U0 := is_derive_unique _ _ _ D0).
  assert (E : u * a + a * u + (v * b + b * v) + (w * c + c * w) = 0) by exact (eq_trans (eq_sym U) U0). lra.
Qed.

(** What a grating of the model does where it has a normal. *)
Lemma ruled_out solver s k c ray x d n w q u g : sf_transformation s = None -> sf_sag s = make_sag solver k None -> reflects s ->
  sf_rulings s = Some g -> rul_spacing g q u = Some (V3 c 0 0) -> c <> 0 -> n <> 0 ->
  r_position ray = Some x -> r_direction ray = Some d -> r_index ray = n -> r_wavelength ray = w ->
  class_intercept solver k x d = Some q -> class_normal k q = Some u ->
  r_position (surface_propagate s ray) = Some q /\
  r_direction (surface_propagate s ray) = snells_law (vadd d (V3 (rsign (dot d u) * (rul_order g * w / (n * c))) 0 0)) n n true u.
Proof.
  intros TR SG [MM MI] RU SP C0 N0 P Q I W IT NO. unfold surface_propagate. rewrite TR. cbn [apply_transformation apply_inverse].
  unfold surface_local, surface_incident. rewrite RU. cbv zeta.
  assert (P1 : r_position (sag_propagate (sf_sag s) ray) = Some q).
  { unfold sag_propagate. cbn [set_intensity set_position r_position]. rewrite P, Q. cbn [obind]. rewrite SG. destruct k; exact IT. }
  assert (NN : surface_normal s (sag_propagate (sf_sag s) ray) = Some u).
  { unfold surface_normal. rewrite P1. cbn [obind]. rewrite SG. exact NO. }
  assert (LC : vlen (V3 c 0 0) = Rabs c).
  { unfold vlen. replace (norm2 (V3 c 0 0)) with (Rsqr c) by (unfold Rsqr; vec_unfold; ring). apply sqrt_Rsqr_abs. }
  assert (C1 : Rabs c <> 0) by (apply Rabs_no_R0; exact C0).
  assert (C2 : Rabs c * Rabs c = c * c) by (rewrite <- Rabs_mult; apply Rabs_right; nra).
  assert (E : r_direction (rulings_effective g (sag_propagate (sf_sag s) ray) (Some u)) =
    Some (vadd d (V3 (rsign (dot d u) * (rul_order g * w / (n * c))) 0 0))).
  { unfold rulings_effective. cbn [r_direction set_direction]. rewrite P1. cbn [obind].
    change (r_direction (sag_propagate (sf_sag s) ray)) with (r_direction ray). rewrite Q. cbn [obind]. rewrite SP. cbn [obind].
    rewrite LC, odiv_nz by exact C1. cbn [obind]. unfold incident_effective.
    change (r_index (sag_propagate (sf_sag s) ray)) with (r_index ray). change (r_wavelength (sag_propagate (sf_sag s) ray)) with (r_wavelength ray).
    rewrite I, W, odiv_nz by (apply Rmult_integral_contrapositive; split; assumption). cbn [obind]. f_equal. set (l := Rabs c) in *. clearbody l.
    apply vec_eq; cbn [vx vy vz vadd vscale]; try ring. f_equal.
    transitivity (rsign (dot d u) * (rul_order g * w / n * (c / (l * l)))); [field; split; assumption|]. rewrite C2. field. split; assumption. }
  rewrite NN. set (r1 := rulings_effective g (sag_propagate (sf_sag s) ray) (Some u)) in *.
  assert (I1 : r_index r1 = n) by (unfold r1; exact I). assert (P2 : r_position r1 = Some q) by (unfold r1; exact P1).
  assert (N2 : surface_normal s r1 = Some u) by (unfold surface_normal; rewrite P2; cbn [obind]; rewrite SG; exact NO).
  rewrite N2, E, P2, MI, I1, MM. cbn [obind].
  destruct (sf_aperture s) as [ap|]; [unfold clip_rays, set_unvignetted|]; cbn [r_position r_direction]; auto.
Qed.

(** The source and its image as multiples of the directions. *)
Lemma rowland_multiple r k d : is_unit d -> vy d = 0 -> rowland r (vscale k d) <-> k <> 0 /\ k = r * vz d.
Proof.
  intros U Y. destruct d as [x y z]. cbn in Y. subst y. unfold is_unit in U. vec_unfold. unfold rowland; cbn [vx vy vz vscale]. split.
  - intros (_ & C & N). assert (K : k <> 0).
    { intros ->. apply N. apply vec_eq; cbn; ring. }
    split; [exact K|]. apply (Rmult_eq_reg_l k); [|exact K].
    transitivity (k * k * (x * x + 0 * 0 + z * z)); [rewrite U; ring|]. lra.
  - intros (K & E). split; [ring|]. split.
    + assert (E2 : k * k = k * (r * z)) by (rewrite <- E; reflexivity). assert (E3 : k * k * (x * x + 0 * 0 + z * z) = k * k) by (rewrite U; ring). lra.
    + intros Z. injection Z as Z1 Z2 Z3. apply K. apply Rmult_integral in Z1, Z3. destruct Z1 as [|X]; [assumption|]. destruct Z3 as [|Z]; [assumption|].
      rewrite X, Z in U. lra.
Qed.

(** The rays near the chief ray: the cross product of the way to a point at the distance [k] on the diffracted chief ray. *)
Lemma focal_core solver s kl cx cy P P1 n w rho a f d d' b0 len u : ruled_surface solver s kl P -> P 0 <> 0 -> is_derive P 0 P1 -> 0 < n -> pencil f a n w d d' ->
  rho <> 0 -> a = vscale (- rho) (d 0) -> vz (d 0) <> 0 -> r_direction (surface_propagate s (f 0)) = Some b0 -> vz b0 <> 0 ->
  let x t := vadd a (vscale (len t) (d t)) in
  der len rho (- rho * vz d' / vz (d 0)) -> locally 0 (fun t => class_intercept solver kl a (d t) = Some (x t)) ->
  der (fun t => vx (u t)) 0 (cx * (rho * (vx d' - vz d' * vx (d 0) / vz (d 0)))) -> der (fun t => vy (u t)) 0 (cy * (rho * vy d')) -> der (fun t => vz (u t)) (-1) 0 ->
  locally 0 (fun t => class_normal kl (x t) = Some (u t)) -> locally 0 (fun t => is_unit (u t)) ->
  vx (d 0) * vx d' + vz (d 0) * vz d' = 0 /\ is_unit (d 0) /\ is_unit b0 /\ vy b0 = 0 /\
  exists b, leaves s f x b /\ x 0 = V3 0 0 0 /\ forall k,
    let g t := cross (vsub (vscale k b0) (x t)) (b t) in
    let sagittal := rho * vy d' * (1 + k * (1 / rho + (vz (d 0) - vz b0) * cy)) in
    der (fun t => vx (g t)) 0 (- vz b0 * sagittal) /\ der (fun t => vz (g t)) 0 (vx b0 * sagittal) /\
    der (fun t => vy (g t)) 0
      (rho * (vx d' - vz d' * vx (d 0) / vz (d 0)) * (vz b0 - k / vz b0 *
        (vz b0 * cx - vz (d 0) * cx - vz (d 0) * vz (d 0) / rho + (vx b0 - vx (d 0)) * P1 / P 0))).
Proof.
  intros (TR & SG & RE & g & RU & SP) C0 CP N0 [PE (Y0 & _ & DX & DY & DZ)] L0 A0 Z0 HB BZ x LN INT UX UY UZ NRM UNI.
  destruct (locally_singleton _ _ PE) as (P0 & Q0 & I0 & W0 & U0).
  set (dx0 := vx (d 0)) in *. set (dz0 := vz (d 0)) in *. set (dx1 := vx d') in *. set (dy1 := vy d') in *. set (dz1 := vz d') in *.
  assert (DDX : der (fun t => vx (d t)) dx0 dx1) by (split; [reflexivity | exact DX]).
  assert (DDY : der (fun t => vy (d t)) 0 dy1) by (split; [exact Y0 | exact DY]).
  assert (DDZ : der (fun t => vz (d t)) dz0 dz1) by (split; [reflexivity | exact DZ]).
  assert (UU : dx0 * dx0 + dz0 * dz0 = 1).
  { unfold is_unit, norm2, dot in U0. rewrite Y0 in U0. fold dx0 dz0 in U0. lra. }
  assert (UD : dx0 * dx1 + dz0 * dz1 = 0).
  { assert (X : dx0 * dx1 + 0 * dy1 + dz0 * dz1 = 0); [|lra]. apply (unit_derive _ _ _ _ _ _ _ _ _ DDX DDY DDZ).
    revert PE. apply filter_imp. intros t (_ & _ & _ & _ & U). exact U. }
  (* the intercept *)
  set (ax := vx a) in *. set (az := vz a) in *. assert (AX : ax = - rho * dx0) by (unfold ax; rewrite A0; reflexivity).
  assert (AZ : az = - rho * dz0) by (unfold az; rewrite A0; reflexivity). assert (AY : vy a = 0) by (rewrite A0; cbn [vy vscale]; rewrite Y0; ring).
  set (xi := rho * (dx1 - dz1 * dx0 / dz0)).
  assert (XX : der (fun t => vx (x t)) 0 xi).
  { eapply der_value; [unfold x; cbn [vx vadd vscale]; fold ax; dv| |]; [rewrite AX; ring|]. unfold xi. field. exact Z0. }
  assert (XY : der (fun t => vy (x t)) 0 (rho * dy1)) by (eapply der_value; [unfold x; cbn [vy vadd vscale]; rewrite AY; dv| |]; ring).
  assert (XZ : der (fun t => vz (x t)) 0 0).
  { eapply der_value; [unfold x; cbn [vz vadd vscale]; fold az; dv| |]; [rewrite AZ; ring|]. field. exact Z0. }
  fold dx0 dz0 dx1 dy1 dz1 in LN, UX, UY. fold xi in UX.
  (* the direction that the grooves add *)
  assert (N1 : n <> 0) by lra.
  assert (PX : der (fun t => P (vx (x t))) (P 0) (xi * P1)).
  { split; [rewrite (proj1 XX); reflexivity|]. apply (is_derive_comp P (fun t => vx (x t)) 0 P1 xi); [rewrite (proj1 XX); exact CP | exact (proj2 XX)]. }
  set (K := fun t => rsign (- dz0) * (rul_order g * w / (n * P (vx (x t))))).
  set (K0 := rsign (- dz0) * (rul_order g * w / (n * P 0))).
  assert (KK : der K K0 (- K0 * xi * P1 / P 0)).
  { eapply der_value; [unfold K; apply der_mult; [apply der_const|apply der_div; [apply der_const | apply (der_mult (fun _ => n)); [apply der_const | exact PX] |]]| |].
    - apply Rmult_integral_contrapositive. split; assumption.
    - reflexivity.
    - unfold K0. field. split; assumption. }
  assert (XD : dx1 = xi * (dz0 * dz0) / rho).
  { unfold xi. transitivity (dx1 * (dx0 * dx0 + dz0 * dz0) - dx0 * (dx0 * dx1 + dz0 * dz1)); [rewrite UU, UD; ring|field; split; assumption]. }
  set (e := fun t => V3 (vx (d t) + K t) (vy (d t)) (vz (d t))).
  set (E := fun t => (vx (d t) + K t) * vx (u t) + vy (d t) * vy (u t) + vz (d t) * vz (u t)).
  set (E1 := (dx0 + K0) * (cx * xi) - dz1).
  assert (EE : der E (- dz0) E1) by (eapply der_value; [unfold E; dv | ring | unfold E1; ring]).
  assert (DU : cont (fun t => dot (d t) (u t)) (- dz0)).
  { assert (X : der (fun t => dot (d t) (u t)) (- dz0) (- dz1 + dx0 * (cx * xi))) by (eapply der_value; [unfold dot; dv | ring | ring]).
    exact (der_cont _ _ _ X). }
  assert (NZ : - dz0 <> 0) by lra.
  assert (OUT : locally 0 (fun t => r_position (surface_propagate s (f t)) = Some (x t) /\
    r_direction (surface_propagate s (f t)) = snells_law (e t) n n true (u t))).
  { generalize (filter_and _ _ PE (filter_and _ _ INT (filter_and _ _ NRM (filter_and _ _ (sign_around _ _ DU NZ) (cont_nz _ _ (der_cont _ _ _ PX) C0))))). apply filter_imp.
    intros t ((Po & Q & I & W & U) & IT & NO & SI & CN).
    destruct (ruled_out solver s kl _ (f t) a (d t) n w (x t) (u t) g TR SG RE RU (SP _ _) CN N1 Po Q I W IT NO) as [O1 O2]. split; [exact O1|]. rewrite O2, SI. fold (K t).
    replace (vadd (d t) (V3 (K t) 0 0)) with (e t); [reflexivity|]. unfold e. apply vec_eq; cbn [vx vy vz vadd]; ring. }
  (* the diffracted chief ray *)
  destruct (locally_singleton _ _ OUT) as [_ SN]. rewrite HB in SN. symmetry in SN.
  assert (UN0 := locally_singleton _ _ UNI). assert (UB := snells_law_unit _ _ _ _ _ _ UN0 SN).
  destruct (snell_kick _ _ _ _ _ _ UN0 SN) as [j J].
  assert (BX : vx b0 = dx0 + K0).
  { apply (f_equal vx) in J. cbn [vx vy vz vadd vscale] in J. rewrite (proj1 UX) in J. unfold e in J. cbn [vx] in J. fold dx0 in J. rewrite (proj1 KK) in J.
    apply (Rmult_eq_reg_l n); [lra | exact N1]. }
  assert (BY : vy b0 = 0).
  { apply (f_equal vy) in J. cbn [vx vy vz vadd vscale] in J. rewrite (proj1 UY) in J. unfold e in J. cbn [vy] in J. rewrite Y0 in J. apply (Rmult_eq_reg_l n); [lra | exact N1]. }
  assert (BU : vx b0 * vx b0 + vz b0 * vz b0 = 1) by (unfold is_unit, norm2, dot in UB; rewrite BY in UB; lra).
  assert (GP : 0 < 1 - (dx0 + K0) * (dx0 + K0)) by (rewrite <- BX; assert (0 < vz b0 * vz b0) by nra; lra).
  set (h := fun t => 1 - ((vx (d t) + K t) * (vx (d t) + K t) + vy (d t) * vy (d t) + vz (d t) * vz (d t)) + E t * E t).
  assert (HH : exists h1, der h (1 - (dx0 + K0) * (dx0 + K0)) h1).
  { eexists. eapply der_value; [unfold h; dv | ring | reflexivity]. }
  destruct HH as [h1 HH].
  set (H := fun t => - rsign (- dz0) * sqrt (h t)).
  set (H0 := - rsign (- dz0) * sqrt (1 - (dx0 + K0) * (dx0 + K0))).
  assert (DH : exists H1, der H H0 H1).
  { eexists. eapply der_value; [unfold H; apply der_mult; [apply der_const | apply der_sqrt; [exact HH | exact GP]]| reflexivity | reflexivity]. }
  destruct DH as [H1 DH].
  set (b := fun t => V3 (vx (d t) + K t + (H t - E t) * vx (u t)) (vy (d t) + (H t - E t) * vy (u t)) (vz (d t) + (H t - E t) * vz (u t))).
  assert (SS : rsign (- dz0) * rsign (- dz0) = 1) by (destruct (sense_sign _ NZ) as [-> | ->]; ring).
  assert (LB : locally 0 (fun t => is_unit (b t) /\ snells_law (e t) n n true (u t) = Some (b t))).
  { generalize (filter_and _ _ (filter_and _ _ UNI (cont_pos _ _ (der_cont _ _ _ HH) GP)) (filter_and _ _ (sign_around _ _ (der_cont _ _ _ EE) NZ) (cont_nz _ _ (der_cont _ _ _ EE) NZ))).
    apply filter_imp. intros t ((UT & HP) & SI & EZ).
    assert (HSQ : H t * H t = h t).
    { unfold H. transitivity (rsign (- dz0) * rsign (- dz0) * (sqrt (h t) * sqrt (h t))); [ring|]. rewrite SS, sqrt_def by lra. ring. }
    assert (UT2 : vx (u t) * vx (u t) + vy (u t) * vy (u t) + vz (u t) * vz (u t) = 1) by exact UT.
    assert (BE : b t = vadd (e t) (vscale (H t - E t) (u t))) by reflexivity.
    assert (DE : dot (e t) (u t) = E t) by reflexivity.
    assert (BDU : dot (b t) (u t) = H t).
    { rewrite BE, dot_add_l, dot_scale_l, DE. transitivity (E t + (H t - E t) * norm2 (u t)); [reflexivity|]. rewrite UT. ring. }
    assert (BUT : is_unit (b t)).
    { unfold is_unit, norm2. transitivity (dot (e t) (e t) + 2 * (H t - E t) * dot (e t) (u t) + (H t - E t) * (H t - E t) * norm2 (u t)).
      - rewrite BE. unfold norm2. generalize (e t) (u t) (H t - E t). intros p q m. unfold dot, vadd, vscale; cbn [vx vy vz]. ring.
      - rewrite UT, DE. transitivity (dot (e t) (e t) + H t * H t - E t * E t); [ring|]. rewrite HSQ. unfold h, dot, e. cbn [vx vy vz]. ring. }
    split; [exact BUT|]. apply snells_law_complete; try assumption.
    - f_equal. unfold tangential. rewrite BDU, DE, BE. generalize (e t) (u t) (H t) (E t). intros p q m m'. apply vec_eq; cbn [vx vy vz vsub vadd vscale]; ring.
    - cbv iota. rewrite BDU, DE. unfold H. rewrite <- SI. assert (Q := sqrt_pos (h t)). assert (S := rsign_abs (E t)).
      set (y := E t) in *. assert (A := Rabs_pos y). assert (M := Rmult_le_pos _ _ A Q). rewrite <- S in M. lra. }
  assert (B0 : b 0 = b0).
  { assert (X := proj2 (locally_singleton _ _ LB)). rewrite SN in X. injection X as X. auto. }
  assert (BZ0 : vz b0 = - H0).
  { rewrite <- B0. unfold b; cbn [vz]. rewrite (proj1 DH), (proj1 EE), (proj1 UZ). fold dz0. ring. }
  set (q := (dz0 - vz b0) * cx). set (qy := (dz0 - vz b0) * cy).
  assert (BXD : der (fun t => vx (b t)) (vx b0) (dx1 - (vx b0 - dx0) * xi * P1 / P 0 + xi * q)).
  { eapply der_value; [unfold b; cbn [vx]; dv | rewrite BX; ring | replace K0 with (vx b0 - dx0) by lra; unfold q; rewrite BZ0; unfold Rdiv; ring]. }
  assert (BYD : der (fun t => vy (b t)) 0 (dy1 + rho * dy1 * qy)).
  { eapply der_value; [unfold b; cbn [vy]; dv | ring | unfold qy; rewrite BZ0; unfold Rdiv; ring]. }
  assert (BZD : exists z1, der (fun t => vz (b t)) (vz b0) z1).
  { eexists. eapply der_value; [unfold b; cbn [vz]; dv | rewrite BZ0; ring | reflexivity]. }
  destruct BZD as [z1 BZD].
  assert (BD : vx b0 * (dx1 - (vx b0 - dx0) * xi * P1 / P 0 + xi * q) + vz b0 * z1 = 0).
  { set (v := dx1 - (vx b0 - dx0) * xi * P1 / P 0 + xi * q) in *. assert (X : vx b0 * v + 0 * (dy1 + rho * dy1 * qy) + vz b0 * z1 = 0); [|lra].
    apply (unit_derive _ _ _ _ _ _ _ _ _ BXD BYD BZD). revert LB. apply filter_imp. intros t (U & _). exact U. }
  repeat split; try assumption. exists b. split; [|split].
  - unfold leaves. generalize (filter_and _ _ OUT LB). apply filter_imp. intros t ((O1 & O2) & UBT & SB). rewrite O2. auto.
  - apply vec_eq; cbn [vx vy vz]; [exact (proj1 XX) | exact (proj1 XY) | exact (proj1 XZ)].
  - intros k. cbv zeta. cbn [cross vsub vscale vx vy vz]. fold qy.
    split; [|split].
    + eapply der_value; [dv | rewrite BY; ring | rewrite BY; field; repeat split; assumption].
    + eapply der_value; [dv | rewrite BY; ring | rewrite BY; field; repeat split; assumption].
    + eapply der_value; [dv | ring|]. fold xi. set (v := dx1 - (vx b0 - dx0) * xi * P1 / P 0 + xi * q) in *.
      assert (ZZ : z1 = - (vx b0 * v) / vz b0) by (apply (Rmult_eq_reg_l (vz b0)); [|exact BZ]; transitivity (- (vx b0 * v)); [lra | field; exact BZ]).
      rewrite ZZ. transitivity (xi * vz b0 + k / vz b0 * v * (vx b0 * vx b0 + vz b0 * vz b0)); [field; exact BZ|]. rewrite BU. unfold v, q. rewrite XD at 1.
      field. repeat split; assumption.
Qed.


(** What a shape does with a family of oblique rays through its vertex. *)
Definition oblique (intercept : vec3 -> vec3 -> option vec3) (some : R -> Prop) : Prop := forall rho a d d', some (vx (d 0)) -> rho <> 0 -> a = vscale (- rho) (d 0) -> vy (d 0) = 0 -> vz (d 0) <> 0 ->
  moves d (d 0) d' -> locally 0 (fun t => is_unit (d t)) ->
  exists len, der len rho (- rho * vz d' / vz (d 0)) /\ locally 0 (fun t => intercept a (d t) = Some (vadd a (vscale (len t) (d t)))).
Definition turns (normal : vec3 -> option vec3) (cx cy : R) : Prop := forall x hx hy, der (fun t => vx (x t)) 0 hx -> der (fun t => vy (x t)) 0 hy ->
  exists u, der (fun t => vx (u t)) 0 (cx * hx) /\ der (fun t => vy (u t)) 0 (cy * hy) /\ der (fun t => vz (u t)) (-1) 0 /\
    locally 0 (fun t => normal (x t) = Some (u t)) /\ locally 0 (fun t => is_unit (u t)).

(** The sphere. *)
Lemma sphere_oblique r : r <> 0 -> oblique (sphere_intercept r) (fun _ => True).
Proof.
  intros R0 rho a d d' _ L0 A0 Y0 Z0 (_ & DX & DY & DZ) UN. assert (U0 := locally_singleton _ _ UN).
  set (dx0 := vx (d 0)) in *. set (dz0 := vz (d 0)) in *. set (dx1 := vx d') in *. set (dy1 := vy d') in *. set (dz1 := vz d') in *.
  assert (DDX : der (fun t => vx (d t)) dx0 dx1) by (split; [reflexivity | exact DX]).
  assert (DDY : der (fun t => vy (d t)) 0 dy1) by (split; [exact Y0 | exact DY]).
  assert (DDZ : der (fun t => vz (d t)) dz0 dz1) by (split; [reflexivity | exact DZ]).
  assert (UU : dx0 * dx0 + dz0 * dz0 = 1).
  { unfold is_unit, norm2, dot in U0. rewrite Y0 in U0. fold dx0 dz0 in U0. lra. }
  assert (UD : dx0 * dx1 + dz0 * dz1 = 0).
  { assert (X : dx0 * dx1 + 0 * dy1 + dz0 * dz1 = 0); [|lra]. exact (unit_derive _ _ _ _ _ _ _ _ _ DDX DDY DDZ UN). }
  set (ax := vx a) in *. set (az := vz a) in *. assert (AX : ax = - rho * dx0) by (unfold ax; rewrite A0; reflexivity).
  assert (AZ : az = - rho * dz0) by (unfold az; rewrite A0; reflexivity). assert (AY : vy a = 0) by (rewrite A0; cbn [vy vscale]; rewrite Y0; ring).
  set (up := fun t => vx (d t) * ax + vz (d t) * (az - r)).
  assert (UP : der up (- rho - r * dz0) (- (r * dz1))).
  { eapply der_value; [unfold up; dv| |].
    - rewrite AX, AZ. transitivity (- rho * (dx0 * dx0 + dz0 * dz0) - r * dz0); [ring|rewrite UU; ring].
    - rewrite AX, AZ. transitivity (- rho * (dx0 * dx1 + dz0 * dz1) - r * dz1); [ring|rewrite UD; ring]. }
  assert (RZ : r * dz0 <> 0) by (apply Rmult_integral_contrapositive; split; assumption).
  set (disc := fun t => up t * up t - (ax * ax + (az - r) * (az - r) - r * r)).
  assert (DI : der disc (r * dz0 * (r * dz0)) (2 * (rho + r * dz0) * (r * dz1))).
  { eapply der_value; [unfold disc; dv| |ring]. rewrite AX, AZ.
    transitivity (rho * rho * (1 - (dx0 * dx0 + dz0 * dz0)) + r * dz0 * (r * dz0)); [ring|rewrite UU; ring]. }
  assert (LL : 0 < r * dz0 * (r * dz0)) by nra.
  assert (SQ0 : sqrt (r * dz0 * (r * dz0)) = Rabs (r * dz0)) by apply sqrt_Rsqr_abs.
  set (len := fun t => - up t - rsign (r * dz0) * sqrt (disc t)).
  assert (LN : der len rho (- rho * dz1 / dz0)).
  { eapply der_value; [unfold len; apply der_minus; [apply der_opp; exact UP | apply der_mult; [apply der_const | apply der_sqrt; [exact DI | exact LL]]]| |]; rewrite SQ0.
    - rewrite sign_abs. ring.
    - rewrite <- (rsign_abs (r * dz0)). destruct (sense_sign _ RZ) as [-> | ->]; field; auto. }
  exists len. split; [exact LN|].
  assert (RC : cont (fun t => r * vz (d t)) (r * dz0)) by (apply cont_mult; [apply cont_const | exact (der_cont _ _ _ DDZ)]).
  generalize (filter_and _ _ (cont_pos _ _ (der_cont _ _ _ DI) LL) (sign_around _ _ RC RZ)).
  apply filter_imp. intros t (PP & Q). unfold sphere_intercept. cbn [vx vy vz]. fold ax az. rewrite AY.
  replace (vx (d t) * ax + vy (d t) * 0 + vz (d t) * (az - r)) with (up t) by (unfold up; ring).
  replace (up t * up t - (ax * ax + 0 * 0 + (az - r) * (az - r) - r * r)) with (disc t) by (unfold disc; ring).
  rewrite osqrt_nonneg by lra. cbn [obind]. rewrite Q. fold (len t). reflexivity.
Qed.
Lemma sphere_turns r : r <> 0 -> turns (sphere_normal r) (1 / r) (1 / r).
Proof.
  intros R0 x hx hy XX XY.
  set (ww := fun t => 1 - 1 / r * vx (x t) * (1 / r * vx (x t)) - 1 / r * vy (x t) * (1 / r * vy (x t))).
  assert (WW : der ww 1 0) by (eapply der_value; [unfold ww; dv | ring | ring]).
  set (u := fun t => V3 (1 / r * vx (x t)) (1 / r * vy (x t)) (- sqrt (ww t))). exists u.
  split; [eapply der_value; [unfold u; cbn [vx]; dv | ring | ring]|]. split; [eapply der_value; [unfold u; cbn [vy]; dv | ring | ring]|].
  split; [eapply der_value; [unfold u; cbn [vz]; apply der_opp, der_sqrt; [exact WW | lra] | rewrite sqrt_1; ring | unfold Rdiv; ring]|].
  split; generalize (cont_pos _ _ (der_cont _ _ _ WW) ltac:(lra)); apply filter_imp; intros t PP.
  - unfold sphere_normal. rewrite odiv_nz by exact R0. cbn [obind]. cbv zeta. fold (ww t). rewrite osqrt_nonneg by lra. reflexivity.
  - unfold is_unit, norm2, dot, u. cbn [vx vy vz].
    replace (- sqrt (ww t) * - sqrt (ww t)) with (sqrt (ww t) * sqrt (ww t)) by ring. rewrite sqrt_def by lra. unfold ww. ring.
Qed.
(** The cylinder. *)
Lemma cylinder_oblique r : r <> 0 -> oblique (cylinder_intercept r) (fun _ => True).
Proof.
  intros R0 rho a d d' _ L0 A0 Y0 Z0 (_ & DX & DY & DZ) UN. assert (U0 := locally_singleton _ _ UN).
  set (dx0 := vx (d 0)) in *. set (dz0 := vz (d 0)) in *. set (dx1 := vx d') in *. set (dy1 := vy d') in *. set (dz1 := vz d') in *.
  assert (DDX : der (fun t => vx (d t)) dx0 dx1) by (split; [reflexivity | exact DX]).
  assert (DDY : der (fun t => vy (d t)) 0 dy1) by (split; [exact Y0 | exact DY]).
  assert (DDZ : der (fun t => vz (d t)) dz0 dz1) by (split; [reflexivity | exact DZ]).
  assert (UU : dx0 * dx0 + dz0 * dz0 = 1).
  { unfold is_unit, norm2, dot in U0. rewrite Y0 in U0. fold dx0 dz0 in U0. lra. }
  assert (UD : dx0 * dx1 + dz0 * dz1 = 0).
  { assert (X : dx0 * dx1 + 0 * dy1 + dz0 * dz1 = 0); [|lra]. exact (unit_derive _ _ _ _ _ _ _ _ _ DDX DDY DDZ UN). }
  set (ax := vx a) in *. set (az := vz a) in *. assert (AX : ax = - rho * dx0) by (unfold ax; rewrite A0; reflexivity).
  assert (AZ : az = - rho * dz0) by (unfold az; rewrite A0; reflexivity).
  assert (RZ : r * dz0 <> 0) by (apply Rmult_integral_contrapositive; split; assumption).
  set (na2 := fun t => vx (d t) * vx (d t) + vz (d t) * vz (d t)).
  assert (N2 : der na2 1 0) by (eapply der_value; [unfold na2; dv | exact UU | lra]).
  set (nb := fun t => vz (d t) * (r - az) - vx (d t) * ax).
  assert (NB : der nb (rho + r * dz0) (r * dz1)).
  { eapply der_value; [unfold nb; dv| |]; rewrite AX, AZ.
    - transitivity (rho * (dx0 * dx0 + dz0 * dz0) + r * dz0); [ring | rewrite UU; ring].
    - transitivity (rho * (dx0 * dx1 + dz0 * dz1) + r * dz1); [ring | rewrite UD; ring]. }
  set (bn := fun t => vz (d t) * ax + vx (d t) * (r - az)).
  assert (BN : der bn (r * dx0) (r * dx1 + rho * (dz0 * dx1 - dx0 * dz1))) by (eapply der_value; [unfold bn; dv | rewrite AX, AZ; ring | rewrite AX, AZ; ring]).
  set (disc := fun t => na2 t * (r * r) - bn t * bn t).
  assert (DI : der disc (r * dz0 * (r * dz0)) (- 2 * (r * dx0) * (r * dx1 + rho * (dz0 * dx1 - dx0 * dz1)))).
  { eapply der_value; [unfold disc; apply der_minus; [apply der_mult; [exact N2 | apply der_const] | apply der_mult; exact BN] | |ring].
    transitivity (r * r * (1 - dx0 * dx0)); [ring|]. rewrite <- UU. ring. }
  assert (LL : 0 < r * dz0 * (r * dz0)) by nra.
  assert (SQ0 : sqrt (r * dz0 * (r * dz0)) = Rabs (r * dz0)) by apply sqrt_Rsqr_abs.
  set (len := fun t => (nb t - rsign (r * dz0) * sqrt (disc t)) / na2 t).
  assert (LN : der len rho (- rho * dz1 / dz0)).
  { eapply der_value; [unfold len; apply der_div; [apply der_minus; [exact NB | apply der_mult; [apply der_const | apply der_sqrt; [exact DI | exact LL]]] | exact N2 | lra]| |]; rewrite SQ0.
    - rewrite sign_abs. field.
    - transitivity (r * dz1 + dx0 / dz0 * (r * dx1 + rho * (dz0 * dx1 - dx0 * dz1))).
      + rewrite <- (rsign_abs (r * dz0)). destruct (sense_sign _ RZ) as [-> | ->]; field; auto.
      + transitivity ((r + rho * dz0) / dz0 * (dx0 * dx1 + dz0 * dz1) - rho * dz1 * (dx0 * dx0 + dz0 * dz0) / dz0); [field; exact Z0 | rewrite UU, UD; field; exact Z0]. }
  exists len. split; [exact LN|].
  assert (RC : cont (fun t => r * vz (d t)) (r * dz0)) by (apply cont_mult; [apply cont_const | exact (der_cont _ _ _ DDZ)]).
  generalize (filter_and _ _ (filter_and _ _ (cont_pos _ _ (der_cont _ _ _ DI) LL) (cont_pos _ _ (der_cont _ _ _ N2) Rlt_0_1)) (sign_around _ _ RC RZ)).
  apply filter_imp. intros t ((PP & PN) & Q). unfold cylinder_intercept. cbv zeta. rewrite Q.
  replace (dot (cross (d t) (V3 0 1 0)) (cross (d t) (V3 0 1 0))) with (na2 t) by (unfold na2, dot, cross; cbn [vx vy vz]; ring).
  replace (dot (cross (d t) (V3 0 1 0)) (cross (vsub (V3 0 0 r) a) (V3 0 1 0))) with (nb t) by (unfold nb, dot, cross, vsub; cbn [vx vy vz]; fold ax az; ring).
  replace (dot (vsub (V3 0 0 r) a) (cross (d t) (V3 0 1 0))) with (bn t) by (unfold bn, dot, cross, vsub; cbn [vx vy vz]; fold ax az; ring).
  fold (disc t). destruct (Rlt_dec 0 (disc t)) as [L | L]; [|contradiction]. rewrite odiv_nz by (apply Rgt_not_eq; exact PN). reflexivity.
Qed.
Lemma cylinder_turns r : r <> 0 -> turns (cylinder_normal r) (1 / r) 0.
Proof.
  intros R0 x hx hy XX XY.
  set (ww := fun t => 1 - 1 / r * vx (x t) * (1 / r * vx (x t))).
  assert (WW : der ww 1 0) by (eapply der_value; [unfold ww; dv | ring | ring]).
  set (u := fun t => V3 (1 / r * vx (x t)) 0 (- sqrt (ww t))). exists u.
  split; [eapply der_value; [unfold u; cbn [vx]; dv | ring | ring]|]. split; [rewrite Rmult_0_l; apply der_const|].
  split; [eapply der_value; [unfold u; cbn [vz]; apply der_opp, der_sqrt; [exact WW | lra] | rewrite sqrt_1; ring | unfold Rdiv; ring]|].
  split; generalize (cont_pos _ _ (der_cont _ _ _ WW) ltac:(lra)); apply filter_imp; intros t PP.
  - unfold cylinder_normal. rewrite odiv_nz by exact R0. cbn [obind].
    replace (1 - vx (x t) / r * (vx (x t) / r)) with (ww t) by (unfold ww; field; exact R0). rewrite osqrt_nonneg by lra. cbn [obind]. unfold u. do 2 f_equal. field. exact R0.
  - unfold is_unit, norm2, dot, u. cbn [vx vy vz].
    replace (- sqrt (ww t) * - sqrt (ww t)) with (sqrt (ww t) * sqrt (ww t)) by ring. rewrite sqrt_def by lra. unfold ww. ring.
Qed.
(** The plane. *)
Lemma flat_oblique : oblique flat_intercept (fun _ => True).
Proof.
  intros rho a d d' _ L0 A0 Y0 Z0 (_ & DX & DY & DZ) UN. set (dz0 := vz (d 0)) in *. set (dz1 := vz d') in *.
  assert (DDZ : der (fun t => vz (d t)) dz0 dz1) by (split; [reflexivity | exact DZ]).
  assert (AZ : vz a = - rho * dz0) by (rewrite A0; reflexivity).
  exists (fun t => - vz a / vz (d t)). split.
  - eapply der_value; [apply der_div; [apply der_const | exact DDZ | exact Z0]| |]; rewrite AZ; field; exact Z0.
  - generalize (cont_nz _ _ (der_cont _ _ _ DDZ) Z0). apply filter_imp. intros t H. unfold flat_intercept. rewrite odiv_nz by exact H. reflexivity.
Qed.
Lemma flat_turns : turns flat_normal 0 0.
Proof.
  intros x hx hy XX XY. exists (fun _ => V3 0 0 (-1)). cbn [vx vy vz]. rewrite !Rmult_0_l. split; [apply der_const|]. split; [apply der_const|]. split; [apply der_const|].
  split; apply filter_forall; intros t; [reflexivity | unfold is_unit, norm2, dot; cbn [vx vy vz]; lra].
Qed.
(** The paraboloid. *)
Lemma parabola_oblique f : f <> 0 -> oblique (parabola_intercept f) (fun dx => dx = 0 \/ 1 / 10 ^ 10 < dx * dx).
Proof.
  intros F0 rho a d d' SO L0 A0 Y0 Z0 (_ & DX & DY & DZ) UN. assert (U0 := locally_singleton _ _ UN).
  set (dx0 := vx (d 0)) in *. set (dz0 := vz (d 0)) in *. set (dx1 := vx d') in *. set (dy1 := vy d') in *. set (dz1 := vz d') in *.
  assert (DDX : der (fun t => vx (d t)) dx0 dx1) by (split; [reflexivity | exact DX]).
  assert (DDY : der (fun t => vy (d t)) 0 dy1) by (split; [exact Y0 | exact DY]).
  assert (DDZ : der (fun t => vz (d t)) dz0 dz1) by (split; [reflexivity | exact DZ]).
  assert (UU : dx0 * dx0 + dz0 * dz0 = 1).
  { unfold is_unit, norm2, dot in U0. rewrite Y0 in U0. fold dx0 dz0 in U0. lra. }
  assert (UD : dx0 * dx1 + dz0 * dz1 = 0).
  { assert (X : dx0 * dx1 + 0 * dy1 + dz0 * dz1 = 0); [|lra]. exact (unit_derive _ _ _ _ _ _ _ _ _ DDX DDY DDZ UN). }
  set (ax := vx a) in *. set (az := vz a) in *. assert (AX : ax = - rho * dx0) by (unfold ax; rewrite A0; reflexivity).
  assert (AZ : az = - rho * dz0) by (unfold az; rewrite A0; reflexivity). assert (AY : vy a = 0) by (rewrite A0; cbn [vy vscale]; rewrite Y0; ring).
  set (q := fun t => vx (d t) * vx (d t) + vy (d t) * vy (d t)).
  assert (DQ : der q (dx0 * dx0) (2 * (dx0 * dx1))) by (eapply der_value; [unfold q; dv | ring | ring]).
  assert (P10 : 0 < 1 / 10 ^ 10) by (apply Rdiv_lt_0_compat; [lra | apply pow_lt; lra]).
  set (small_angle := 1 / 10 ^ 10) in *.
  destruct SO as [SO | SO].
  - assert (FZ : 4 * f * dz0 <> 0) by (apply Rmult_integral_contrapositive; split; [apply Rmult_integral_contrapositive; split; [lra | exact F0] | exact Z0]).
    set (len := fun t => - (4 * f * az) / (4 * f * vz (d t))).
    assert (LN : der len rho (- rho * dz1 / dz0)).
    { eapply der_value; [unfold len; apply der_div; [apply der_const | apply (der_mult (fun _ => 4 * f)); [apply der_const | exact DDZ] | exact FZ]| |]; rewrite AZ; field; auto. }
    exists len. split; [exact LN|].
    assert (SM : cont (fun t => small_angle - q t) small_angle).
    { eapply cont_value; [apply cont_minus; [apply cont_const | exact (der_cont _ _ _ DQ)]|]. rewrite SO. ring. }
    generalize (filter_and _ _ (cont_pos _ _ SM P10) (cont_nz _ _ (der_cont _ _ _ DDZ) Z0)). apply filter_imp. intros t (S & Z).
    unfold parabola_intercept. cbv zeta. fold (q t). fold small_angle. destruct (Rlt_dec small_angle (q t)) as [L | L]; [lra|].
    fold ax az. rewrite AY, AX, SO. rewrite odiv_nz by (apply Rmult_integral_contrapositive; split; [apply Rmult_integral_contrapositive; split; [lra | exact F0] | exact Z]).
    cbn [obind]. unfold len. do 3 f_equal. field. auto.
  - assert (X0 : dx0 * dx0 <> 0) by lra. assert (X1 : dx0 <> 0) by (intros Z; rewrite Z in X0; lra).
    assert (FZ : f * dz0 <> 0) by (apply Rmult_integral_contrapositive; split; assumption).
    set (S := fun t => - (ax * vy (d t) * (ax * vy (d t))) + 4 * f * (az * q t - ax * vx (d t) * vz (d t) + f * (vz (d t) * vz (d t)))).
    assert (DS : der S (2 * (f * dz0) * (2 * (f * dz0))) (4 * f * dz1 * (rho + 2 * f * dz0))).
    { assert (M : der (fun t => ax * vy (d t)) 0 (ax * dy1)) by (eapply der_value; [apply (der_mult (fun _ => ax)); [apply der_const | exact DDY] | ring | ring]).
      eapply der_value; [unfold S; apply der_plus; [apply der_opp; apply der_mult; exact M | apply (der_mult (fun _ => 4 * f)); [apply der_const|]; apply der_plus;
        [apply der_minus; [apply (der_mult (fun _ => az)); [apply der_const | exact DQ] | apply der_mult; [apply (der_mult (fun _ => ax)); [apply der_const | exact DDX] | exact DDZ]]
        | apply (der_mult (fun _ => f)); [apply der_const | apply der_mult; exact DDZ]]]| |]; rewrite AX, AZ.
      - ring.
      - transitivity (4 * f * (rho * (dx0 * dx0 + dz0 * dz0) * dz1 - rho * dz0 * (dx0 * dx1 + dz0 * dz1) + 2 * f * dz0 * dz1)); [ring | rewrite UU, UD; ring]. }
    assert (LL : 0 < 2 * (f * dz0) * (2 * (f * dz0))) by nra.
    assert (SQ0 : sqrt (2 * (f * dz0) * (2 * (f * dz0))) = 2 * Rabs (f * dz0)).
    { transitivity (Rabs (2 * (f * dz0))); [apply sqrt_Rsqr_abs|]. rewrite Rabs_mult, (Rabs_right 2) by lra. reflexivity. }
    set (len := fun t => (- ax * vx (d t) + 2 * f * vz (d t) - rsign (f * dz0) * sqrt (S t)) / q t).
    assert (LN : der len rho (- rho * dz1 / dz0)).
    { eapply der_value; [unfold len; apply der_div; [apply der_minus; [apply der_plus; [apply (der_mult (fun _ => - ax)); [apply der_const | exact DDX] |
        apply (der_mult (fun _ => 2 * f)); [apply der_const | exact DDZ]] | apply der_mult; [apply der_const | apply der_sqrt; [exact DS | exact LL]]] | exact DQ | exact X0]| |]; rewrite SQ0.
      - replace (rsign (f * dz0) * (2 * Rabs (f * dz0))) with (2 * (rsign (f * dz0) * Rabs (f * dz0))) by ring. rewrite sign_abs, AX. field. exact X1.
      - transitivity ((rho * dx0 * dx1 + 2 * f * dz1 - dz1 * (rho + 2 * f * dz0) / dz0 - 2 * rho * (dx0 * dx1)) / (dx0 * dx0)).
        + rewrite <- (rsign_abs (f * dz0)), AX. destruct (sense_sign _ FZ) as [-> | ->]; field; auto.
        + replace (dx0 * dx1) with (- (dz0 * dz1)) by lra. replace (rho * dx0 * dx1) with (- (rho * (dz0 * dz1))) by (transitivity (rho * (dx0 * dx1)); [replace (dx0 * dx1) with (- (dz0 * dz1)) by lra; ring | ring]).
          apply (Rmult_eq_reg_r (dx0 * dx0 * dz0)); [|apply Rmult_integral_contrapositive; split; assumption].
          transitivity (- rho * dz1 * (1 - dz0 * dz0)); [field; split; assumption|]. replace (1 - dz0 * dz0) with (dx0 * dx0) by lra. field. assumption. }
    exists len. split; [exact LN|].
    assert (SM : cont (fun t => q t - small_angle) (dx0 * dx0 - small_angle)) by (apply cont_minus; [exact (der_cont _ _ _ DQ) | apply cont_const]).
    assert (RC : cont (fun t => f * vz (d t)) (f * dz0)) by (apply cont_mult; [apply cont_const | exact (der_cont _ _ _ DDZ)]).
    generalize (filter_and _ _ (filter_and _ _ (cont_pos _ _ SM (Rlt_Rminus _ _ SO)) (cont_pos _ _ (der_cont _ _ _ DS) LL)) (sign_around _ _ RC FZ)). apply filter_imp. intros t ((G & PS) & Q).
    unfold parabola_intercept. cbv zeta. fold (q t). fold small_angle. destruct (Rlt_dec small_angle (q t)) as [L | L]; [|lra]. fold ax az. rewrite AY, Q.
    replace (- (0 * vx (d t) * (0 * vx (d t))) - ax * vy (d t) * (ax * vy (d t)) + 2 * 0 * vy (d t) * (ax * vx (d t) - 2 * f * vz (d t))
      + 4 * f * (az * q t - ax * vx (d t) * vz (d t) + f * (vz (d t) * vz (d t)))) with (S t) by (unfold S; ring).
    rewrite osqrt_nonneg by lra. cbn [obind]. rewrite odiv_nz by lra. cbn [obind]. unfold len. do 4 f_equal. ring.
Qed.
Lemma parabola_turns f : f <> 0 -> turns (parabola_normal f) (1 / (2 * f)) (1 / (2 * f)).
Proof.
  intros F0 x hx hy XX XY. set (r := 2 * f). assert (R0 : r <> 0) by (unfold r; apply Rmult_integral_contrapositive; split; [lra | exact F0]).
  set (ww := fun t => 1 / r * vx (x t) * (1 / r * vx (x t)) + 1 / r * vy (x t) * (1 / r * vy (x t)) + 1).
  assert (WW : der ww 1 0) by (eapply der_value; [unfold ww; dv | ring | ring]).
  assert (WP : forall t, 0 < ww t) by (intros t; unfold ww; nra).
  set (m := fun t => 1 / sqrt (ww t)).
  assert (SQ : sqrt 1 <> 0) by (rewrite sqrt_1; lra).
  assert (DM : der m 1 0).
  { eapply der_value; [unfold m; apply der_div; [apply der_const | apply der_sqrt; [exact WW | lra] | exact SQ]| |]; rewrite sqrt_1; field. }
  set (u := fun t => V3 (1 / r * vx (x t) * m t) (1 / r * vy (x t) * m t) (- m t)). exists u.
  split; [eapply der_value; [unfold u; cbn [vx]; dv | ring | ring]|]. split; [eapply der_value; [unfold u; cbn [vy]; dv | ring | ring]|].
  split; [eapply der_value; [unfold u; cbn [vz]; dv | ring | ring]|].
  assert (SN : forall t, sqrt (ww t) <> 0) by (intros t; apply Rgt_not_eq, sqrt_lt_R0, WP).
  split; apply filter_forall; intros t.
  - unfold parabola_normal. cbv zeta. fold r. rewrite !odiv_nz by exact R0. cbn [obind].
    replace (vx (x t) / r * (vx (x t) / r) + vy (x t) / r * (vy (x t) / r) + 1) with (ww t) by (unfold ww; field; exact R0).
    rewrite !odiv_nz by apply SN. cbn [obind]. unfold u, m. f_equal. assert (N := SN t). apply vec_eq; cbn [vx vy vz]; field; auto.
  - unfold is_unit, norm2, dot, u. cbn [vx vy vz].
    assert (MM : m t * m t * ww t = 1).
    { unfold m. assert (E : sqrt (ww t) * sqrt (ww t) = ww t) by (apply sqrt_def, Rlt_le, WP). rewrite <- E at 3. field. apply SN. }
    transitivity (m t * m t * ww t); [unfold ww; ring | exact MM].
Qed.
Lemma round_near solver k dx cx cy : round k dx cx cy -> exists some, some dx /\ oblique (class_intercept solver k) some /\ turns (class_normal k) cx cy.
Proof.
  destruct k; cbn [round class_intercept class_normal]; try contradiction.
  - intros [-> ->]. exact (ex_intro _ _ (conj I (conj flat_oblique flat_turns))).
  - intros (R & -> & ->). exact (ex_intro _ _ (conj I (conj (sphere_oblique _ R) (sphere_turns _ R)))).
  - intros (F & D & -> & ->). exact (ex_intro _ _ (conj D (conj (parabola_oblique _ F) (parabola_turns _ F)))).
  - intros (R & -> & ->). exact (ex_intro _ _ (conj I (conj (cylinder_oblique _ R) (cylinder_turns _ R)))).
Qed.

Lemma focal_line solver s kl cx cy P P1 n w rho a f d d' b0 : ruled_surface solver s kl P -> round kl (vx (d 0)) cx cy -> P 0 <> 0 -> is_derive P 0 P1 -> 0 < n -> pencil f a n w d d' ->
  rho <> 0 -> a = vscale (- rho) (d 0) -> vz (d 0) <> 0 -> r_direction (surface_propagate s (f 0)) = Some b0 -> vz b0 <> 0 ->
  vx (d 0) * vx d' + vz (d 0) * vz d' = 0 /\ is_unit (d 0) /\ is_unit b0 /\ vy b0 = 0 /\
  exists x b, leaves s f x b /\ x 0 = V3 0 0 0 /\ forall k,
    let g t := cross (vsub (vscale k b0) (x t)) (b t) in
    let sagittal := rho * vy d' * (1 + k * (1 / rho + (vz (d 0) - vz b0) * cy)) in
    der (fun t => vx (g t)) 0 (- vz b0 * sagittal) /\ der (fun t => vz (g t)) 0 (vx b0 * sagittal) /\
    der (fun t => vy (g t)) 0
      (rho * (vx d' - vz d' * vx (d 0) / vz (d 0)) * (vz b0 - k / vz b0 *
        (vz b0 * cx - vz (d 0) * cx - vz (d 0) * vz (d 0) / rho + (vx b0 - vx (d 0)) * P1 / P 0))).
Proof.
  intros RS RO C0 CP N0 PE L0 A0 Z0 HB BZ. destruct (round_near solver kl _ cx cy RO) as (some & SO & OB & TU).
  assert (UN : locally 0 (fun t => is_unit (d t))) by (generalize (proj1 PE); apply filter_imp; intros t (_ & _ & _ & _ & U); exact U).
  assert (Y0 : vy (d 0) = 0) by exact (proj1 (proj2 PE)). assert (MV := proj2 (proj2 PE)).
  destruct (OB rho a d d' SO L0 A0 Y0 Z0 MV UN) as (len & LN & INT).
  assert (MV' := MV). destruct MV' as (_ & DX & DY & DZ).
  assert (DDX : der (fun t => vx (d t)) (vx (d 0)) (vx d')) by (split; [reflexivity | exact DX]).
  assert (DDY : der (fun t => vy (d t)) 0 (vy d')) by (split; [exact Y0 | exact DY]).
  set (x := fun t => vadd a (vscale (len t) (d t))).
  assert (XX : der (fun t => vx (x t)) 0 (rho * (vx d' - vz d' * vx (d 0) / vz (d 0)))).
  { eapply der_value; [unfold x; cbn [vx vadd vscale]; dv| |]; [rewrite A0; cbn [vx vscale]; ring | field; exact Z0]. }
  assert (XY : der (fun t => vy (x t)) 0 (rho * vy d')).
  { eapply der_value; [unfold x; cbn [vy vadd vscale]; dv| |]; [rewrite A0; cbn [vy vscale]; rewrite Y0; ring | ring]. }
  destruct (TU x _ _ XX XY) as (u & UX & UY & UZ & NRM & UNI).
  destruct (focal_core solver s kl cx cy P P1 n w rho a f d d' b0 len u RS C0 CP N0 PE L0 A0 Z0 HB BZ LN INT UX UY UZ NRM UNI) as (H1 & H2 & H3 & H4 & b & H5).
  split; [exact H1|]. split; [exact H2|]. split; [exact H3|]. split; [exact H4|]. exists x, b. exact H5.
Qed.

(** Where the rays of a family come together. *)
Lemma focal_equation solver s kl cx cy P P1 n w rho a f d d' b0 : ruled_surface solver s kl P -> round kl (vx (d 0)) cx cy -> P 0 <> 0 -> is_derive P 0 P1 -> 0 < n -> pencil f a n w d d' ->
  rho <> 0 -> a = vscale (- rho) (d 0) -> vz (d 0) <> 0 -> r_direction (surface_propagate s (f 0)) = Some b0 -> vz b0 <> 0 ->
  exists x b, leaves s f x b /\ x 0 = V3 0 0 0 /\
    forall k, k <> 0 -> is_derive (fun t => distance (vscale k b0) (x t) (b t)) 0 0 <->
      (vx d' = 0 \/ vz (d 0) * vz (d 0) / rho + vz b0 * vz b0 / k + (vz (d 0) - vz b0) * cx = (vx b0 - vx (d 0)) * P1 / P 0) /\
      (vy d' = 0 \/ 1 / rho + 1 / k + (vz (d 0) - vz b0) * cy = 0).
Proof.
  intros GR RO C0 CP N0 PE L0 A0 Z0 HB BZ.
  destruct (focal_line solver s kl cx cy P P1 n w rho a f d d' b0 GR RO C0 CP N0 PE L0 A0 Z0 HB BZ) as (UD & U0 & UB & BY & x & b & LV & X0 & DD).
  assert (Y0 : vy (d 0) = 0) by exact (proj1 (proj2 PE)).
  exists x, b. split; [exact LV|]. split; [exact X0|]. intros k K0. destruct (DD k) as (D1 & D3 & D2). cbv zeta in D1, D2, D3.
  unfold distance. rewrite (derive_vlen (fun t => cross (vsub (vscale k b0) (x t)) (b t))); [|apply vec_eq; [exact (proj1 D1) | exact (proj1 D2) | exact (proj1 D3)]].
  assert (UQ : forall g v, der g 0 v -> is_derive g 0 0 <-> v = 0).
  { intros g v [_ D]. split; [intros D0; exact (eq_trans (eq_sym (is_derive_unique _ _ _ D)) (is_derive_unique _ _ _ D0)) | intros Z; rewrite Z in D; exact D]. }
  rewrite (UQ _ _ D1), (UQ _ _ D2), (UQ _ _ D3). clear D1 D2 D3 UQ DD.
  unfold is_unit, norm2, dot in U0. rewrite Y0 in U0. set (T := (vx b0 - vx (d 0)) * P1 / P 0).
  set (dx := vx (d 0)) in *. set (dz := vz (d 0)) in *. set (bx := vx b0) in *. set (bz := vz b0) in *. set (xi := vx d' - vz d' * dx / dz) in *.
  assert (XI : xi = 0 <-> vx d' = 0).
  { assert (X1 : vx d' = dz * dz * xi).
    { transitivity (vx d' * (dx * dx + 0 * 0 + dz * dz)); [rewrite U0; ring|].
      transitivity (dx * (dx * vx d' + dz * vz d') + dz * dz * xi); [unfold xi; field; exact Z0|rewrite UD; ring]. }
    split; intros Z; [rewrite X1, Z; ring|]. rewrite Z in X1. symmetry in X1. apply Rmult_integral in X1. destruct X1 as [X1|X1]; [|exact X1].
    apply Rmult_integral in X1. tauto. }
  set (S := 1 / rho + 1 / k + (dz - bz) * cy). set (E := dz * dz / rho + bz * bz / k + (dz - bz) * cx).
  assert (FS : rho * vy d' * (1 + k * (1 / rho + (dz - bz) * cy)) = rho * k * (vy d' * S)) by (unfold S; field; repeat split; assumption).
  assert (FE : rho * xi * (bz - k / bz * (bz * cx - dz * cx - dz * dz / rho + T)) = rho * k / bz * (xi * (E - T))) by (unfold E; field; repeat split; assumption).
  rewrite FS, FE.
  assert (RK : rho * k <> 0) by (apply Rmult_integral_contrapositive; split; assumption).
  assert (RB : rho * k / bz <> 0) by (apply Rmult_integral_contrapositive; split; [exact RK | apply Rinv_neq_0_compat; exact BZ]).
  split.
  - intros (H1 & H2 & _). split.
    + apply Rmult_integral in H2. destruct H2 as [H2|H2]; [contradiction|]. apply Rmult_integral in H2. destruct H2 as [H2|H2]; [left; apply XI; exact H2 | right; lra].
    + apply Rmult_integral in H1. destruct H1 as [H1|H1]; [lra|]. apply Rmult_integral in H1. destruct H1 as [H1|H1]; [contradiction|]. apply Rmult_integral in H1. exact H1.
  - intros (H2 & H1). assert (Z1 : vy d' * S = 0) by (destruct H1 as [-> | ->]; ring).
    assert (Z2 : xi * (E - T) = 0) by (destruct H2 as [H2|H2]; [apply XI in H2; rewrite H2; ring | rewrite H2; ring]).
    rewrite Z1, Z2. repeat split; ring.
Qed.

Lemma constant_sphere solver s r c : concave_grating solver s r c -> ruled_surface solver s (SphericalSag r) (fun _ => c).
Proof.
  intros (TR & SG & RE & g & RU & SP). split; [exact TR|]. split; [exact SG|]. split; [exact RE|]. exists g. split; [exact RU|].
  intros q n. rewrite SP. unfold constant_spacing. f_equal. apply vec_eq; cbn; ring.
Qed.
Lemma polynomial_ruled solver s k l g : sf_transformation s = None -> sf_sag s = make_sag solver k None -> reflects s ->
  sf_rulings s = Some g -> rul_spacing g = polynomial_spacing l (V3 1 0 0) None -> ruled_surface solver s k (polynomial l).
Proof.
  intros TR SG RE RU SP. split; [exact TR|]. split; [exact SG|]. split; [exact RE|]. exists g. split; [exact RU|].
  intros q n. rewrite SP. unfold polynomial_spacing. f_equal. 
  replace (dot q (V3 1 0 0)) with (vx q) by (unfold dot; cbn [vx vy vz]; ring). apply vec_eq; cbn [vx vy vz vscale]; ring.
Qed.

(** The Rowland circle as a pair of distances from the vertex. *)
Lemma rowland_source r a d : rowland r a -> is_unit d -> vy d = 0 -> on_line a d (V3 0 0 0) ->
  exists rho, a = vscale (- rho) d /\ rho <> 0 /\ rho = - (r * vz d) /\ r <> 0 /\ vz d <> 0.
Proof.
  intros RA U0 Y0 [l OL]. exists l.
  assert (A0 : a = vscale (- l) d).
  { destruct a as [ax ay az]. injection OL as O1 O2 O3. apply vec_eq; cbn [vx vy vz vscale]; lra. }
  assert (AR := RA). rewrite A0 in AR. apply rowland_multiple in AR; [|assumption|assumption]. destruct AR as [L0 LR].
  assert (R0 : r <> 0) by (intros Z; rewrite Z in LR; lra). assert (Z0 : vz d <> 0) by (intros Z; rewrite Z in LR; lra).
  split; [exact A0|]. split; [lra|]. split; [lra|]. split; assumption.
Qed.

Lemma rowland_focus solver s r c n w a f d d' b0 : concave_grating solver s r c -> c <> 0 -> 0 < n -> rowland r a -> pencil f a n w d d' ->
  vx d' <> 0 -> on_line a (d 0) (V3 0 0 0) -> r_direction (surface_propagate s (f 0)) = Some b0 -> vz b0 <> 0 ->
  (exists i, on_line (V3 0 0 0) b0 i /\ rowland r i) /\
  exists x b, leaves s f x b /\ x 0 = V3 0 0 0 /\
    forall p, on_line (V3 0 0 0) b0 p -> p <> V3 0 0 0 ->
    is_derive (fun t => distance p (x t) (b t)) 0 0 <->
    rowland r p /\ (vy d' = 0 \/ vx (d 0) * vx (d 0) / dot (vopp a) (d 0) + vx b0 * vx b0 / dot p b0 = 0).
Proof.
  intros GR C0 N0 RA PE D1 OL HB BZ.
  destruct (locally_singleton _ _ (proj1 PE)) as (_ & _ & _ & _ & U0). assert (Y0 : vy (d 0) = 0) by exact (proj1 (proj2 PE)).
  destruct (rowland_source r a (d 0) RA U0 Y0 OL) as (l & A0 & L0 & LE & R0 & Z0).
  destruct (focal_line solver s (SphericalSag r) (1 / r) (1 / r) (fun _ => c) 0 n w l a f d d' b0 (constant_sphere _ _ _ _ GR) (conj R0 (conj eq_refl eq_refl)) C0 (is_derive_const c 0) N0 PE L0 A0 Z0 HB BZ)
    as (_ & _ & UB & BY & _).
  destruct (focal_equation solver s (SphericalSag r) (1 / r) (1 / r) (fun _ => c) 0 n w l a f d d' b0 (constant_sphere _ _ _ _ GR) (conj R0 (conj eq_refl eq_refl)) C0 (is_derive_const c 0) N0 PE L0 A0 Z0 HB BZ)
    as (x & b & LV & X0 & DD).
  assert (MU : forall k, vadd (V3 0 0 0) (vscale k b0) = vscale k b0) by (intros k; apply vec_eq; cbn; ring).
  split.
  - exists (vscale (r * vz b0) b0). split; [exists (r * vz b0); rewrite MU; reflexivity|]. apply rowland_multiple; [assumption|assumption|].
    split; [|reflexivity]. apply Rmult_integral_contrapositive. split; assumption.
  - exists x, b. split; [exact LV|]. split; [exact X0|]. intros p [k ->] PN. rewrite MU in *.
    assert (K0 : k <> 0) by (intros ->; apply PN; apply vec_eq; cbn; ring).
    rewrite (DD k K0), (rowland_multiple r k b0 UB BY).
    assert (DA : dot (vopp a) (d 0) = l).
    { rewrite A0. transitivity (l * norm2 (d 0)); [unfold norm2, dot, vopp, vscale; cbn [vx vy vz]; ring|rewrite U0; ring]. }
    assert (DB : dot (vscale k b0) b0 = k) by (rewrite dot_scale_l; unfold is_unit, norm2 in UB; rewrite UB; ring).
    rewrite DA, DB. unfold is_unit, norm2, dot in U0, UB. rewrite Y0 in U0. rewrite BY in UB.
    set (dx := vx (d 0)) in *. set (dz := vz (d 0)) in *. set (bx := vx b0) in *. set (bz := vz b0) in *.
    assert (T : dz * dz / l + bz * bz / k + (dz - bz) * (1 / r) = (bx - dx) * 0 / c <-> k = r * bz).
    { replace ((bx - dx) * 0 / c) with 0 by (field; exact C0).
      assert (F : dz * dz / l + bz * bz / k + (dz - bz) * (1 / r) = bz / (k * r) * (r * bz - k)) by (rewrite LE; field; repeat split; assumption). rewrite F. split.
      - intros Z. apply Rmult_integral in Z. destruct Z as [Z|Z]; [|lra]. exfalso. revert Z.
        apply Rmult_integral_contrapositive. split; [exact BZ|]. apply Rinv_neq_0_compat. apply Rmult_integral_contrapositive. split; assumption.
      - intros ->. ring. }
    rewrite T. 
    assert (S : k = r * bz -> 1 / l + 1 / k + (dz - bz) * (1 / r) = dx * dx / l + bx * bx / k).
    { intros E. replace (dx * dx) with (1 - dz * dz) by lra. replace (bx * bx) with (1 - bz * bz) by lra. rewrite E, LE. field. repeat split; assumption. }
    split.
    + intros ([Z|E] & SG); [contradiction|]. split; [split; assumption|]. destruct SG as [SG|SG]; [left; exact SG | right; rewrite <- S; assumption].
    + intros ((_ & E) & SG). split; [right; exact E|]. destruct SG as [SG|SG]; [left; exact SG | right; rewrite S; assumption].
Qed.

(** A plane grating with grooves at a constant distance. *)
Lemma plane_images solver s c n w rho a f d d' b0 : ruled_surface solver s NoSag (fun _ => c) -> c <> 0 -> 0 < n -> pencil f a n w d d' ->
  rho <> 0 -> a = vscale (- rho) (d 0) -> vz (d 0) <> 0 -> r_direction (surface_propagate s (f 0)) = Some b0 -> vz b0 <> 0 ->
  exists x b, leaves s f x b /\ x 0 = V3 0 0 0 /\
    forall k, k <> 0 -> is_derive (fun t => distance (vscale k b0) (x t) (b t)) 0 0 <->
      (vx d' = 0 \/ k = - rho * ((vz b0 / vz (d 0)) * (vz b0 / vz (d 0)))) /\ (vy d' = 0 \/ k = - rho).
Proof.
  intros GR C0 N0 PE L0 A0 Z0 HB BZ.
  destruct (focal_equation solver s NoSag 0 0 (fun _ => c) 0 n w rho a f d d' b0 GR (conj eq_refl eq_refl) C0 (is_derive_const c 0) N0 PE L0 A0 Z0 HB BZ) as (x & b & LV & X0 & DD).
  exists x, b. split; [exact LV|]. split; [exact X0|]. intros k K0. rewrite (DD k K0). clear DD.
  set (dz := vz (d 0)) in *. set (bz := vz b0) in *. set (T := (vx b0 - vx (d 0)) * 0 / c). assert (T0 : T = 0) by (unfold T; field; exact C0). rewrite T0.
  assert (RK : rho * k <> 0) by (apply Rmult_integral_contrapositive; split; assumption).
  assert (E1 : dz * dz / rho + bz * bz / k + (dz - bz) * 0 = dz * dz / (rho * k) * (k + rho * (bz / dz * (bz / dz)))) by (field; repeat split; assumption).
  assert (E2 : 1 / rho + 1 / k + (dz - bz) * 0 = / (rho * k) * (k + rho)) by (field; split; assumption).
  assert (N1 : dz * dz / (rho * k) <> 0).
  { apply Rmult_integral_contrapositive. split; [apply Rmult_integral_contrapositive; split; exact Z0 | apply Rinv_neq_0_compat; exact RK]. }
  assert (N2 : / (rho * k) <> 0) by (apply Rinv_neq_0_compat; exact RK).
  rewrite E1, E2. set (m := bz / dz * (bz / dz)).
  assert (Q1 : dz * dz / (rho * k) * (k + rho * m) = 0 <-> k = - rho * m).
  { split; [intros Z; apply Rmult_integral in Z; destruct Z as [Z|Z]; [contradiction | lra] | intros ->; ring]. }
  assert (Q2 : / (rho * k) * (k + rho) = 0 <-> k = - rho).
  { split; [intros Z; apply Rmult_integral in Z; destruct Z as [Z|Z]; [contradiction | lra] | intros ->; ring]. }
  rewrite Q1, Q2. reflexivity.
Qed.
