(** Examples for C96. *)
From Coq Require Import Reals List Bool ZArith Lra.
From Coquelicot Require Import Coquelicot.
From Verif Require Import Vec VecLemmas Num NumLemmas RayModel SurfaceModel SagModel ApertureModel RulingModel MaterialModel LayerModel ProfileModel
  CoatingModel SequenceSpec SequenceExamples SnellSpec SystemTraceProofs StopRayModel CurvedExamples ScaleSpec ScaleLayerSpec ScaleProofs ScaleClassProofs ScalePartProofs ScaleLayerProofs.
Import ListNotations.
Open Scope R_scope.

(** A paraboloid given as a conic, of radius one metre, struck ten centimetres off its axis. *)
Definition low : vec3 := V3 (200/10001) 0 (9999/10001).
Definition hit : vec3 := V3 (1/10) 0 (1/200).
Definition nanometres : R := 10 ^ 9.

Lemma low_unit : is_unit low. Proof. unfold is_unit, norm2, dot; cbn; lra. Qed.
Lemma in_metres : conic_intercept 1 (-1) (vsub hit low) low = Some hit.
Proof.
  unfold conic_intercept. rewrite odiv_nz by lra. cbn [obind]. replace (1 / 1) with 1 by lra.
  set (a := conic_a 1 (-1) low). set (b := conic_b 1 (-1) (vsub hit low) low). set (cc := conic_cc 1 (-1) (vsub hit low)).
  assert (Ea : a = 40000/100020001) by (unfold a, conic_a; cbn; lra).
  assert (Eb : b = 2 * ((1/10 - 200/10001) * (200/10001) - 9999/10001)) by (unfold b, conic_b; cbn; lra).
  assert (Ec : cc = - a - b) by (rewrite Ea, Eb; unfold cc, conic_cc; cbn; lra).
  assert (D : conic_disc 1 (-1) (vsub hit low) low = (cc - a) * (cc - a)) by (unfold conic_disc; fold a b cc; rewrite Ec; ring).
  assert (P : 0 <= cc - a) by lra.
  assert (G : conic_degenerate 1 (-1) low = false).
  { unfold conic_degenerate. fold a. rewrite Ea, Rabs_right by lra. destruct (Rlt_dec _ _) as [X|X]; [exfalso; lra|reflexivity]. }
  assert (M : conic_root 1 (-1) (vsub hit low) low (-1) = Some 1).
  { unfold conic_root. rewrite D, G. destruct (Rle_dec 0 ((cc - a) * (cc - a))) as [_|X]; [|exfalso; apply X; nra].
    fold a b. rewrite sqrt_square by exact P. cbn [obind]. rewrite odiv_nz by lra. cbn [obind].
    replace ((- b + -1 * (cc - a)) / (2 * a)) with 1 by (rewrite Ec; field; lra).
    destruct (Rle_dec _ _) as [X|X]; [reflexivity|]. exfalso. apply X. cbn. lra. }
  unfold conic_t. rewrite M. destruct (conic_root 1 (-1) (vsub hit low) low 1) as [t|] eqn:T.
  - assert (V : t = cc / a).
    { unfold conic_root in T. rewrite D, G in T. destruct (Rle_dec 0 ((cc - a) * (cc - a))) as [_|X]; [|discriminate T].
      fold a b in T. rewrite sqrt_square in T by exact P. cbn [obind] in T. rewrite odiv_nz in T by lra. cbn [obind] in T.
      destruct (Rle_dec _ _) as [X|X]; [|discriminate T]. assert (E : (- b + 1 * (cc - a)) / (2 * a) = t) by congruence.
      rewrite <- E, Ec. field. lra. }
    assert (1 <= t). { rewrite V. apply Rmult_le_reg_r with a; [lra|]. unfold Rdiv. rewrite Rmult_assoc, Rinv_l by lra. lra. }
    rewrite !Rabs_right by lra. destruct (Rle_dec 1 t) as [_|X]; [|exfalso; lra]. cbn [obind]. f_equal. apply vec_eq; cbn; lra.
  - cbn [obind]. f_equal. apply vec_eq; cbn; lra.
Qed.
Lemma in_nanometres : exists x, conic_intercept (nanometres * 1) (-1) (vscale nanometres (vsub hit low)) low = Some x /\
  100000 < vlen (vsub x (vscale nanometres hit)).
Proof.
  unfold conic_intercept. rewrite odiv_nz by (unfold nanometres; lra). cbn [obind]. set (c := 1 / (nanometres * 1)).
  assert (Ecc : c = / 10 ^ 9) by (unfold c, nanometres; lra).
  set (o := vscale nanometres (vsub hit low)).
  assert (G : conic_degenerate c (-1) low = true).
  { unfold conic_degenerate, conic_a. rewrite Ecc. cbn. rewrite Rabs_right by lra. destruct (Rlt_dec _ _) as [X|X]; [reflexivity|exfalso; lra]. }
  set (b := 2 * ((1/10 - 200/10001) * (200/10001) - 9999/10001)).
  assert (Eb : conic_b c (-1) o low = b) by (unfold conic_b, o, nanometres, b; rewrite Ecc; cbn; lra).
  set (e := 40000/100020001).
  assert (Ec : conic_cc c (-1) o = nanometres * (- e - b)) by (unfold conic_cc, o, nanometres, b, e; rewrite Ecc; cbn; lra).
  assert (Ea : conic_a c (-1) low = e / nanometres) by (unfold conic_a, nanometres, e; rewrite Ecc; cbn; lra).
  assert (Nn : nanometres <> 0) by (unfold nanometres; lra).
  assert (D : 0 <= conic_disc c (-1) o low).
  { unfold conic_disc. rewrite Ea, Eb, Ec. replace (b * b - 4 * (e / nanometres) * (nanometres * (- e - b))) with ((b + 2 * e) * (b + 2 * e)) by (field; exact Nn). apply Rle_0_sqr. }
  set (t := nanometres * (1 + e / b)).
  assert (Bz : b < -199/100) by (unfold b; lra). assert (Bz' : -2 < b) by (unfold b; lra).
  assert (R : forall sign, conic_root c (-1) o low sign = Some t).
  { intros sign. unfold conic_root. rewrite G. destruct (Rle_dec 0 (conic_disc c (-1) o low)) as [_|X]; [|contradiction]. cbn [obind].
    rewrite Eb, Ec, odiv_nz by lra. cbn [obind]. replace (- (nanometres * (- e - b)) / b) with t by (unfold t; field; lra).
    destruct (Rle_dec _ _) as [_|X]; [reflexivity|]. exfalso. apply X. rewrite Ecc.
    set (q := e / b). assert (Q : - (41/100000) * (1/1) <= q * (199/100)). { unfold q. assert (I : - (1 / (199/100)) <= / b) by (assert (/ - b <= / (199/100)) by (apply Rinv_le_contravar; lra); rewrite <- Ropp_inv_permute in H by lra; lra). unfold Rdiv, e. nra. }
    assert (Q' : q < 0). { unfold q, Rdiv. assert (/ b < 0) by (apply Rinv_lt_0_compat; lra). unfold e. nra. }
    replace (vz (ray_at o low t)) with (nanometres * (1/200 + q * (9999/10001))) by (unfold t, o; fold q; cbn; field).
    replace (vx (ray_at o low t)) with (nanometres * (1/10 + q * (200/10001))) by (unfold t, o; fold q; cbn; field).
    replace (vy (ray_at o low t)) with 0 by (unfold o; cbn; ring). unfold nanometres. nra. }
  exists (ray_at o low t). split.
  - unfold conic_t. rewrite !R. destruct (Rle_dec _ _) as [_|X]; [reflexivity|exfalso; apply X; lra].
  - replace (vsub (ray_at o low t) (vscale nanometres hit)) with (vscale (nanometres * (e / b)) low) by (unfold t, o; apply vec_eq; cbn; field; lra).
    unfold vlen. replace (norm2 (vscale (nanometres * (e / b)) low)) with ((nanometres * (e / b)) * (nanometres * (e / b))) by (unfold norm2, dot, low; cbn; field; lra).
    change (100000 < sqrt (Rsqr (nanometres * (e / b)))). rewrite sqrt_Rsqr_abs, Rabs_mult, (Rabs_right nanometres) by (unfold nanometres; lra).
    unfold Rdiv. rewrite Rabs_mult, (Rabs_right e), Rabs_Rinv, (Rabs_left b) by (unfold e; lra).
    assert (I : / 2 <= / - b) by (apply Rinv_le_contravar; lra). unfold nanometres, e. lra.
Qed.

(** A window three metres above a concave mirror with a coating, rulings and an aperture, in
    metres and in millimetres. *)
Definition aluminium : layer := Layer (Some (fun w => RtoC (1 + w))) (1/100000) (Some (Erf (1/1000000))).
Definition iris (pip : list vec3 -> R -> R -> bool) (k : R) : aperture :=
  as_aperture pip (scale_aperture k (mkApertureObj (Circular 10) true false None true)).
Definition grooves (k : R) : rulings :=
  make_rulings (scale_profile k (Square (1/1000000))) 1 (constant_spacing (k * (1/1000)) (V3 1 0 0)).
Definition grating (k : R) : surface :=
  mkSurface (make_sag no_solver (scale_class k (SphericalSag 5)) None)
            (coated (scale_alayer k (ASequence [ALayer aluminium])) (omap (scale_layer k) (Some aluminium)))
            (Some (iris (fun _ _ _ => true) k)) (Some (grooves k)) None.
Definition spectrograph (k : R) : list surface := [window (shift (V3 0 0 (k * 3))); grating k].
Definition falling : ray := mkRay (1/2000000) (Some (V3 4 0 8)) (Some (V3 0 0 (-1))) (Some 1) 0 1 true.

Lemma rul_unit : forall k x n, constant_spacing (k * (1 * (1/1000))) (V3 1 0 0) (vscale k x) n
  = omap (vscale k) (constant_spacing (1 * (1/1000)) (V3 1 0 0) x n).
Proof. intros. apply constant_spacing_scale. Qed.
Lemma metres_millimetres : Forall2 (same_surface 1000) (spectrograph 1) (spectrograph 1000).
Proof.
  constructor; [|constructor; [|constructor]].
  - split; [exact (make_sag_scale 1000 NoSag no_solver no_solver None ltac:(lra) I (fun _ => I))|]. split; [apply vacuum_scale|].
    split; [exact I|]. split; [exact I|]. cbn. split; [reflexivity|]. apply vec_eq; cbn; ring.
  - split.
    { assert (H := make_sag_scale 1000 (SphericalSag (1 * 5)) no_solver no_solver None ltac:(lra) I (fun _ => I)).
      cbn [grating sf_sag scale_class scale_rigid omap] in *. replace (1000 * (1 * 5)) with (1000 * 5) in H by ring. exact H. }
    split.
    { assert (H := coated_scale 1000 (scale_alayer 1 (ASequence [ALayer aluminium])) (omap (scale_layer 1) (Some aluminium)) ltac:(lra)).
      assert (E : scale_layer 1000 (scale_layer 1 aluminium) = scale_layer 1000 aluminium).
      { unfold scale_layer. cbn [ly_chemical ly_thickness ly_interface aluminium omap scale_interface]. rewrite !Rmult_1_l.
        f_equal. f_equal. apply FunctionalExtensionality.functional_extensionality. intros w. rewrite Rdiv_1. reflexivity. }
      cbn [scale_alayer map omap] in *. rewrite E in H. exact H. }
    split.
    { assert (H := aperture_scale 1000 (fun _ _ _ => true) (mkApertureObj (Circular (1 * 10)) true false None true) ltac:(lra) (fun _ _ _ => eq_refl)).
      unfold grating, iris, scale_aperture in *. cbn [sf_aperture same_option ao_is_length ao_shape ao_active ao_inverted ao_transformation scale_shape] in *.
      replace (1000 * (1 * 10)) with (1000 * 10) in H by ring. exact H. }
    split; [|exact I].
    { assert (H := rulings_scale 1000 (Square (1 * (1/1000000))) 1 _ _ ltac:(lra) (rul_unit 1000)).
      unfold grating, grooves. cbn [sf_rulings same_option scale_profile] in *.
      replace (1000 * (1 * (1 / 1000))) with (1000 * (1 / 1000)) in H by ring. replace (1000 * (1 * (1 / 1000000))) with (1000 * (1 / 1000000)) in H by ring. exact H. }
Qed.
Lemma grating_struck : r_position (propagate_rays surface_propagate (Sequence (spectrograph 1)) falling) = Some (V3 4 0 2).
Proof.
  unfold propagate_rays, spectrograph. cbn [as_list propagate_list].
  destruct (window_step (V3 0 0 (1 * 3)) falling (V3 4 0 8) (V3 0 0 (-1)) eq_refl eq_refl eq_refl ltac:(unfold is_unit, norm2, dot; cbn; lra) ltac:(cbn; lra)) as (_ & D & P).
  set (r := surface_propagate (window _) falling) in *.
  assert (P' : r_position r = Some (V3 4 0 3)) by (rewrite P; f_equal; apply vec_eq; cbn; lra).
  assert (S : sphere_intercept (1 * 5) (V3 4 0 3) (V3 0 0 (-1)) = Some (V3 4 0 2)).
  { unfold sphere_intercept. cbn [vx vy vz]. unfold osqrt. destruct (Rle_dec _ _) as [_|X]; [|exfalso; apply X; lra].
    cbn [obind]. match goal with |- context [sqrt ?e] => replace (sqrt e) with 3 by (replace e with (3 * 3) by lra; rewrite sqrt_square by lra; reflexivity) end.
    replace (rsign (1 * 5 * -1)) with (-1) by (unfold rsign; destruct (Rlt_dec _ _); [exfalso; lra|]; destruct (Rlt_dec _ _); [reflexivity|exfalso; lra]).
    f_equal. apply vec_eq; cbn; lra. }
  unfold surface_propagate, grating. cbn [sf_transformation apply_transformation apply_inverse].
  unfold surface_local. cbn [sf_aperture]. unfold clip_rays. cbn [r_position set_unvignetted].
  unfold surface_incident. cbn [sf_rulings]. unfold rulings_effective. cbn [set_direction r_position].
  unfold sag_propagate. cbn [sf_sag]. cbn [set_intensity set_position r_position]. rewrite P', D. cbn [obind]. exact S.
Qed.

(** ** The tolerance of the solver of the stop rays *)
Lemma tolerance_scales : forall k scale, 0 < k -> 1 <= scale -> 1 <= k * scale -> tolerance (k * scale) = k * tolerance scale.
Proof. intros k scale K A B. unfold tolerance. rewrite !Rmax_left by lra. ring. Qed.
Lemma tolerance_unit : exists k scale, 0 < k /\ 0 < scale /\ tolerance (k * scale) = k * tolerance scale / 100.
Proof. exists 1000, (1/100). split; [lra|]. split; [lra|]. unfold tolerance. rewrite Rmax_left, Rmax_right by lra. lra. Qed.
Lemma conic_unit : exists o u x x', is_unit u /\
  conic_intercept 1 (-1) o u = Some x /\
  conic_intercept (10 ^ 9 * 1) (-1) (vscale (10 ^ 9) o) u = Some x' /\
  10 ^ 5 < vlen (vsub x' (vscale (10 ^ 9) x)).
Proof.
  destruct in_nanometres as (x' & E & D). exists (vsub hit low), low, hit, x'. split; [exact low_unit|]. split; [exact in_metres|].
  split; [exact E|]. unfold nanometres in D. lra.
Qed.
