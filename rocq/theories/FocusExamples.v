(** Rays for the theorems about sharp images. *)
From Coq Require Import Reals Lra List.
From Verif Require Import Vec VecLemmas Num NumLemmas RayModel SurfaceModel MaterialModel SagModel SagSpec
  SagInterceptProofs SagMoreProofs SequenceSpec SequenceProofs FocusSpec FocusProofs.
Import ListNotations.
Open Scope R_scope.

Definition no_solver (o u : vec3) : option R := None.
Definition glass_material (n : R) : material := mkMaterial (fun _ => n) (fun _ => 0) (fun _ _ => Some 1) false.
Definition light (n : R) (x d : vec3) : ray := mkRay 1 (Some x) (Some d) (Some 1) 0 n true.
Definition bare (m : material) (c : sag_class) (t : option rigid) : surface :=
  mkSurface (make_sag no_solver c None) m None None t.

(** An intercept from the values of the discriminant and of the roots. *)
Lemma conic_root_value c k o u sign s t : conic_degenerate c k u = false -> 0 <= s ->
  conic_disc c k o u = s * s -> 2 * conic_a c k u <> 0 -> - conic_b c k o u + sign * s = t * (2 * conic_a c k u) ->
  conic_root c k o u sign =
  (let q := ray_at o u t in
   if Rle_dec 0 (vz q * (c * (vx q * vx q + vy q * vy q) - vz q)) then Some t else None).
Proof.
  intros Hd Hs Hdisc Ha Ht. unfold conic_root. cbv zeta. rewrite Hdisc, Hd.
  destruct (Rle_dec 0 (s * s)) as [_|H]; [|exfalso; apply H; nra]. cbn [obind].
  rewrite sqrt_square by auto. rewrite Ht, odiv_nz by auto. cbn [obind].
  replace (t * (2 * conic_a c k u) / (2 * conic_a c k u)) with t by (field; lra). reflexivity.
Qed.
Lemma not_degenerate c k u : 1 / 1000 < Rabs (conic_a c k u) -> conic_degenerate c k u = false.
Proof. intros H. unfold conic_degenerate. destruct (Rlt_dec _ _); auto. exfalso; lra. Qed.
Lemma nd_pos c k u v : conic_a c k u = v -> 1 / 1000 < v -> conic_degenerate c k u = false.
Proof. intros E H. apply not_degenerate. rewrite E, Rabs_right by lra. auto. Qed.

Ltac num := unfold conic_disc, conic_a, conic_b, conic_cc, ray_at; vec_unfold; try lra; try (field; lra).

(** ** An ellipsoid with semi-axes 5 and 4: the foci are 2 and 8 from the vertex. *)
Definition ellipsoid : surface := bare mirror (ConicSag (16/5) (- (3/5 * (3/5)))) None.
Definition from_focus : ray := light 1 (V3 0 0 2) (V3 (12/13) 0 (-5/13)).
Lemma ellipsoid_hit : conic_intercept (16/5) (- (3/5 * (3/5))) (V3 0 0 2) (V3 (12/13) 0 (-5/13)) = Some (V3 (12/5) 0 1).
Proof.
  unfold conic_intercept. rewrite odiv_nz by lra. cbn [obind].
  assert (Hnd : conic_degenerate (1 / (16/5)) (- (3/5 * (3/5))) (V3 (12/13) 0 (-5/13)) = false)
    by (apply (nd_pos _ _ _ (50/169)); [num|lra]).
  unfold conic_t.
  rewrite (conic_root_value _ _ _ _ (-1) 2 (-104/25)) by (auto; num).
  rewrite (conic_root_value _ _ _ _ 1 2 (13/5)) by (auto; num). cbv zeta.
  destruct (Rle_dec 0 _) as [_|H]; [|exfalso; apply H; num].
  destruct (Rle_dec 0 _) as [_|H]; [|exfalso; apply H; num].
  rewrite (Rabs_left (-104/25)), (Rabs_right (13/5)) by lra.
  destruct (Rle_dec _ _) as [H|_]; [exfalso; lra|]. cbn [obind]. f_equal. apply vec_eq; num.
Qed.
Lemma ellipsoid_sag : conic_z (16/5) (- (3/5 * (3/5))) (12/5) 0 = Some 1.
Proof.
  unfold conic_z. rewrite odiv_nz by lra. cbn [obind].
  replace (1 - (1 + - (3/5 * (3/5))) * (1 / (16/5) * (1 / (16/5))) * (12/5 * (12/5) + 0 * 0)) with (4/5 * (4/5)) by field.
  rewrite osqrt_sq by lra. cbn [obind]. rewrite odiv_nz by lra. f_equal. field.
Qed.
Lemma ellipsoid_hits : hits (ConicSag (16/5) (- (3/5 * (3/5)))) ellipsoid from_focus.
Proof.
  exists (V3 0 0 2), (V3 (12/13) 0 (-5/13)), (V3 (12/5) 0 1). split; [reflexivity|]. split; [reflexivity|].
  split; [unfold is_unit; num|]. split; [exact ellipsoid_hit|]. split; [exact ellipsoid_sag|].
  cbn. split; lra.
Qed.
Lemma ellipsoid_shaped : shaped no_solver (ConicSag (16/5) (- (3/5 * (3/5)))) ellipsoid /\ reflects ellipsoid.
Proof. repeat split; cbn; auto. Qed.
Lemma ellipsoid_aimed : aimed from_focus (place ellipsoid (focus (16/5) (3/5))).
Proof.
  eexists _, _. split; [reflexivity|]. split; [reflexivity|]. split; [unfold is_unit; num|].
  exists 0. unfold place, focus; cbn [sf_transformation ellipsoid bare]. apply vec_eq; num.
Qed.

(** A sphere of radius 10 around the second focus sends the light back there. *)
Definition retro : surface := bare mirror (SphericalSag (-10)) (Some (mkRigid mid (V3 0 0 18))).
Lemma mid_rigid v : is_rigid (mkRigid mid v).
Proof. unfold is_rigid, orthogonal. cbn. unfold mmul, mtrans, mid, dot; cbn. f_equal; f_equal; ring. Qed.
Lemma retro_hit : sphere_intercept (-10) (V3 (12/5) 0 (-17)) (V3 (-12/37) 0 (35/37)) = Some (V3 (-120/37) 0 (-10 + 350/37)).
Proof.
  unfold sphere_intercept; cbn [vx vy vz].
  match goal with |- context [osqrt ?x] => replace x with (10 * 10) by field end.
  rewrite osqrt_sq by lra. cbn [obind]. rewrite rsign_neg by lra. f_equal. apply vec_eq; num.
Qed.
Lemma after_ellipsoid : r_position (surface_propagate ellipsoid from_focus) = Some (V3 (12/5) 0 1) /\
  r_direction (surface_propagate ellipsoid from_focus) = Some (V3 (-12/37) 0 (35/37)).
Proof.
  assert (Hi : interior (ConicSag (16/5) (- (3/5 * (3/5)))) (12/5) 0) by (cbn; split; lra).
  destruct (conic_normal_gradient (16/5) (- (3/5 * (3/5))) (V3 (12/5) 0 1) Hi ellipsoid_sag)
    as (n & l & Hn & Hnu & _ & Enl & _).
  assert (Hl : l * l = 625/7696).
  { unfold is_unit in Hnu. rewrite Enl in Hnu. unfold norm2, gradient in Hnu. rewrite dot_scale_l, dot_scale_r in Hnu.
    unfold dot in Hnu; cbn [vx vy vz] in Hnu. lra. }
  assert (E := SnellProofs.snells_law_reflect_pos (V3 (12/13) 0 (-5/13)) 1 n Rlt_0_1 Hnu ltac:(unfold is_unit; num)).
  assert (Eb : vsub (V3 (12/13) 0 (-5/13)) (vscale (2 * dot (V3 (12/13) 0 (-5/13)) n) n) = V3 (-12/37) 0 (35/37)).
  { rewrite Enl. unfold gradient; cbn [vx vy vz].
    rewrite dot_scale_r.
    transitivity (vsub (V3 (12/13) 0 (-5/13)) (vscale (2 * (l * l) * dot (V3 (12/13) 0 (-5/13)) (V3 (12/5) 0 ((1 + - (3/5 * (3/5))) * 1 - 16/5)))
       (V3 (12/5) 0 ((1 + - (3/5 * (3/5))) * 1 - 16/5)))).
    - vec_ring.
    - rewrite Hl. apply vec_eq; num. }
  rewrite Eb in E.
  assert (Hpos : r_position (surface_incident ellipsoid from_focus) = Some (V3 (12/5) 0 1)) by exact ellipsoid_hit.
  change (surface_propagate ellipsoid from_focus) with (surface_local ellipsoid from_focus).
  unfold surface_local; cbn [sf_aperture ellipsoid bare r_position r_direction]. fold ellipsoid.
  split; [exact Hpos|].
  change (r_direction (surface_incident ellipsoid from_focus)) with (Some (V3 (12/13) 0 (-5/13))). cbn [obind].
  unfold surface_normal. rewrite Hpos. cbn [obind].
  change (sag_normal (sf_sag ellipsoid) (V3 (12/5) 0 1)) with (conic_normal (16/5) (- (3/5 * (3/5))) (V3 (12/5) 0 1)).
  rewrite Hn. cbn [obind]. exact E.
Qed.

Definition pair_of_mirrors : list conic_mirror :=
  [ {| cm_class := ConicSag (16/5) (- (3/5 * (3/5))); cm_radius := 16/5; cm_eccentricity := 3/5; cm_surface := ellipsoid |};
    {| cm_class := SphericalSag (-10); cm_radius := -10; cm_eccentricity := 0; cm_surface := retro |} ].
Lemma ex_relayed : relayed no_solver (V3 0 0 2) pair_of_mirrors from_focus (V3 0 0 8).
Proof.
  cbn [relayed pair_of_mirrors cm_class cm_radius cm_eccentricity cm_surface].
  split; [lra|]. split; [lra|]. split; [left; reflexivity|]. split; [apply ellipsoid_shaped|].
  split; [apply ellipsoid_shaped|]. split; [exact ellipsoid_hits|].
  split; [unfold place, focus; cbn [sf_transformation ellipsoid bare]; apply vec_eq; num|].
  split; [lra|]. split; [lra|]. split; [right; left; split; [reflexivity|ring]|].
  split; [repeat split; cbn; apply mid_rigid|]. split; [repeat split|].
  split; [|split].
  - destruct after_ellipsoid as [Hp Hd].
    exists (V3 (12/5) 0 (-17)), (V3 (-12/37) 0 (35/37)), (V3 (-120/37) 0 (-10 + 350/37)).
    unfold retro at 1 2; cbn [sf_transformation bare apply_inverse]. unfold ray_transform; cbn [r_position r_direction].
    rewrite Hp, Hd. cbn [omap]. split; [f_equal; unfold rigid_point, rigid_inv, mtrans, mid; cbn; apply vec_eq; num|].
    split; [f_equal; unfold rigid_vector, rigid_inv, mtrans, mid; cbn; apply vec_eq; num|].
    split; [unfold is_unit; num|]. split; [exact retro_hit|]. split.
    + unfold on_graph; cbn [class_z vx vy vz]. unfold sphere_z. rewrite odiv_nz by lra. cbn [obind].
      replace (1 - 1 / -10 * (1 / -10) * (-120/37 * (-120/37) + 0 * 0)) with (35/37 * (35/37)) by field.
      rewrite osqrt_sq by lra. cbn [obind]. rewrite odiv_nz by lra. f_equal. field.
    + cbn. split; lra.
  - unfold place, focus; cbn [sf_transformation ellipsoid retro bare]. unfold rigid_point; cbn. apply vec_eq; num.
  - unfold place, focus; cbn [sf_transformation retro bare]. unfold rigid_point; cbn. apply vec_eq; num.
Qed.

(** ** A tilted paraboloid of focal length 2 and a ray along its axis. *)
Definition dish : surface := bare mirror (ParabolicSag (4/2)) (Some SagMoreProofs.tilt345).
Definition starlight : ray := ray_transform SagMoreProofs.tilt345 (light 1 (V3 4 0 (-5)) (V3 0 0 1)).
Lemma dish_sag : on_graph (class_z (ParabolicSag (4/2))) (V3 4 0 2).
Proof. apply SagInterceptProofs.parabola_graph; [lra|]. cbn. lra. Qed.
Lemma dish_shaped : shaped no_solver (ParabolicSag (4/2)) dish /\ reflects dish.
Proof. repeat split; cbn; auto. apply SagMoreProofs.tilt345_rigid. Qed.
Lemma ex_dish : conic_class (ParabolicSag (4/2)) 4 (-1) /\ shaped no_solver (ParabolicSag (4/2)) dish /\ reflects dish /\
  hits (ParabolicSag (4/2)) dish starlight /\ parallel starlight (axis dish).
Proof.
  split; [right; right; auto|]. split; [apply dish_shaped|]. split; [apply dish_shaped|]. split.
  - exists (V3 4 0 (-5)), (V3 0 0 1), (V3 4 0 2).
    cbn [sf_transformation dish bare apply_inverse]. unfold starlight.
    rewrite ray_transform_inv by apply SagMoreProofs.tilt345_rigid.
    split; [reflexivity|]. split; [reflexivity|]. split; [unfold is_unit; num|]. split; [|split].
    + cbn. unfold parabola_intercept; cbn [vx vy vz].
      destruct (Rlt_dec _ _) as [H|_]; [exfalso; lra|]. rewrite odiv_nz by lra. cbn [obind]. f_equal. apply vec_eq; num.
    + exact dish_sag.
    + cbn. lra.
  - eexists. split; [reflexivity|]. left. reflexivity.
Qed.
(** A source at the focus. *)
Lemma dish_hit' : parabola_intercept (4/2) (V3 0 0 2) (V3 (4/5) 0 (-3/5)) = Some (V3 2 0 (1/2)).
Proof.
  unfold parabola_intercept; cbn [vx vy vz].
  destruct (Rlt_dec _ _) as [_|H]; [|exfalso; apply H; lra].
  match goal with |- context [osqrt ?x] => replace x with (4 * 4) by field end.
  rewrite osqrt_sq by lra. cbn [obind]. rewrite rsign_neg by lra. rewrite odiv_nz by lra. cbn [obind].
  f_equal. apply vec_eq; num.
Qed.
Definition lamplight : ray := ray_transform SagMoreProofs.tilt345 (light 1 (V3 0 0 2) (V3 (4/5) 0 (-3/5))).
Lemma ex_lamp : hits (ParabolicSag (4/2)) dish lamplight /\ aimed lamplight (place dish (V3 0 0 (4/2))).
Proof.
  split.
  - exists (V3 0 0 2), (V3 (4/5) 0 (-3/5)), (V3 2 0 (1/2)).
    cbn [sf_transformation dish bare apply_inverse]. unfold lamplight.
    rewrite ray_transform_inv by apply SagMoreProofs.tilt345_rigid.
    split; [reflexivity|]. split; [reflexivity|]. split; [unfold is_unit; num|]. split; [exact dish_hit'|]. split.
    + apply SagInterceptProofs.parabola_graph; [lra|]. cbn. lra.
    + cbn. lra.
  - eexists _, _. split; [reflexivity|]. split; [reflexivity|]. split.
    + apply mapply_unit; [apply SagMoreProofs.tilt345_rigid|unfold is_unit; num].
    + exists 0. unfold place; cbn [sf_transformation dish bare]. unfold rigid_point, SagMoreProofs.tilt345; cbn. apply vec_eq; num.
Qed.

(** ** A lens of index 3/2 *)
Definition lens_class : sag_class := ConicSag (7/9) (- (2/3 * (2/3))).
Lemma lens_sag : on_graph (class_z lens_class) (V3 1 0 1).
Proof.
  unfold on_graph; cbn [class_z lens_class vx vy vz]. unfold conic_z. rewrite odiv_nz by lra. cbn [obind].
  replace (1 - (1 + - (2/3 * (2/3))) * (1 / (7/9) * (1 / (7/9))) * (1 * 1 + 0 * 0)) with (2/7 * (2/7)) by field.
  rewrite osqrt_sq by lra. cbn [obind]. rewrite odiv_nz by lra. f_equal. field.
Qed.
Definition lens : surface := bare (glass_material (3/2)) lens_class None.
Definition beam : ray := light 1 (V3 1 0 (-1)) (V3 0 0 1).
Lemma ex_lens : conic_class lens_class (7/9) (- (r_index beam / (3/2) * (r_index beam / (3/2)))) /\
  shaped no_solver lens_class lens /\ mat_is_mirror (sf_material lens) = false /\ r_index beam <> 3/2 /\
  3/2 = r_index (surface_propagate lens beam) /\ hits lens_class lens beam /\ parallel beam (axis lens).
Proof.
  split; [left; cbn; unfold lens_class; f_equal; field|]. split; [repeat split|]. split; [reflexivity|].
  split; [cbn; lra|]. split; [reflexivity|]. split.
  - exists (V3 1 0 (-1)), (V3 0 0 1), (V3 1 0 1). split; [reflexivity|]. split; [reflexivity|].
    split; [unfold is_unit; num|]. split; [|split; [exact lens_sag|cbn; split; lra]].
    cbn. unfold conic_intercept. rewrite odiv_nz by lra. cbn [obind].
    assert (Hnd : conic_degenerate (1 / (7/9)) (- (2/3 * (2/3))) (V3 0 0 1) = false)
      by (apply (nd_pos _ _ _ (5/7)); [num|lra]).
    unfold conic_t.
    rewrite (conic_root_value _ _ _ _ (-1) (4/7) 2) by (auto; num).
    rewrite (conic_root_value _ _ _ _ 1 (4/7) (14/5)) by (auto; num). cbv zeta.
    destruct (Rle_dec 0 _) as [_|H]; [|exfalso; apply H; num].
    destruct (Rle_dec 0 _) as [H|_]; [exfalso; revert H; num|].
    cbn [obind]. f_equal. apply vec_eq; num.
  - eexists. split; [reflexivity|]. left; reflexivity.
Qed.
(** The same surface seen from inside of the glass. *)
Definition exit_face : surface := bare (glass_material 1) lens_class None.
Definition inside : ray := light (3/2) (V3 0 0 (7/3)) (V3 (3/5) 0 (-4/5)).
Lemma ex_exit : conic_class lens_class (7/9) (- (1 / r_index inside * (1 / r_index inside))) /\
  shaped no_solver lens_class exit_face /\ mat_is_mirror (sf_material exit_face) = false /\ r_index inside <> 1 /\
  1 = r_index (surface_propagate exit_face inside) /\ hits lens_class exit_face inside /\
  aimed inside (place exit_face (V3 0 0 (7/9 * r_index inside / (r_index inside - 1)))).
Proof.
  split; [left; cbn; unfold lens_class; f_equal; field|]. split; [repeat split|]. split; [reflexivity|].
  split; [cbn; lra|]. split; [reflexivity|]. split.
  - exists (V3 0 0 (7/3)), (V3 (3/5) 0 (-4/5)), (V3 1 0 1). split; [reflexivity|]. split; [reflexivity|].
    split; [unfold is_unit; num|]. split; [|split; [exact lens_sag|cbn; split; lra]].
    cbn. unfold conic_intercept. rewrite odiv_nz by lra. cbn [obind].
    assert (Hnd : conic_degenerate (1 / (7/9)) (- (2/3 * (2/3))) (V3 (3/5) 0 (-4/5)) = false)
      by (apply (nd_pos _ _ _ (23/25)); [num|lra]).
    unfold conic_t.
    rewrite (conic_root_value _ _ _ _ (-1) 2 (-35/69)) by (auto; num).
    rewrite (conic_root_value _ _ _ _ 1 2 (5/3)) by (auto; num). cbv zeta.
    destruct (Rle_dec 0 _) as [H|_]; [exfalso; revert H; num|].
    destruct (Rle_dec 0 _) as [_|H]; [|exfalso; apply H; num].
    cbn [obind]. f_equal. apply vec_eq; num.
  - eexists _, _. split; [reflexivity|]. split; [reflexivity|]. split; [unfold is_unit; num|].
    exists 0. unfold place; cbn [sf_transformation exit_face bare r_index inside light]. apply vec_eq; num.
Qed.

(** ** A ball of radius 25 and index 1.52 *)
Definition ball : surface := bare (glass_material (38/25)) (SphericalSag 25) None.
Definition converging : ray := light 1 (V3 32 0 3) (V3 (-8/17) 0 (15/17)).
Lemma ex_ball : conic_class (SphericalSag 25) 25 0 /\ shaped no_solver (SphericalSag 25) ball /\
  mat_is_mirror (sf_material ball) = false /\ 38/25 = r_index (surface_propagate ball converging) /\
  hits (SphericalSag 25) ball converging /\
  aimed converging (place ball (V3 0 0 (25 + 25 * (38/25 / r_index converging)))).
Proof.
  split; [right; left; auto|]. split; [repeat split|]. split; [reflexivity|]. split; [reflexivity|]. split.
  - exists (V3 32 0 3), (V3 (-8/17) 0 (15/17)), (V3 24 0 18). split; [reflexivity|]. split; [reflexivity|].
    split; [unfold is_unit; num|]. split; [|split; [|cbn; split; lra]].
    + cbn. unfold sphere_intercept; cbn [vx vy vz].
      match goal with |- context [osqrt ?x] => replace x with (297/17 * (297/17)) by field end.
      rewrite osqrt_sq by lra. cbn [obind]. rewrite rsign_pos by lra. f_equal. apply vec_eq; num.
    + unfold on_graph; cbn [class_z vx vy vz]. unfold sphere_z. rewrite odiv_nz by lra. cbn [obind].
      replace (1 - 1 / 25 * (1 / 25) * (24 * 24 + 0 * 0)) with (7/25 * (7/25)) by field.
      rewrite osqrt_sq by lra. cbn [obind]. rewrite odiv_nz by lra. f_equal. field.
  - eexists _, _. split; [reflexivity|]. split; [reflexivity|]. split; [unfold is_unit; num|].
    exists 68. unfold place; cbn [sf_transformation ball bare r_index converging light]. apply vec_eq; num.
Qed.
