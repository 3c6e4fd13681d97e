(** Rays for the theorems about invariants. *)
From Coq Require Import Reals Lra List Psatz.
From Verif Require Import Vec VecLemmas Num NumLemmas RayModel SurfaceModel MaterialModel SnellModel SnellSpec SnellProofs
  SagModel SagSpec SequenceSpec SequenceProofs FocusSpec FocusProofs FocusExamples InvariantSpec InvariantProofs.
Import ListNotations.
Open Scope R_scope.

Definition place_vector (s : surface) (d : vec3) : vec3 :=
  match sf_transformation s with None => d | Some t => rigid_vector t d end.
Lemma bare_out m c t r x d q n n2 b : let s := bare m c t in
  r_position r = Some x -> r_direction r = Some d ->
  class_intercept no_solver c (local_point s x) (local_vector s d) = Some q -> class_normal c q = Some n ->
  (forall r', r_index r' = r_index r -> mat_index m r' = n2) ->
  snells_law (local_vector s d) (r_index r) n2 (mat_is_mirror m) n = Some b ->
  r_position (surface_propagate s r) = Some (place s q) /\
  r_direction (surface_propagate s r) = Some (place_vector s b) /\ r_index (surface_propagate s r) = n2.
Proof.
  intros s Hx Hd Hq Hn Hm Hb.
  assert (Ho : r_position (apply_inverse t r) = Some (local_point s x)).
  { unfold s, local_point; cbn [sf_transformation bare]. destruct t as [t|]; cbn [apply_inverse]; [|auto].
    unfold ray_transform; cbn [r_position]. rewrite Hx. cbn [omap]. f_equal. unfold rigid_point, rigid_inv; cbn [rg_mat rg_shift].
    rewrite mapply_sub. vec_ring. }
  assert (Hu : r_direction (apply_inverse t r) = Some (local_vector s d)).
  { unfold s, local_vector; cbn [sf_transformation bare]. destruct t as [t|]; cbn [apply_inverse]; [|auto].
    unfold ray_transform; cbn [r_direction]. rewrite Hd. reflexivity. }
  assert (Hi : r_index (apply_inverse t r) = r_index r) by (destruct t; reflexivity).
  set (r' := apply_inverse t r) in *.
  assert (P : r_position (surface_incident s r') = Some q).
  { change (obind (r_position r') (fun x => obind (r_direction r') (fun d => sag_intercept (sf_sag s) x d)) = Some q).
    rewrite Ho, Hu. cbn [obind]. rewrite <- Hq. unfold s. cbn. destruct c; reflexivity. }
  assert (D : r_direction (surface_local s r') = Some b).
  { unfold surface_local. cbn [sf_aperture s bare r_direction].
    change (r_direction (surface_incident s r')) with (r_direction r'). rewrite Hu. cbn [obind].
    unfold surface_normal. rewrite P. cbn [obind].
    change (sag_normal (sf_sag s) q) with (class_normal c q). rewrite Hn. cbn [obind].
    change (sf_material s) with m. rewrite (Hm (surface_incident s r')) by exact Hi.
    change (r_index (surface_incident s r')) with (r_index r'). rewrite Hi. exact Hb. }
  assert (P' : r_position (surface_local s r') = Some q) by exact P.
  assert (I : r_index (surface_local s r') = n2).
  { unfold surface_local. cbn [sf_aperture s bare r_index]. change (sf_material s) with m. apply Hm. exact Hi. }
  unfold surface_propagate, place, place_vector. change (sf_transformation s) with t. fold r'.
  destruct t as [t|]; cbn [apply_transformation]; [|auto].
  unfold ray_transform; cbn [r_position r_direction r_index]. rewrite P', D, I. auto.
Qed.

Ltac vnum := vec_unfold; try lra; try (field; lra).
Ltac refracted := apply snells_law_complete; try lra; [unfold is_unit; vnum | vnum | unfold is_unit; vnum
  | unfold tangential; apply vec_eq; vnum | vnum].

(** ** A skew ray through a plane and onto a sphere *)
Definition liquid : surface := bare (glass_material (3/4)) NoSag None.
Definition ball : surface := bare mirror (SphericalSag (-9/4)) (Some (mkRigid mid (V3 0 1 2))).
Definition skew : ray := light 1 (V3 0 0 (-1)) (V3 (3/5) 0 (4/5)).
Lemma after_liquid : r_position (surface_propagate liquid skew) = Some (V3 (3/4) 0 0) /\
  r_direction (surface_propagate liquid skew) = Some (V3 (4/5) 0 (3/5)) /\ r_index (surface_propagate liquid skew) = 3/4.
Proof.
  apply (bare_out (glass_material (3/4)) NoSag None skew (V3 0 0 (-1)) (V3 (3/5) 0 (4/5)) (V3 (3/4) 0 0) (V3 0 0 (-1)) (3/4));
    try reflexivity.
  - cbn. unfold flat_intercept; cbn [vx vy vz]. rewrite odiv_nz by lra. cbn [obind]. f_equal. apply vec_eq; vnum.
  - change (snells_law (V3 (3/5) 0 (4/5)) 1 (3/4) false (V3 0 0 (-1)) = Some (V3 (4/5) 0 (3/5))). refracted.
Qed.
Lemma ball_local : local_point ball (V3 (3/4) 0 0) = V3 (3/4) (-1) (-2) /\ local_vector ball (V3 (4/5) 0 (3/5)) = V3 (4/5) 0 (3/5).
Proof. unfold local_point, local_vector, ball, mid, mtrans, mapply; cbn. split; apply vec_eq; vnum. Qed.
Lemma ball_hit : sphere_intercept (-9/4) (V3 (3/4) (-1) (-2)) (V3 (4/5) 0 (3/5)) = Some (V3 (7/4) (-1) (-5/4)).
Proof.
  unfold sphere_intercept; cbn [vx vy vz].
  match goal with |- context [osqrt ?x] => replace x with (2 * 2) by field end.
  rewrite osqrt_sq by lra. cbn [obind]. rewrite rsign_neg by lra. f_equal. apply vec_eq; vnum.
Qed.
Lemma ball_hits : hits (SphericalSag (-9/4)) ball (surface_propagate liquid skew).
Proof.
  destruct after_liquid as (Hp & Hd & _).
  exists (V3 (3/4) (-1) (-2)), (V3 (4/5) 0 (3/5)), (V3 (7/4) (-1) (-5/4)).
  unfold ball at 1 2; cbn [sf_transformation bare apply_inverse]. unfold ray_transform; cbn [r_position r_direction].
  rewrite Hp, Hd. cbn [omap]. split; [f_equal; unfold rigid_point, rigid_inv, mtrans, mid; cbn; apply vec_eq; vnum|].
  split; [f_equal; unfold rigid_vector, rigid_inv, mtrans, mid; cbn; apply vec_eq; vnum|].
  split; [unfold is_unit; vnum|]. split; [exact ball_hit|]. split.
  - unfold on_graph; cbn [class_z vx vy vz]. unfold sphere_z. rewrite odiv_nz by lra. cbn [obind].
    match goal with |- context [osqrt ?x] => replace x with (4/9 * (4/9)) by field end.
    rewrite osqrt_sq by lra. cbn [obind]. rewrite odiv_nz by lra. f_equal. field.
  - cbn. split; lra.
Qed.
Definition skew_system : list (sag_class * surface) := [(NoSag, liquid); (SphericalSag (-9/4), ball)].
Lemma ex_turning : turning no_solver (V3 0 1 0) (V3 0 0 1) skew_system skew /\ moment (V3 0 1 0) (V3 0 0 1) (V3 0 0 (-1)) (V3 (3/5) 0 (4/5)) = 3/5 /\
  exists b, r_direction (propagate_rays surface_propagate (Sequence (map snd skew_system)) skew) = Some b.
Proof.
  split; [|split].
  - cbn [turning skew_system]. split; [repeat split|]. split; [cbn; lra|]. split; [exact I|].
    split; [repeat split; cbn; apply mid_rigid|]. split; [|split; [exact ball_hits|exact I]].
    exists (-1/4). unfold local_point, local_vector, ball, mid, mtrans, mapply; cbn. apply vec_eq; vnum.
  - unfold moment. vnum.
  - destruct after_liquid as (Hp & Hd & Hi). destruct ball_local as [L1 L2].
    unfold propagate_rays; cbn [as_list map snd skew_system propagate_list].
    set (r := surface_propagate liquid skew) in *.
    set (n := V3 (-7/9) (4/9) (-4/9)).
    assert (U : is_unit n) by (unfold n, is_unit; vnum).
    assert (U' : is_unit (V3 (4/5) 0 (3/5))) by (unfold is_unit; vnum).
    destruct (bare_out mirror (SphericalSag (-9/4)) (Some (mkRigid mid (V3 0 1 2))) r _ _ (V3 (7/4) (-1) (-5/4)) n (r_index r)
      (vsub (V3 (4/5) 0 (3/5)) (vscale (2 * dot (V3 (4/5) 0 (3/5)) n) n)) Hp Hd) as (_ & E & _).
    + fold ball. rewrite L1, L2. exact ball_hit.
    + cbn [class_normal]. unfold sphere_normal; cbn [vx vy vz]. rewrite odiv_nz by lra. cbn [obind].
      match goal with |- context [osqrt ?x] => replace x with (4/9 * (4/9)) by field end.
      rewrite osqrt_sq by lra. cbn [obind]. unfold n. f_equal. apply vec_eq; vnum.
    + intros r' H; exact H.
    + fold ball. rewrite L2. apply snells_law_reflect_pos; auto. rewrite Hi. lra.
    + eexists. exact E.
Qed.

(** ** A cylinder *)
Definition gutter : surface := bare mirror (CylindricalSag 5) None.
Definition oblique : ray := light 1 (V3 3 0 (-3)) (V3 0 (3/5) (4/5)).
Lemma ex_sliding : sliding no_solver (V3 0 1 0) [(CylindricalSag 5, gutter)] /\ dot (V3 0 (3/5) (4/5)) (V3 0 1 0) <> 0 /\
  exists b, r_direction (propagate_rays surface_propagate (Sequence (map snd [(CylindricalSag 5, gutter)])) oblique) = Some b.
Proof.
  split; [|split].
  - repeat constructor.
  - vnum.
  - unfold propagate_rays; cbn [as_list map snd propagate_list].
    set (n := V3 (3/5) 0 (-4/5)).
    destruct (bare_out mirror (CylindricalSag 5) None oblique (V3 3 0 (-3)) (V3 0 (3/5) (4/5)) (V3 3 3 1) n 1
      (vsub (V3 0 (3/5) (4/5)) (vscale (2 * dot (V3 0 (3/5) (4/5)) n) n)) eq_refl eq_refl) as (_ & E & _).
    + cbn. unfold cylinder_intercept. vec_unfold.
      destruct (Rlt_dec _ _) as [_|H]; [|exfalso; apply H; lra].
      match goal with |- context [sqrt ?x] => replace x with (16/5 * (16/5)) by field end.
      rewrite sqrt_square by lra. rewrite rsign_pos by lra. rewrite odiv_nz by lra. cbn [obind]. f_equal. apply vec_eq; vnum.
    + cbn [class_normal]. unfold cylinder_normal; cbn [vx vy vz]. rewrite odiv_nz by lra. cbn [obind].
      match goal with |- context [osqrt ?x] => replace x with (4/5 * (4/5)) by field end.
      rewrite osqrt_sq by lra. cbn [obind]. unfold n. f_equal. apply vec_eq; vnum.
    + intros r' H; exact H.
    + apply snells_law_reflect_pos; [cbn; lra|unfold n, is_unit; vnum|unfold is_unit; vnum].
    + eexists. exact E.
Qed.

(** ** Into a liquid, onto its bottom, and out again *)
Definition bottom : surface := bare mirror NoSag (Some (mkRigid mid (V3 0 0 3))).
Definition air : surface := bare vacuum NoSag None.
Definition pond : list surface := [liquid; bottom; air].
Lemma after_bottom r : r_position r = Some (V3 (3/4) 0 0) -> r_direction r = Some (V3 (4/5) 0 (3/5)) -> r_index r = 3/4 ->
  r_position (surface_propagate bottom r) = Some (V3 (19/4) 0 3) /\
  r_direction (surface_propagate bottom r) = Some (V3 (4/5) 0 (-3/5)) /\ r_index (surface_propagate bottom r) = 3/4.
Proof.
  intros Hp Hd Hi.
  assert (L1 : local_point bottom (V3 (3/4) 0 0) = V3 (3/4) 0 (-3)) by (unfold local_point, bottom, mid, mtrans, mapply; cbn; apply vec_eq; vnum).
  assert (L2 : local_vector bottom (V3 (4/5) 0 (3/5)) = V3 (4/5) 0 (3/5)) by (unfold local_vector, bottom, mid, mtrans, mapply; cbn; apply vec_eq; vnum).
  destruct (bare_out mirror NoSag (Some (mkRigid mid (V3 0 0 3))) r (V3 (3/4) 0 0) (V3 (4/5) 0 (3/5)) (V3 (19/4) 0 0) (V3 0 0 (-1)) (3/4)
    (V3 (4/5) 0 (-3/5)) Hp Hd) as (E1 & E2 & E3).
  - fold bottom. rewrite L1, L2. cbn. unfold flat_intercept; cbn [vx vy vz]. rewrite odiv_nz by lra. cbn [obind]. f_equal. apply vec_eq; vnum.
  - reflexivity.
  - intros r' E. cbn. rewrite E; exact Hi.
  - fold bottom. rewrite L2, Hi. change (mat_is_mirror mirror) with true. refracted.
  - fold bottom in *. split; [|split; [|exact E3]].
    + rewrite E1. unfold place, bottom, rigid_point, mid, mapply; cbn. f_equal. apply vec_eq; vnum.
    + rewrite E2. unfold place_vector, bottom, rigid_vector, mid, mapply; cbn. f_equal. apply vec_eq; vnum.
Qed.
Lemma ex_pond : List.Forall (plane no_solver (V3 0 0 1)) pond /\ mirrors pond = 1%nat /\
  r_index (propagate_rays surface_propagate (Sequence pond) skew) = r_index skew /\
  r_direction (propagate_rays surface_propagate (Sequence pond) skew) = Some (V3 (3/5) 0 (-4/5)).
Proof.
  split; [|split; [reflexivity|]].
  - assert (P : plane no_solver (V3 0 0 1) bottom).
    { split; [repeat split; cbn; apply mid_rigid|]. split; [|cbn; auto].
      left. unfold axis, rigid_vector, mid, mapply; cbn. apply vec_eq; vnum. }
    constructor; [|constructor; [exact P|constructor; [|constructor]]].
    + split; [repeat split|]. split; [left; reflexivity|cbn; intros; lra].
    + split; [repeat split|]. split; [left; reflexivity|cbn; intros; lra].
  - destruct after_liquid as (Hp & Hd & Hi). destruct (after_bottom _ Hp Hd Hi) as (Hp' & Hd' & Hi').
    unfold propagate_rays; cbn [as_list pond propagate_list].
    destruct (bare_out vacuum NoSag None _ (V3 (19/4) 0 3) (V3 (4/5) 0 (-3/5)) (V3 (35/4) 0 0) (V3 0 0 (-1)) 1 (V3 (3/5) 0 (-4/5)) Hp' Hd') as (_ & E2 & E3).
    + cbn. unfold flat_intercept; cbn [vx vy vz]. rewrite odiv_nz by lra. cbn [obind]. f_equal. apply vec_eq; vnum.
    + reflexivity.
    + reflexivity.
    + rewrite Hi'. change (snells_law (V3 (4/5) 0 (-3/5)) (3/4) 1 false (V3 0 0 (-1)) = Some (V3 (3/5) 0 (-4/5))). refracted.
    + split; [exact E3|exact E2].
Qed.

(** ** The corner of a cube *)
Definition wall (m : mat3) : surface := bare mirror NoSag (Some (mkRigid m (V3 0 0 0))).
Definition floor : surface := bare mirror NoSag None.
Definition wall_x : surface := wall (M3 (V3 0 0 1) (V3 1 0 0) (V3 0 1 0)).
Definition wall_y : surface := wall (M3 (V3 0 1 0) (V3 0 0 1) (V3 1 0 0)).
Definition incoming : ray := light 1 (V3 1 2 3) (V3 (2/3) (1/3) (2/3)).
Lemma flat_mirror_out s r x d : flat_mirror no_solver s -> sf_aperture s = None -> 0 < r_index r ->
  r_position r = Some x -> r_direction r = Some d -> is_unit d -> dot d (axis s) <> 0 ->
  exists x', r_position (surface_propagate s r) = Some x' /\ r_direction (surface_propagate s r) = Some (mirror_image (axis s) d).
Proof.
  intros Hs Ha Hr Hx Hd Hu Hn. assert (Hrig := proj2 (proj2 (proj1 Hs))).
  assert (exists b, r_direction (surface_propagate s r) = Some b).
  { assert (Ez : vz (local_vector s d) <> 0).
    { intro E. apply Hn. rewrite <- (local_dot s d _ Hrig), local_axis by auto. unfold dot; cbn [vx vy vz]. rewrite E. ring. }
    destruct s as [sag mat ap rul t]. cbn [sf_aperture] in Ha. subst ap. destruct Hs as [(Hs & Hru & Ht) [Hm Hmi]].
    cbn [sf_sag sf_rulings sf_material] in *. subst sag rul.
    set (q := vadd (local_point (bare mat NoSag t) x) (vscale (- vz (local_point (bare mat NoSag t) x) / vz (local_vector (bare mat NoSag t) d)) (local_vector (bare mat NoSag t) d))).
    destruct (bare_out mat NoSag t r x d q (V3 0 0 (-1)) (r_index r)
      (vsub (local_vector (bare mat NoSag t) d) (vscale (2 * dot (local_vector (bare mat NoSag t) d) (V3 0 0 (-1))) (V3 0 0 (-1)))) Hx Hd) as (_ & E & _).
    - cbn [class_intercept]. unfold flat_intercept. rewrite odiv_nz by exact Ez. reflexivity.
    - reflexivity.
    - intros r' E. rewrite Hmi. exact E.
    - rewrite Hm. apply snells_law_reflect_pos; auto; [unfold is_unit; vnum|].
      unfold is_unit, norm2. rewrite (local_dot (bare mat NoSag t)); auto.
    - eexists. exact E. }
  destruct H as [b Hb].
  destruct (mirror_step no_solver s r b Hs Hr) as (d' & Hd' & E & _); [congruence|exact Hb|].
  rewrite Hd in Hd'. injection Hd' as <-.
  destruct (global_step no_solver NoSag s r b (proj1 Hs) Hb) as (_ & _ & x' & _ & _ & _ & _ & Hx' & _).
  exists x'. split; [auto|]. congruence.
Qed.
Lemma ex_corner : List.Forall (flat_mirror no_solver) [floor; wall_x; wall_y] /\
  dot (axis floor) (axis wall_x) = 0 /\ dot (axis wall_x) (axis wall_y) = 0 /\ dot (axis wall_y) (axis floor) = 0 /\
  exists b, r_direction (propagate_rays surface_propagate (Sequence [floor; wall_x; wall_y]) incoming) = Some b.
Proof.
  assert (A : axis floor = V3 0 0 1) by reflexivity.
  assert (B : axis wall_x = V3 1 0 0) by (unfold axis; cbn; unfold rigid_vector, mapply; cbn; apply vec_eq; vnum).
  assert (C : axis wall_y = V3 0 1 0) by (unfold axis; cbn; unfold rigid_vector, mapply; cbn; apply vec_eq; vnum).
  assert (F : flat_mirror no_solver floor) by (repeat split).
  assert (F1 : flat_mirror no_solver wall_x) by (repeat split; cbn; unfold is_rigid, orthogonal; cbn; apply mat_eq; apply vec_eq; vnum).
  assert (F2 : flat_mirror no_solver wall_y) by (repeat split; cbn; unfold is_rigid, orthogonal; cbn; apply mat_eq; apply vec_eq; vnum).
  split; [repeat constructor; (apply F || apply F1 || apply F2)|].
  rewrite A, B, C. split; [vnum|]. split; [vnum|]. split; [vnum|].
  unfold propagate_rays; cbn [as_list propagate_list].
  destruct (flat_mirror_out floor incoming (V3 1 2 3) (V3 (2/3) (1/3) (2/3)) F) as (x1 & P1 & D1); try reflexivity;
    [cbn; lra|unfold is_unit; vnum|rewrite A; vnum|].
  assert (I1 : r_index (surface_propagate floor incoming) = 1) by reflexivity.
  set (r1 := surface_propagate floor incoming) in *. rewrite A in D1.
  destruct (flat_mirror_out wall_x r1 x1 _ F1 eq_refl ltac:(lra) P1 D1) as (x2 & P2 & D2);
    [unfold is_unit, mirror_image; vnum|rewrite B; unfold mirror_image; vnum|].
  assert (I2 : r_index (surface_propagate wall_x r1) = 1) by (rewrite (reflects_index _ _ (proj2 F1)); exact I1).
  set (r2 := surface_propagate wall_x r1) in *. rewrite B in D2.
  destruct (flat_mirror_out wall_y r2 x2 _ F2 eq_refl ltac:(lra) P2 D2) as (x3 & P3 & D3);
    [unfold is_unit, mirror_image; vnum|rewrite C; unfold mirror_image; vnum|].
  eexists. exact D3.
Qed.
