(** Rays for the theorems about optical lengths. *)
From Coq Require Import Reals Lra List Psatz.
From Coquelicot Require Import Coquelicot.
From Verif Require Import Vec VecLemmas Num NumLemmas RayModel SurfaceModel MaterialModel SnellModel SnellSpec SnellProofs
  SagModel SagSpec SequenceSpec SequenceProofs FocusSpec FocusProofs FocusExamples InvariantSpec InvariantProofs InvariantExamples
  FermatSpec FermatProofs.
Import ListNotations.
Open Scope R_scope.

(** ** Into a liquid, onto its bottom, and out again *)
Lemma after_air r : r_position r = Some (V3 (19/4) 0 3) -> r_direction r = Some (V3 (4/5) 0 (-3/5)) -> r_index r = 3/4 ->
  r_position (surface_propagate air r) = Some (V3 (35/4) 0 0) /\
  r_direction (surface_propagate air r) = Some (V3 (3/5) 0 (-4/5)) /\ r_index (surface_propagate air r) = 1.
Proof.
  intros Hp Hd Hi. apply (bare_out vacuum NoSag None r (V3 (19/4) 0 3) (V3 (4/5) 0 (-3/5)) (V3 (35/4) 0 0) (V3 0 0 (-1)) 1); auto.
  - cbn. unfold flat_intercept; cbn [vx vy vz]. rewrite odiv_nz by lra. cbn [obind]. f_equal. apply vec_eq; vnum.
  - rewrite Hi. change (snells_law (V3 (4/5) 0 (-3/5)) (3/4) 1 false (V3 0 0 (-1)) = Some (V3 (3/5) 0 (-4/5))). refracted.
Qed.
Definition pond_points : list vec3 := [V3 (3/4) 0 0; V3 (19/4) 0 3; V3 (35/4) 0 0].
Definition pond_detour : list vec3 := [V3 1 0 0; V3 (19/4) 1 3; V3 8 0 0].
Lemma ex_planes : let rays := accumulate_rays surface_propagate (Sequence pond) skew in
  List.Forall (shaped no_solver NoSag) pond /\ is_unit (V3 (3/5) 0 (4/5)) /\ 0 < r_index skew /\
  List.Forall (fun r => 0 < r_index r) rays /\ forward skew rays (V3 (47/4) 0 (-4)) /\
  map r_position rays = map Some pond_points /\ Forall2 in_plane pond pond_detour /\ pond_detour <> pond_points.
Proof.
  intros rays. destruct after_liquid as (P1 & D1 & I1). destruct (after_bottom _ P1 D1 I1) as (P2 & D2 & I2).
  destruct (after_air _ P2 D2 I2) as (P3 & D3 & I3).
  unfold rays, pond. rewrite !accumulate_cons. cbn [accumulate_rays accumulate_loop as_list].
  split; [|split; [unfold is_unit; vnum|split; [cbn; lra|]]].
  { repeat constructor. apply mid_rigid. }
  split; [repeat constructor; lra|]. split; [|split].
  - cbn [forward]. split; [exists (V3 (3/4) 0 0); split; [exact P1|]; exists (V3 0 0 (-1)), (V3 (3/5) 0 (4/5)), (5/4)|].
    { repeat split; [lra|apply vec_eq; vnum]. }
    split; [exists (V3 (19/4) 0 3); split; [exact P2|]; exists (V3 (3/4) 0 0), (V3 (4/5) 0 (3/5)), 5|].
    { split; [exact P1|]. split; [exact D1|]. split; [lra|apply vec_eq; vnum]. }
    split; [exists (V3 (35/4) 0 0); split; [exact P3|]; exists (V3 (19/4) 0 3), (V3 (4/5) 0 (-3/5)), 5|].
    { split; [exact P2|]. split; [exact D2|]. split; [lra|apply vec_eq; vnum]. }
    exists (V3 (35/4) 0 0), (V3 (3/5) 0 (-4/5)), 5. split; [exact P3|]. split; [exact D3|]. split; [lra|apply vec_eq; vnum].
  - cbn [map pond_points]. rewrite P1, P2, P3. reflexivity.
  - split; [|unfold pond_detour, pond_points; intros H; injection H; intros; lra].
    repeat constructor; unfold in_plane, local_point, liquid, bottom, air, mid, mtrans, mapply; cbn; vnum.
Qed.

(** ** Through a plane onto a sphere *)
Definition spin (t : R) : vec3 := V3 (7/4 * cos t + sin t) (7/4 * sin t - cos t + 1) (3/4).
Definition slide (t : R) : vec3 := V3 (3/4 + t) (2 * t) 0.
Definition bounced : vec3 := V3 (4/5 - 112/81) (64/81) (3/5 - 64/81).
Lemma after_ball : let r := surface_propagate ball (surface_propagate liquid skew) in
  r_position r = Some (V3 (7/4) 0 (3/4)) /\ r_direction r = Some bounced /\ r_index r = 3/4.
Proof.
  destruct after_liquid as (Hp & Hd & Hi). destruct ball_local as [L1 L2]. set (r := surface_propagate liquid skew) in *.
  set (n := V3 (-7/9) (4/9) (-4/9)).
  assert (U : is_unit n) by (unfold n, is_unit; vnum).
  assert (U' : is_unit (V3 (4/5) 0 (3/5))) by (unfold is_unit; vnum).
  destruct (bare_out mirror (SphericalSag (-9/4)) (Some (mkRigid mid (V3 0 1 2))) r _ _ (V3 (7/4) (-1) (-5/4)) n (r_index r)
    (vsub (V3 (4/5) 0 (3/5)) (vscale (2 * dot (V3 (4/5) 0 (3/5)) n) n)) Hp Hd) as (E1 & E2 & E3).
  - fold ball. rewrite L1, L2. exact ball_hit.
  - cbn [class_normal]. unfold sphere_normal; cbn [vx vy vz]. rewrite odiv_nz by lra. cbn [obind].
    match goal with |- context [osqrt ?x] => replace x with (4/9 * (4/9)) by field end.
    rewrite osqrt_sq by lra. cbn [obind]. unfold n. f_equal. apply vec_eq; vnum.
  - intros r' H; exact H.
  - fold ball. rewrite L2. apply snells_law_reflect_pos; auto. rewrite Hi. lra.
  - fold ball in *. split; [|split; [|rewrite E3; exact Hi]].
    + rewrite E1. unfold place, ball, rigid_point, mid, mapply; cbn. f_equal. apply vec_eq; vnum.
    + rewrite E2. unfold place_vector, ball, rigid_vector, mid, mapply, n, bounced; cbn. f_equal. apply vec_eq; vnum.
Qed.
Lemma ex_varied : let rays := accumulate_rays surface_propagate (Sequence (map snd skew_system)) skew in
  List.Forall (fun ks => shaped no_solver (fst ks) (snd ks)) skew_system /\ is_unit (V3 (3/5) 0 (4/5)) /\
  forward skew rays (vadd (V3 (7/4) 0 (3/4)) bounced) /\ varied skew_system rays [slide; spin] /\
  r_direction (propagate_rays surface_propagate (Sequence (map snd skew_system)) skew) = Some bounced.
Proof.
  intros rays. destruct after_liquid as (P1 & D1 & I1). destruct after_ball as (P2 & D2 & I2).
  unfold rays, skew_system; cbn [map snd]. rewrite !accumulate_cons. cbn [accumulate_rays accumulate_loop as_list].
  split; [|split; [unfold is_unit; vnum|split; [|split; [|exact D2]]]].
  - repeat constructor. apply mid_rigid.
  - cbn [forward]. split; [exists (V3 (3/4) 0 0); split; [exact P1|]; exists (V3 0 0 (-1)), (V3 (3/5) 0 (4/5)), (5/4)|].
    { repeat split; [lra|apply vec_eq; vnum]. }
    split; [exists (V3 (7/4) 0 (3/4)); split; [exact P2|]; exists (V3 (3/4) 0 0), (V3 (4/5) 0 (3/5)), (5/4)|].
    { split; [exact P1|]. split; [exact D1|]. split; [lra|apply vec_eq; vnum]. }
    exists (V3 (7/4) 0 (3/4)), bounced, 1. split; [exact P2|]. split; [exact D2|]. split; [lra|]. apply vec_eq; vec_unfold; ring.
  - cbn [varied]. split; [|split; [|exact I]].
    + exists (V3 (3/4) 0 0), (V3 1 2 0). split; [exact P1|]. split; [|split; [|exact I]].
      * split; [unfold slide; apply vec_eq; cbn; ring|]. cbn [vx vy vz slide]. split; [|split]; auto_derive; auto; ring.
      * unfold stays_on; apply filter_forall; intros t. reflexivity.
    + exists (V3 (7/4) 0 (3/4)), (V3 1 (7/4) 0). split; [exact P2|]. split; [|split].
      * split; [unfold spin; rewrite cos_0, sin_0; apply vec_eq; cbn; field|].
        cbn [vx vy vz spin]. split; [|split]; auto_derive; auto; rewrite ?cos_0, ?sin_0; field.
      * unfold stays_on; apply filter_forall; intros t. unfold on_graph.
        replace (local_point ball (spin t)) with (V3 (7/4 * cos t + sin t) (7/4 * sin t - cos t) (-5/4))
          by (unfold local_point, ball, spin, mid, mtrans, mapply; cbn; apply vec_eq; vec_unfold; field).
        cbn [class_z vx vy vz]. unfold sphere_z. rewrite odiv_nz by lra. cbn [obind].
        assert (S := sin2_cos2 t). unfold Rsqr in S.
        replace ((7/4 * cos t + sin t) * (7/4 * cos t + sin t) + (7/4 * sin t - cos t) * (7/4 * sin t - cos t)) with (65/16) by nra.
        match goal with |- context [osqrt ?x] => replace x with (4/9 * (4/9)) by field end.
        rewrite osqrt_sq by lra. cbn [obind]. rewrite odiv_nz by lra. f_equal. field.
      * unfold local_point, ball, mid, mtrans, mapply; cbn. split; [lra|vnum].
Qed.
Lemma ex_ends : moves (fun t => V3 t 0 (-1)) (V3 0 0 (-1)) (V3 1 0 0) /\
  moves (fun t => vadd (vadd (V3 (7/4) 0 (3/4)) bounced) (V3 0 t 0)) (vadd (V3 (7/4) 0 (3/4)) bounced) (V3 0 1 0).
Proof.
  split; (split; [apply vec_eq; vec_unfold; ring|]); unfold vadd; cbn [vx vy vz]; (split; [|split]); auto_derive; auto; ring.
Qed.

(** ** A plane wave and a flat mirror *)
Definition beam : ray := light 1 (V3 (-3) 0 (-4)) (V3 (3/5) 0 (4/5)).
Definition front (t : R) : vec3 := V3 (-3 + 4/5 * t) 0 (-4 - 3/5 * t).
Definition footprint (t : R) : vec3 := V3 (5/4 * t) 0 0.
Definition rear (t : R) : vec3 := V3 (3 + 4/5 * t) 0 (-4 + 3/5 * t).
Lemma after_floor : r_position (surface_propagate floor beam) = Some (V3 0 0 0) /\
  r_direction (surface_propagate floor beam) = Some (V3 (3/5) 0 (-4/5)) /\ r_index (surface_propagate floor beam) = 1.
Proof.
  apply (bare_out mirror NoSag None beam (V3 (-3) 0 (-4)) (V3 (3/5) 0 (4/5)) (V3 0 0 0) (V3 0 0 (-1)) 1); try reflexivity.
  - cbn. unfold flat_intercept; cbn [vx vy vz]. rewrite odiv_nz by lra. cbn [obind]. f_equal. apply vec_eq; vnum.
  - intros r' E; exact E.
  - change (snells_law (V3 (3/5) 0 (4/5)) 1 1 true (V3 0 0 (-1)) = Some (V3 (3/5) 0 (-4/5))). refracted.
Qed.
Lemma length_of a w : 0 < w -> norm2 a = w * w -> vlen a = w.
Proof. intros H E. unfold vlen. rewrite E. apply sqrt_square; lra. Qed.
Lemma ex_front : let l := [(NoSag, floor)] in
  let rays := accumulate_rays surface_propagate (Sequence (map snd l)) beam in
  List.Forall (fun ks => shaped no_solver (fst ks) (snd ks)) l /\ is_unit (V3 (3/5) 0 (4/5)) /\
  forward beam rays (V3 3 0 (-4)) /\ varied l rays [footprint] /\
  moves front (V3 (-3) 0 (-4)) (V3 (4/5) 0 (-3/5)) /\ moves rear (V3 3 0 (-4)) (V3 (4/5) 0 (3/5)) /\
  r_direction (propagate_rays surface_propagate (Sequence (map snd l)) beam) = Some (V3 (3/5) 0 (-4/5)) /\
  r_index (propagate_rays surface_propagate (Sequence (map snd l)) beam) <> 0 /\
  dot (V3 (3/5) 0 (4/5)) (V3 (4/5) 0 (-3/5)) = 0 /\
  locally 0 (fun t => optical_length (r_index beam) (front t) (combine (map r_index rays) (map (fun c => c t) [footprint])) (rear t) = 10).
Proof.
  intros l rays. destruct after_floor as (P & D & I1). unfold rays, l; cbn [map snd]. rewrite !accumulate_cons.
  cbn [accumulate_rays accumulate_loop as_list].
  split; [repeat constructor|]. split; [unfold is_unit; vnum|]. split; [|split; [|split; [|split; [|split; [exact D|split; [|split; [vnum|]]]]]]].
  - cbn [forward]. split; [exists (V3 0 0 0); split; [exact P|]; exists (V3 (-3) 0 (-4)), (V3 (3/5) 0 (4/5)), 5|].
    { repeat split; [lra|apply vec_eq; vnum]. }
    exists (V3 0 0 0), (V3 (3/5) 0 (-4/5)), 5. split; [exact P|]. split; [exact D|]. split; [lra|apply vec_eq; vnum].
  - cbn [varied]. split; [|exact I]. exists (V3 0 0 0), (V3 (5/4) 0 0). split; [exact P|]. split; [|split; [|exact I]].
    + split; [unfold footprint; apply vec_eq; cbn; ring|]. cbn [vx vy vz footprint]. split; [|split]; auto_derive; auto; ring.
    + unfold stays_on; apply filter_forall; intros t. reflexivity.
  - split; [unfold front; apply vec_eq; cbn; ring|]. cbn [vx vy vz front]. split; [|split]; auto_derive; auto; field.
  - split; [unfold rear; apply vec_eq; cbn; ring|]. cbn [vx vy vz rear]. split; [|split]; auto_derive; auto; field.
  - change (r_index (surface_propagate floor beam) <> 0). rewrite I1. lra.
  - exists (mkposreal 1 Rlt_0_1). intros t Ht. 
    change (Rabs (t + - 0) < 1) in Ht. apply Rabs_def2 in Ht.
    cbn [map combine optical_length]. rewrite I1. change (r_index beam) with 1.
    rewrite (length_of (vsub (footprint t) (front t)) (5 + 3/4 * t)) by (try lra; unfold footprint, front; vec_unfold; field).
    rewrite (length_of (vsub (rear t) (footprint t)) (5 - 3/4 * t)) by (try lra; unfold footprint, rear; vec_unfold; field).
    ring.
Qed.
