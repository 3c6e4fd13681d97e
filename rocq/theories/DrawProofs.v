(** Drawings. *)
From Coq Require Import Reals List Bool Lia.
From Verif Require Import Vec VecLemmas Num RayModel SurfaceModel SequenceSpec SequenceProofs SystemModel DrawModel DrawSpec.
Import ListNotations.
Open Scope R_scope.
Open Scope opt_scope.

Lemma place_within : forall outer own p, place (within outer own) p = place outer (place own p).
Proof. intros [o|] [t|] p; cbn; auto. apply rigid_compose_point. Qed.

Lemma trace_in_room : forall sys r, rigid_system sys ->
  room_path sys r = map (apply_transformation (sys_transformation sys)) (trace sys r).
Proof.
  intros sys r [T F]. unfold room_path, trace, in_room. destruct (sys_transformation sys) as [t|]; cbn [apply_inverse].
  - cbn in T. rewrite <- (map_map st_surface (move_surface t)).
    assert (F' : Forall rigid_surface (map st_surface (surfaces_all sys))) by (rewrite Forall_map; exact F).
    destruct (trace_move t _ T F' (ray_transform (rigid_inv t) r)) as (_ & E). change (apply_transformation (Some t)) with (ray_transform t). rewrite <- E.
    rewrite ray_transform_inv_r by exact T. reflexivity.
  - rewrite map_ext with (f := apply_transformation None) (g := fun x => x) by reflexivity. symmetry. apply map_id.
Qed.

Lemma last_of_map : forall A B (f : A -> B) l, last_of (map f l) = omap f (last_of l).
Proof. intros A B f. induction l as [|a [|b l] IH]; [reflexivity | reflexivity |]. exact IH. Qed.

Lemma last_of_some : forall A (l : list A), l <> [] -> exists a, last_of l = Some a.
Proof.
  intros A. induction l as [|a [|b l] IH]; intros H; [contradiction | exists a; reflexivity |]. apply IH. discriminate.
Qed.

Lemma surfaces_all_cons : forall sys, surfaces_all sys <> [].
Proof.
  intros sys. unfold surfaces_all. destruct (sys_sensor sys); cbn [app]; match goal with |- context [if ?b then _ else _] => destruct b end; discriminate.
Qed.

Lemma trace_cons : forall sys r, trace sys r <> [].
Proof.
  intros sys r H. assert (L := f_equal (@length ray) H). unfold trace in L.
  destruct (accumulate_spec surface_propagate (map st_surface (surfaces_all sys)) (apply_inverse (sys_transformation sys) r)) as (E & _).
  rewrite E, map_length in L. assert (N := surfaces_all_cons sys). destruct (surfaces_all sys); [contradiction | discriminate].
Qed.

Lemma unvignetted_placed : forall t r, r_unvignetted (apply_transformation t r) = r_unvignetted r.
Proof. intros [t|] r; reflexivity. Qed.

Lemma ray_path_room : forall outer sys r, rigid_system sys ->
  ray_path (within outer (sys_transformation sys)) (trace sys r) = map (fun r' => omap (place outer) (r_position r')) (room_path sys r).
Proof.
  intros outer sys r S. rewrite trace_in_room by exact S. rewrite map_map. unfold ray_path. apply map_ext. intros a.
  destruct (sys_transformation sys) as [t|]; cbn [apply_transformation ray_transform r_position]; destruct (r_position a); cbn [omap]; auto.
  rewrite place_within. reflexivity.
Qed.

Lemma draw_rays_value : forall outer sys inputs, rigid_system sys ->
  draw_rays true (within outer (sys_transformation sys)) (map (trace sys) inputs) =
  Some (map (fun r => map (fun r' => omap (place outer) (r_position r')) (room_path sys r)) (filter (arrives sys) inputs)).
Proof.
  intros outer sys inputs S. induction inputs as [|r l IH]; [reflexivity|]. cbn [map draw_rays].
  destruct (last_of_some _ _ (trace_cons sys r)) as (a & A). rewrite A. cbn [obind]. rewrite IH. cbn [obind filter]. f_equal.
  assert (E : arrives sys r = r_unvignetted a).
  { unfold arrives. rewrite trace_in_room by exact S. rewrite last_of_map, A. cbn [omap]. apply unvignetted_placed. }
  rewrite E. destruct (r_unvignetted a); [|reflexivity]. cbn [map]. f_equal. apply ray_path_room, S.
Qed.

Definition walls (outer : option rigid) (look : surface -> looks) (sys : system) : list polyline :=
  flat_map (fun s => draw_surface (within outer (sys_transformation sys)) (st_surface s) (look (st_surface s))) (surfaces_all sys).

Lemma dxf_value : forall outer look sys inputs, rigid_system sys ->
  system_to_dxf outer look sys inputs = Some (walls outer look sys ++
    map (fun r => map (fun r' => omap (place outer) (r_position r')) (room_path sys r)) (filter (arrives sys) inputs)).
Proof. intros outer look sys inputs S. unfold system_to_dxf. rewrite draw_rays_value by exact S. reflexivity. Qed.

(** The points of an outline *)
Lemma outline_points : forall outer look sys line v, In line (walls outer look sys) -> In (Some v) line ->
  exists s o p h, In s (surfaces_all sys) /\ (lk_aperture (look (st_surface s)) = Some o \/ lk_mechanical (look (st_surface s)) = Some o) /\
    In p (ol_wire o) /\ lk_sag (look (st_surface s)) p = Some h /\ v = room_point outer sys (st_surface s) (V3 (vx p) (vy p) h).
Proof.
  intros outer look sys line v L V. unfold walls in L. apply in_flat_map in L. destruct L as (s & S & L).
  assert (K : forall o, In line (draw_outline (within (within outer (sys_transformation sys)) (sf_transformation (st_surface s))) (Some (lk_sag (look (st_surface s)))) o) ->
    exists p h, In p (ol_wire o) /\ lk_sag (look (st_surface s)) p = Some h /\ v = room_point outer sys (st_surface s) (V3 (vx p) (vy p) h)).
  { intros o H. unfold draw_outline in H. destruct (ol_length o); [|destruct H]. destruct H as [<- | []]. apply in_map_iff in V. destruct V as (p & E & P).
    destruct (lk_sag (look (st_surface s)) p) as [h|] eqn:Z; [|discriminate]. cbn [obind] in E. injection E as <-.
    exists p, h. split; [exact P|]. split; [exact Z|]. rewrite !place_within. reflexivity. }
  unfold draw_surface in L. apply in_app_or in L. destruct L as [L | L].
  - destruct (lk_aperture (look (st_surface s))) as [o|] eqn:A; [|destruct L]. destruct (K o L) as (p & h & H). exists s, o, p, h. auto.
  - destruct (lk_mechanical (look (st_surface s))) as [o|] eqn:A; [|destruct L]. destruct (K o L) as (p & h & H). exists s, o, p, h. auto.
Qed.

(** The points of a ray *)
Lemma propagate_on_sag : forall s l r x, sound_sag s l -> r_position (surface_propagate s r) = Some x ->
  exists p, on_sag l p /\ x = place (sf_transformation s) p.
Proof.
  intros s l r x [S _] X. unfold surface_propagate in X.
  assert (K : forall r1 q, r_position (surface_local s r1) = Some q -> on_sag l q).
  { intros r1 q Q. assert (E : r_position (surface_local s r1) = r_position (sag_propagate (sf_sag s) r1)).
    { unfold surface_local, surface_incident. destruct (sf_aperture s), (sf_rulings s); reflexivity. }
    rewrite E in Q. unfold sag_propagate in Q. cbn [set_intensity set_position r_position] in Q.
    destruct (r_position r1) as [o|]; [|discriminate]. destruct (r_direction r1) as [d|]; [|discriminate]. exact (S _ _ _ Q). }
  destruct (sf_transformation s) as [t|]; cbn [apply_transformation apply_inverse] in X.
  - cbn [ray_transform r_position] in X. destruct (r_position (surface_local s (ray_transform (rigid_inv t) r))) as [q|] eqn:Q; [|discriminate].
    cbn in X. injection X as <-. exists q. split; [exact (K _ _ Q) | reflexivity].
  - exists x. split; [exact (K _ _ X) | reflexivity].
Qed.

Lemma path_step : forall l r i s r', nth_error l i = Some s -> nth_error (accumulate_rays surface_propagate (Sequence l) r) i = Some r' ->
  exists r0, r' = surface_propagate s r0.
Proof.
  induction l as [|a l IH]; intros r [|i] s r' S R; try discriminate; rewrite accumulate_cons in R.
  - cbn in S, R. injection S as <-. injection R as <-. exists r. reflexivity.
  - exact (IH _ _ _ _ S R).
Qed.

Lemma ray_on_surface : forall outer look sys r i s r' v, rigid_system sys -> nth_error (surfaces_all sys) i = Some s ->
  sound_sag (st_surface s) (look (st_surface s)) ->
  nth_error (room_path sys r) i = Some r' -> omap (place outer) (r_position r') = Some v ->
  exists p, on_sag (look (st_surface s)) p /\ v = room_point outer sys (st_surface s) p.
Proof.
  intros outer look sys r i s r' v S N SO R V. rewrite trace_in_room, nth_error_map in R by exact S.
  destruct (nth_error (trace sys r) i) as [q|] eqn:Q; [|discriminate]. cbn in R. injection R as <-.
  unfold trace in Q. destruct (path_step _ _ _ (st_surface s) _ (map_nth_error st_surface _ _ N) Q) as (r0 & ->).
  unfold room_point. destruct (sys_transformation sys) as [t|]; cbn [apply_transformation ray_transform r_position] in V.
  - destruct (r_position (surface_propagate (st_surface s) r0)) as [x|] eqn:X; [|discriminate]. cbn in V. injection V as <-.
    destruct (propagate_on_sag _ _ _ _ SO X) as (p & P & ->). exists p. auto.
  - destruct (r_position (surface_propagate (st_surface s) r0)) as [x|] eqn:X; [|discriminate]. cbn in V. injection V as <-.
    destruct (propagate_on_sag _ _ _ _ SO X) as (p & P & ->). exists p. auto.
Qed.

(** Moving the drawing *)
Definition move_line (t : rigid) (l : polyline) : polyline := map (omap (rigid_point t)) l.

Lemma within_assoc_place : forall t outer own p, place (within (Some t) (within outer own)) p = rigid_point t (place (within outer own) p).
Proof. intros. rewrite place_within. reflexivity. Qed.

Lemma omap_obind : forall A B C (f : B -> C) (x : option A) (g : A -> option B), omap f (obind x g) = obind x (fun a => omap f (g a)).
Proof. intros A B C f [a|] g; reflexivity. Qed.

Lemma move_outline : forall t own sag o, draw_outline (within (Some t) own) sag o = map (move_line t) (draw_outline own sag o).
Proof.
  intros t own sag o. unfold draw_outline. destruct (ol_length o); [|reflexivity]. cbn [map]. f_equal. unfold move_line. rewrite map_map. apply map_ext. intros p.
  destruct sag as [z|]; [destruct (z p) as [h|]; cbn [obind]; [|reflexivity]|]; cbn [obind omap]; rewrite place_within; reflexivity.
Qed.

Lemma place_assoc : forall t a b p, place (within (within (Some t) a) b) p = place (within (Some t) (within a b)) p.
Proof. intros. rewrite !place_within. reflexivity. Qed.

Lemma outline_ext : forall t t' sag o, (forall p, place t p = place t' p) -> draw_outline t sag o = draw_outline t' sag o.
Proof.
  intros t t' sag o E. unfold draw_outline. destruct (ol_length o); [|reflexivity]. f_equal. apply map_ext. intros p.
  destruct sag as [z|]; [destruct (z p) as [h|]; cbn [obind]; [|reflexivity]|]; cbn [obind]; rewrite E; reflexivity.
Qed.

Lemma move_surface_drawing : forall t own s l, draw_surface (within (Some t) own) s l = map (move_line t) (draw_surface own s l).
Proof.
  intros t own s l. unfold draw_surface. rewrite map_app.
  assert (K : forall o, draw_outline (within (within (Some t) own) (sf_transformation s)) (Some (lk_sag l)) o =
                        map (move_line t) (draw_outline (within own (sf_transformation s)) (Some (lk_sag l)) o)).
  { intros o. rewrite <- move_outline. apply outline_ext. intros p. apply place_assoc. }
  destruct (lk_aperture l), (lk_mechanical l); cbn [app map]; rewrite ?K; reflexivity.
Qed.

Lemma drawing_moves : forall t look sys inputs lines, system_to_dxf None look sys inputs = Some lines ->
  system_to_dxf (Some t) look sys inputs = Some (map (move_line t) lines).
Proof.
  intros t look sys inputs lines H. unfold system_to_dxf in *.
  change (within None (sys_transformation sys)) with (within None (sys_transformation sys)) in H.
  assert (R : forall paths out, draw_rays true (within None (sys_transformation sys)) paths = Some out ->
    draw_rays true (within (Some t) (sys_transformation sys)) paths = Some (map (move_line t) out)).
  { induction paths as [|p l IH]; intros out E; cbn [draw_rays] in *; [injection E as <-; reflexivity|].
    destruct (last_of p) as [a|]; [|discriminate]. cbn [obind] in *. destruct (draw_rays true (within None (sys_transformation sys)) l) as [o|]; [|discriminate].
    cbn [obind] in E. rewrite (IH o eq_refl). cbn [obind]. injection E as <-. destruct (r_unvignetted a); [|reflexivity]. cbn [map]. do 2 f_equal.
    unfold ray_path, move_line. rewrite map_map. apply map_ext. intros r. destruct (r_position r); cbn [omap]; [|reflexivity]. rewrite !place_within. reflexivity. }
  destruct (draw_rays true (within None (sys_transformation sys)) (map (trace sys) inputs)) as [out|] eqn:E; [|discriminate]. cbn [obind] in H. injection H as <-.
  rewrite (R _ _ E). cbn [obind]. rewrite map_app. f_equal. f_equal.
  induction (surfaces_all sys) as [|s l IH]; [reflexivity|]. cbn [flat_map]. rewrite map_app, <- IH. f_equal.
  rewrite <- move_surface_drawing. unfold draw_surface.
  assert (K : forall o sag, draw_outline (within (within (Some t) (sys_transformation sys)) (sf_transformation (st_surface s))) sag o =
     draw_outline (within (within (Some t) (within None (sys_transformation sys))) (sf_transformation (st_surface s))) sag o).
  { intros o sag. apply outline_ext. intros p. rewrite !place_within. reflexivity. }
  destruct (lk_aperture (look (st_surface s))), (lk_mechanical (look (st_surface s))); rewrite ?K; reflexivity.
Qed.

Lemma plot_value : forall outer look sys vignetted inputs, rigid_system sys ->
  system_plot outer look sys true vignetted inputs = Some (walls outer look sys ++
    map (fun r => map (fun r' => omap (place outer) (r_position r')) (room_path sys r))
      (if vignetted then inputs else filter (arrives sys) inputs)) /\
  system_plot outer look sys false vignetted inputs = Some (walls outer look sys).
Proof.
  intros outer look sys vignetted inputs S. split; [|reflexivity]. unfold system_plot. destruct vignetted.
  - cbn [obind]. rewrite map_map. unfold walls. do 2 f_equal. apply map_ext. intros r. apply ray_path_room, S.
  - rewrite draw_rays_value by exact S. reflexivity.
Qed.

(** Who arrives *)
Lemma arrives_iff : forall sys r, rigid_system sys -> arrives sys r = true <->
  r_unvignetted r = true /\ forall i s r', nth_error (surfaces_all sys) i = Some s -> nth_error (room_path sys r) i = Some r' ->
    passes (in_room sys (st_surface s)) r' = true.
Proof.
  intros sys r [T F]. unfold arrives, room_path. set (ss := map (fun s => in_room sys (st_surface s)) (surfaces_all sys)).
  assert (FS : Forall rigid_surface ss).
  { unfold ss. rewrite Forall_map. eapply Forall_impl; [|exact F]. intros s H. unfold in_room, rigid_surface in *. destruct (sys_transformation sys) as [t|]; [|exact H].
    cbn [move_surface sf_transformation]. destruct (sf_transformation (st_surface s)); [apply rigid_compose_rigid; auto | exact T]. }
  assert (U := trace_unvignetted_iff ss FS r). 
  assert (L : last_of (accumulate_rays surface_propagate (Sequence ss) r) = Some (propagate_rays surface_propagate (Sequence ss) r)).
  { destruct (accumulate_spec surface_propagate ss r) as (LEN & _ & LA). rewrite <- LA.
    assert (NE : accumulate_rays surface_propagate (Sequence ss) r <> []).
    { intros E. rewrite E in LEN. unfold ss in LEN. rewrite map_length in LEN. assert (N := surfaces_all_cons sys). destruct (surfaces_all sys); [contradiction | discriminate]. }
    revert NE. generalize (accumulate_rays surface_propagate (Sequence ss) r). induction l as [|a [|b l] IH]; intros NE; [contradiction | reflexivity |].
    change (last_of (a :: b :: l)) with (last_of (b :: l)). change (last (a :: b :: l) r) with (last (b :: l) r). apply IH. discriminate. }
  rewrite L, U. split; intros [A B]; (split; [exact A|]).
  - intros i s r' S R. apply (B i _ r'); [|exact R]. unfold ss. exact (map_nth_error (fun s => in_room sys (st_surface s)) _ _ S).
  - intros i s' r' S R. unfold ss in S. rewrite nth_error_map in S. destruct (nth_error (surfaces_all sys) i) as [s|] eqn:E; [|discriminate].
    cbn in S. injection S as <-. exact (B i s r' E R).
Qed.

Lemma wall_iff : forall outer look sys line, In line (walls outer look sys) <->
  exists s o, In s (surfaces_all sys) /\ (lk_aperture (look (st_surface s)) = Some o \/ lk_mechanical (look (st_surface s)) = Some o) /\
    ol_length o = true /\
    line = map (fun p => omap (fun h => room_point outer sys (st_surface s) (V3 (vx p) (vy p) h)) (lk_sag (look (st_surface s)) p)) (ol_wire o).
Proof.
  intros outer look sys line.
  assert (K : forall s o, In line (draw_outline (within (within outer (sys_transformation sys)) (sf_transformation (st_surface s))) (Some (lk_sag (look (st_surface s)))) o) <->
    ol_length o = true /\ line = map (fun p => omap (fun h => room_point outer sys (st_surface s) (V3 (vx p) (vy p) h)) (lk_sag (look (st_surface s)) p)) (ol_wire o)).
  { intros s o. unfold draw_outline.
    assert (E : map (fun p => let* p := let* h := lk_sag (look (st_surface s)) p in Some (V3 (vx p) (vy p) h) in
        Some (place (within (within outer (sys_transformation sys)) (sf_transformation (st_surface s))) p)) (ol_wire o) =
      map (fun p => omap (fun h => room_point outer sys (st_surface s) (V3 (vx p) (vy p) h)) (lk_sag (look (st_surface s)) p)) (ol_wire o)).
    { apply map_ext. intros p. destruct (lk_sag (look (st_surface s)) p); cbn [obind omap]; [|reflexivity]. rewrite !place_within. reflexivity. }
    rewrite E. destruct (ol_length o); split; [intros [<- | []]; auto | intros [_ ->]; left; reflexivity | intros [] | intros [H _]; discriminate]. }
  unfold walls. rewrite in_flat_map. split.
  - intros (s & S & L). unfold draw_surface in L. apply in_app_or in L. destruct L as [L | L].
    + destruct (lk_aperture (look (st_surface s))) as [o|] eqn:A; [|destruct L]. apply K in L. exists s, o. auto.
    + destruct (lk_mechanical (look (st_surface s))) as [o|] eqn:A; [|destruct L]. apply K in L. exists s, o. auto.
  - intros (s & o & S & A & L). exists s. split; [exact S|]. unfold draw_surface. apply in_or_app. apply K in L.
    destruct A as [-> | ->]; [left | right]; exact L.
Qed.

Lemma whole_drawing : forall outer look sys inputs, rigid_system sys ->
  exists outlines, system_to_dxf outer look sys inputs = Some (outlines ++
    map (fun r => map (fun r' => omap (place outer) (r_position r')) (room_path sys r)) (filter (arrives sys) inputs)) /\
  forall line, In line outlines <-> exists s o, In s (surfaces_all sys) /\
    (lk_aperture (look (st_surface s)) = Some o \/ lk_mechanical (look (st_surface s)) = Some o) /\ ol_length o = true /\
    line = map (fun p => omap (fun h => room_point outer sys (st_surface s) (V3 (vx p) (vy p) h)) (lk_sag (look (st_surface s)) p)) (ol_wire o).
Proof. intros outer look sys inputs S. exists (walls outer look sys). split; [apply dxf_value, S | intros line; apply wall_iff]. Qed.

Lemma whole_plot : forall outer look sys vignetted inputs, rigid_system sys ->
  exists outlines, system_plot outer look sys true vignetted inputs = Some (outlines ++
    map (fun r => map (fun r' => omap (place outer) (r_position r')) (room_path sys r))
      (if vignetted then inputs else filter (arrives sys) inputs)) /\
  system_plot outer look sys false vignetted inputs = Some outlines /\
  system_to_dxf outer look sys [] = Some outlines.
Proof.
  intros outer look sys vignetted inputs S. exists (walls outer look sys). destruct (plot_value outer look sys vignetted inputs S) as (A & B).
  split; [exact A|]. split; [exact B|]. rewrite dxf_value by exact S. cbn [filter map]. rewrite app_nil_r. reflexivity.
Qed.

Lemma rays_never : forall t paths, rays_to_dxf t paths = None.
Proof. intros t []; reflexivity. Qed.

Lemma rays_alone : exists t paths, paths <> [] /\ (forall p, In p paths -> exists r, In r p /\ r_unvignetted r = true) /\
  rays_to_dxf t paths = None.
Proof.
  exists None, [[mkRay 1 (Some (V3 0 0 0)) (Some (V3 0 0 1)) (Some 1) 0 1 true]]. split; [discriminate|]. split; [|apply rays_never].
  intros p [<- | []]. eexists. split; [left; reflexivity | reflexivity].
Qed.
