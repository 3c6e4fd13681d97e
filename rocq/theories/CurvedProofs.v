(** Rays traced backwards through curved mirrors retrace their path. *)
From Coq Require Import String Reals List Bool Arith Lra Lia.
From Verif Require Import Vec VecLemmas Num NumLemmas RayModel SnellModel SnellSpec SnellProofs SurfaceModel
  SequenceSpec SequenceProofs SystemModel SystemSpec SystemRetraceProofs CurvedSpec.
Import ListNotations.
Open Scope R_scope.
Open Scope opt_scope.

Lemma local_global_point : forall s p, rigid_surface s -> local_point s (global_point s p) = p.
Proof.
  intros s p H. unfold global_point, local_point, rigid_surface in *. destruct (sf_transformation s) as [t|]; [|reflexivity].
  unfold rigid_point. replace (vsub (vadd (mapply (rg_mat t) p) (rg_shift t)) (rg_shift t)) with (mapply (rg_mat t) p) by (apply vec_eq; cbn; ring).
  apply orthogonal_inv_l. exact H.
Qed.

(** What happens to a direction at a point with the normal [n]. *)
Definition turn (s : surface) (n d : vec3) : vec3 := if mat_is_mirror (sf_material s) then mirror_image n d else d.
Lemma turn_turn : forall s n d, is_unit n -> turn s n (turn s n d) = d.
Proof.
  intros s n d U. unfold turn. destruct (mat_is_mirror _); [|reflexivity]. unfold mirror_image, is_unit, norm2, dot in *.
  destruct n as [a b c], d as [x y z]. cbn in *. apply vec_eq; cbn.
  - replace (x - 2 * (x * a + y * b + z * c) * a - 2 * ((x - 2 * (x * a + y * b + z * c) * a) * a + (y - 2 * (x * a + y * b + z * c) * b) * b + (z - 2 * (x * a + y * b + z * c) * c) * c) * a)
      with (x - 4 * (x * a + y * b + z * c) * a * (1 - (a * a + b * b + c * c))) by ring. rewrite U. ring.
  - replace (y - 2 * (x * a + y * b + z * c) * b - 2 * ((x - 2 * (x * a + y * b + z * c) * a) * a + (y - 2 * (x * a + y * b + z * c) * b) * b + (z - 2 * (x * a + y * b + z * c) * c) * c) * b)
      with (y - 4 * (x * a + y * b + z * c) * b * (1 - (a * a + b * b + c * c))) by ring. rewrite U. ring.
  - replace (z - 2 * (x * a + y * b + z * c) * c - 2 * ((x - 2 * (x * a + y * b + z * c) * a) * a + (y - 2 * (x * a + y * b + z * c) * b) * b + (z - 2 * (x * a + y * b + z * c) * c) * c) * c)
      with (z - 4 * (x * a + y * b + z * c) * c * (1 - (a * a + b * b + c * c))) by ring. rewrite U. ring.
Qed.
Lemma turn_scale : forall s n k d, turn s n (vscale k d) = vscale k (turn s n d).
Proof. intros s n k d. unfold turn. destruct (mat_is_mirror _); [|reflexivity]. unfold mirror_image, dot. apply vec_eq; cbn; ring. Qed.
Lemma turn_unit : forall s n d, is_unit n -> is_unit d -> is_unit (turn s n d).
Proof. intros s n d N D. unfold turn. destruct (mat_is_mirror _); [apply mirror_image_unit; assumption|exact D]. Qed.

Lemma figured_step : forall s r p d, figured s -> r_position r = Some p -> r_direction r = Some d ->
  r_index r = 1 -> is_unit d ->
  r_index (surface_propagate s r) = 1 /\
  r_position (surface_propagate s r) = omap (global_point s) (sag_intercept (sf_sag s) (local_point s p) (local_vector s d)) /\
  (forall x n, sag_intercept (sf_sag s) (local_point s p) (local_vector s d) = Some x -> sag_normal (sf_sag s) x = Some n ->
     r_direction (surface_propagate s r) = Some (global_vector s (turn s n (local_vector s d)))) /\
  (forall x, sag_intercept (sf_sag s) (local_point s p) (local_vector s d) = Some x -> sag_normal (sf_sag s) x = None ->
     r_direction (surface_propagate s r) = None).
Proof.
  intros s r p d (R & G & I1 & N & M) Hp Hd Hn U.
  destruct r as [w p0 d0 i a n v]. cbn in Hp, Hd, Hn. subst.
  unfold surface_propagate. rewrite inverse_ray.
  assert (U' := local_vector_unit s d R U).
  set (pl := local_point s p) in *. set (dl := local_vector s d) in *.
  assert (Tp : forall x, r_position (apply_transformation (sf_transformation s) x) = omap (global_point s) (r_position x)).
  { intros x. unfold apply_transformation, global_point. destruct (sf_transformation s); [reflexivity|]. destruct (r_position x); reflexivity. }
  assert (Td : forall x, r_direction (apply_transformation (sf_transformation s) x) = omap (global_vector s) (r_direction x)).
  { intros x. unfold apply_transformation, global_vector. destruct (sf_transformation s); [reflexivity|]. destruct (r_direction x); reflexivity. }
  assert (Ti : forall x, r_index (apply_transformation (sf_transformation s) x) = r_index x).
  { intros x. unfold apply_transformation. destruct (sf_transformation s); reflexivity. }
  rewrite Tp, Td, Ti. rewrite surface_local_position, incident_rulings_position.
  assert (Clip : forall A (f : ray -> A) r, (forall b r, f (set_unvignetted b r) = f r) ->
    f (match sf_aperture s with None => r | Some ap => clip_rays ap r end) = f r).
  { intros A f r0 Hf. destruct (sf_aperture s); [apply Hf|reflexivity]. }
  unfold surface_local. rewrite (Clip _ r_direction) by reflexivity. rewrite (Clip _ r_index) by reflexivity.
  cbn [r_direction r_index]. unfold surface_incident. rewrite G. unfold surface_normal, sag_propagate.
  cbn [r_position r_direction r_intensity r_attenuation r_index obind set_intensity set_position].
  split; [|split; [|split]].
  - destruct M as [[Mm Mi]|[Mm Mi]]; rewrite Mi; reflexivity.
  - reflexivity.
  - intros x n' X Nx. rewrite X. cbn [obind]. rewrite Nx. cbn [obind]. unfold turn.
    assert (Un := N x n' Nx).
    destruct M as [[Mm Mi]|[Mm Mi]]; rewrite Mm, Mi; cbn [r_index set_intensity set_position].
    + rewrite snells_law_reflect by (auto; lra). reflexivity.
    + rewrite snells_law_transmit_same by (auto; lra). reflexivity.
  - intros x X Nx. rewrite X. cbn [obind]. rewrite Nx. reflexivity.
Qed.

Lemma figured_index : forall l r, List.Forall figured l -> r_index r = 1 -> r_index (propagate_list surface_propagate l r) = 1.
Proof.
  intros l. induction l as [|s l IH]; intros r P H; [exact H|]. inversion P as [|? ? Ps Pl]; subst. cbn. apply IH; [exact Pl|].
  destruct Ps as (_ & _ & _ & _ & M).
  assert (X : r_index (surface_propagate s r) = mat_index (sf_material s) (surface_incident s (apply_inverse (sf_transformation s) r))).
  { unfold surface_propagate, surface_local, apply_transformation. destruct (sf_transformation s), (sf_aperture s); reflexivity. }
  rewrite X. destruct M as [[_ M]|[_ M]]; rewrite M; [|reflexivity].
  unfold surface_incident, sag_propagate, apply_inverse. destruct (sf_rulings s), (sf_transformation s); exact H.
Qed.

(** One surface, there and back. *)
Lemma there_and_back : forall s r p d q c, figured s -> r_position r = Some p -> r_direction r = Some d -> r_index r = 1 -> is_unit d ->
  r_position (surface_propagate s r) = Some q -> r_direction (surface_propagate s r) = Some c ->
  determined s q c -> struck s q c q ->
  is_unit c /\ on_line p d q /\ struck s p d q /\
  forall r' e q', e = 1 \/ e = -1 -> on_line q c q' -> r_position r' = Some q' -> r_direction r' = Some (vscale e c) -> r_index r' = 1 ->
    r_position (surface_propagate s r') = Some q /\ r_direction (surface_propagate s r') = Some (vscale e d) /\
    r_index (surface_propagate s r') = 1.
Proof.
  intros s r p d q c F Hp Hd Hn U Hq Hc D St. assert (F' := F). destruct F' as (R & G & I1 & N & M).
  destruct (figured_step s r p d F Hp Hd Hn U) as (_ & Sp & Sd & Sn). rewrite Hq in Sp. rewrite Hc in Sd, Sn.
  destruct (sag_intercept (sf_sag s) (local_point s p) (local_vector s d)) as [x|] eqn:X; [|discriminate Sp].
  cbn in Sp. injection Sp as Sp.
  assert (Lq : local_point s q = x) by (rewrite Sp; apply local_global_point; exact R).
  destruct (sag_normal (sf_sag s) x) as [n|] eqn:Nx; [|specialize (Sn x eq_refl Nx); discriminate Sn].
  assert (Un := N x n Nx). specialize (Sd x n eq_refl Nx). injection Sd as Sd.
  assert (Uc : is_unit c).
  { rewrite Sd. apply global_vector_unit; [exact R|]. apply turn_unit; [exact Un|]. apply local_vector_unit; assumption. }
  assert (Lc : local_vector s c = turn s n (local_vector s d)) by (rewrite Sd; apply local_global_vector; exact R).
  split; [exact Uc|]. split.
  { destruct (I1 _ _ _ X) as [t T]. exists t. rewrite Sp, T, global_point_line, global_local_point, global_local_vector by exact R. reflexivity. }
  split; [unfold struck; rewrite X, Lq; reflexivity|].
  intros r' e q' E [k L] Hp' Hd' Hn'.
  assert (Ue : is_unit (vscale e c)).
  { unfold is_unit in *. rewrite norm2_scale, Uc. destruct E as [->| ->]; ring. }
  destruct (figured_step s r' q' (vscale e c) F Hp' Hd' Hn' Ue) as (Ti & Tp & Td & _).
  assert (Y : sag_intercept (sf_sag s) (local_point s q') (local_vector s (vscale e c)) = Some x).
  { rewrite L, local_point_line, local_vector_scale, (D k e E). unfold struck in St. rewrite St, Lq. reflexivity. }
  rewrite Y in Tp. cbn in Tp. split; [rewrite Tp, <- Lq, global_local_point by exact R; reflexivity|]. split; [|exact Ti].
  rewrite (Td x n Y Nx), local_vector_scale, turn_scale, Lc, turn_turn by exact Un.
  rewrite global_vector_scale, global_local_vector by exact R. reflexivity.
Qed.

Lemma curved_retrace : forall ss, List.Forall figured ss -> forall r p d,
  r_position r = Some p -> r_direction r = Some d -> r_index r = 1 -> is_unit d -> clean_path ss r ->
  exists q c, r_position (propagate_list surface_propagate ss r) = Some q /\
  r_direction (propagate_list surface_propagate ss r) = Some c /\ is_unit c /\
  forall r' e q', e = 1 \/ e = -1 -> on_line q c q' -> r_position r' = Some q' ->
    r_direction r' = Some (vscale e c) -> r_index r' = 1 ->
    exists x, r_position (propagate_list surface_propagate (rev ss) r') = Some x /\
      r_direction (propagate_list surface_propagate (rev ss) r') = Some (vscale e d) /\
      r_index (propagate_list surface_propagate (rev ss) r') = 1 /\
      on_line p d x /\
      (forall s, hd_error ss = Some s -> struck s p d x).
Proof.
  intros ss. induction ss as [|s ss IH]; intros P r p d Hp Hd Hn U C.
  - exists p, d. cbn. split; [exact Hp|]. split; [exact Hd|]. split; [exact U|].
    intros r' e q' E L Hp' Hd' Hn'. exists q'. repeat split; auto. intros s; discriminate.
  - inversion P as [|? ? Ps Pss]; subst. destruct C as [(p0 & d0 & p1 & d1 & E1 & E2 & H1 & H2 & D1 & D2 & St) C].
    rewrite Hp in E1. rewrite Hd in E2. injection E1 as <-. injection E2 as <-.
    destruct (there_and_back s r p d p1 d1 Ps Hp Hd Hn U H1 H2 D2 St) as (U1 & O1 & S1 & B).
    assert (N1 : r_index (surface_propagate s r) = 1) by apply (figured_step s r p d Ps Hp Hd Hn U).
    destruct (IH Pss (surface_propagate s r) p1 d1 H1 H2 N1 U1 C) as (q & c & Q & Cc & Uc & K).
    exists q, c. split; [exact Q|]. split; [exact Cc|]. split; [exact Uc|].
    intros r' e q' E L Hp' Hd' Hn'. destruct (K r' e q' E L Hp' Hd' Hn') as (x & Kx & Kd & Kn & Kl & _).
    cbn [rev]. rewrite propagate_app. cbn [propagate_list].
    destruct (B _ e x E Kl Kx Kd Kn) as (B1 & B2 & B3).
    exists p1. split; [exact B1|]. split; [exact B2|]. split; [exact B3|]. split; [exact O1|].
    intros s0 Hs. injection Hs as <-. exact S1.
Qed.

(** The solved ray of the stop [i], carried back to the object, comes back to the stop. *)
Lemma curved_stop_ray : forall sys i stop r p d,
  (forall t, sys_transformation sys = Some t -> is_rigid t) ->
  nth_error (surfaces_all sys) i = Some stop ->
  (forall j s, (j <= i)%nat -> nth_error (surfaces_all sys) j = Some s -> figured (st_surface s)) ->
  r_position r = Some p -> r_direction r = Some d -> r_index r = 1 -> is_unit d ->
  struck (st_surface stop) p d p ->
  clean_path (map st_surface (reversed_subsystem (surfaces_all sys) i)) r ->
  exists out, nth_error (trace sys (stop_ray sys i r)) i = Some out /\
    r_position out = Some p /\ (r_direction out = Some d \/ r_direction out = Some (vopp d)) /\ r_index out = 1.
Proof.
  intros sys i stop r p d T Hi P Hp Hd Hn U O C.
  unfold reversed_subsystem in C. rewrite map_rev in C.
  set (l := map st_surface (firstn (S i) (surfaces_all sys))) in *.
  assert (Hl : exists ss, l = ss ++ [st_surface stop]).
  { exists (map st_surface (firstn i (surfaces_all sys))). unfold l.
    assert (F : firstn (S i) (surfaces_all sys) = firstn i (surfaces_all sys) ++ [stop]).
    { revert Hi. generalize (surfaces_all sys). clear. intros l. revert i. induction l as [|a l IH]; intros [|i] H; try discriminate.
      - cbn in H. injection H as ->. reflexivity.
      - cbn in H. cbn [firstn app]. f_equal. apply (IH i H). }
    rewrite F, map_app. reflexivity. }
  destruct Hl as [ss Hl].
  assert (Pl : List.Forall figured (rev l)).
  { apply Forall_rev. unfold l. rewrite Forall_map, Forall_forall. intros s I.
    apply In_nth_error in I. destruct I as [j J].
    assert (j < length (firstn (S i) (surfaces_all sys)))%nat by (apply nth_error_Some; congruence).
    rewrite firstn_length in H.
    apply (P j); [lia|]. rewrite <- (firstn_skipn (S i) (surfaces_all sys)), nth_error_app1; [exact J|].
    apply nth_error_Some. congruence. }
  assert (E0 : apply_inverse (sys_transformation sys) (stop_ray sys i r)
     = turn_round (st_surface (List.last (reversed_subsystem (surfaces_all sys) i) (sys_object sys)))
         (propagate_list surface_propagate (rev l) r)).
  { unfold stop_ray. unfold reversed_subsystem at 2. rewrite map_rev. fold l.
    generalize (turn_round (st_surface (last (reversed_subsystem (surfaces_all sys) i) (sys_object sys)))
      (propagate_list surface_propagate (rev l) r)). intros r0.
    destruct (sys_transformation sys) as [t|]; [|reflexivity]. cbn. apply ray_transform_inv. apply T. reflexivity. }
  set (obj := st_surface (List.last (reversed_subsystem (surfaces_all sys) i) (sys_object sys))) in *.
  set (back := propagate_list surface_propagate (rev l) r) in *.
  destruct (curved_retrace (rev l) Pl r p d Hp Hd Hn U C) as (q & c & Hq & Hc & Uc & K). fold back in Hq, Hc.
  destruct (turn_round_sign obj back c Hc) as (e & He & Ht).
  assert (Nb : r_index back = 1) by (apply figured_index; assumption).
  destruct (K (set_direction (Some (vscale e c)) back) e q He) as (x & Kx & Kd & Kn & _ & Kz); auto.
  { exists 0. apply vec_eq; cbn; ring. }
  rewrite rev_involutive in Kx, Kd, Kn.
  assert (Xp : x = p).
  { assert (S : struck (st_surface stop) p d x) by (apply Kz; rewrite Hl, rev_app_distr; reflexivity).
    unfold struck in S, O. rewrite O in S. injection S as S.
    assert (R : rigid_surface (st_surface stop)) by apply (P i stop (Nat.le_refl i) Hi).
    rewrite <- (global_local_point _ x R), <- S. apply global_local_point. exact R. }
  subst x.
  exists (propagate_list surface_propagate l (set_direction (Some (vscale e c)) back)).
  split; [|split; [exact Kx|split; [|exact Kn]]].
  - unfold trace. rewrite E0. fold back. rewrite Ht.
    assert (L : (i < length (map st_surface (surfaces_all sys)))%nat).
    { rewrite map_length. apply nth_error_Some. congruence. }
    destruct (accumulate_spec surface_propagate (map st_surface (surfaces_all sys)) (set_direction (Some (vscale e c)) back)) as (_ & A & _).
    rewrite (A i L). f_equal. unfold propagate_rays. cbn [as_list]. rewrite firstn_map. fold l. reflexivity.
  - rewrite Kd. destruct He as [->| ->]; [left|right]; f_equal; apply vec_eq; cbn; ring.
Qed.

(** Two rays on the same line take the same path. *)
Lemma curved_same_path : forall ss, List.Forall figured ss -> forall r r' p d e, r_position r = Some p -> r_position r' = Some p ->
  r_direction r = Some d -> r_direction r' = Some (vscale e d) -> is_unit d -> e = 1 \/ e = -1 -> r_index r = 1 -> r_index r' = 1 ->
  clean_path ss r ->
  r_position (propagate_list surface_propagate ss r') = r_position (propagate_list surface_propagate ss r) /\
  exists c, r_direction (propagate_list surface_propagate ss r) = Some c /\
    r_direction (propagate_list surface_propagate ss r') = Some (vscale e c).
Proof.
  induction ss as [|s ss IH]; intros P r r' p d e Hp Hp' Hd Hd' U E N N' C.
  - cbn. rewrite Hp, Hp', Hd, Hd'. split; [reflexivity|]. exists d. auto.
  - inversion P as [|? ? Ps Pss]; subst. destruct C as [(p0 & d0 & p1 & d1 & E1 & E2 & H1 & H2 & D1 & D2 & St) C].
    rewrite Hp in E1. rewrite Hd in E2. injection E1 as <-. injection E2 as <-. cbn [propagate_list].
    destruct (there_and_back s r p d p1 d1 Ps Hp Hd N U H1 H2 D2 St) as (U1 & _).
    assert (Ue : is_unit (vscale e d)).
    { unfold is_unit in *. rewrite norm2_scale, U. destruct E as [->| ->]; ring. }
    destruct (figured_step s r p d Ps Hp Hd N U) as (Si & Sp & Sd & Sn).
    destruct (figured_step s r' p (vscale e d) Ps Hp' Hd' N' Ue) as (Ti & Tp & Td & _).
    assert (Y : sag_intercept (sf_sag s) (local_point s p) (local_vector s (vscale e d)) = sag_intercept (sf_sag s) (local_point s p) (local_vector s d)).
    { rewrite local_vector_scale, <- (D1 0 e E). f_equal. apply vec_eq; cbn; ring. }
    rewrite Y in Tp, Td. rewrite H1 in Sp. rewrite H2 in Sd, Sn.
    destruct (sag_intercept (sf_sag s) (local_point s p) (local_vector s d)) as [x|] eqn:X; [|discriminate Sp].
    destruct (sag_normal (sf_sag s) x) as [n|] eqn:Nx; [|specialize (Sn x eq_refl Nx); discriminate Sn].
    specialize (Sd x n eq_refl Nx). specialize (Td x n eq_refl Nx). injection Sd as Sd.
    rewrite local_vector_scale, turn_scale, global_vector_scale, <- Sd in Td. rewrite <- Sp in Tp.
    apply (IH Pss (surface_propagate s r) (surface_propagate s r') p1 d1 e); auto.
Qed.
