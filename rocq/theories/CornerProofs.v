(** The corners are the images of the normalized coordinates -1 and 1. *)
From Coq Require Import Reals List Bool Lra.
From Verif Require Import Vec Num NumLemmas RayModel SystemModel SystemSpec SystemProofs CornerModel CornerSpec.
Import ListNotations.
Open Scope R_scope.
Open Scope opt_scope.

Lemma denormalize_low : forall l v, denormalize l (-1) = Some v -> list_min l = Some v.
Proof.
  intros l v H. unfold denormalize in H. destruct (list_min l) as [mn|]; [|discriminate].
  destruct (list_max l) as [mx|]; [|discriminate]. cbn in H. injection H as <-. f_equal. field.
Qed.
Lemma denormalize_high : forall l v, denormalize l 1 = Some v -> list_max l = Some v.
Proof.
  intros l v H. unfold denormalize in H. destruct (list_min l) as [mn|]; [|discriminate].
  destruct (list_max l) as [mx|]; [|discriminate]. cbn in H. injection H as <-. f_equal. field.
Qed.

Lemma corner_of_grid : forall sys stops w b g,
  denormalize_grid sys stops (mkGrid w (sign_of b, sign_of b) (sign_of b, sign_of b)) true true = Some g ->
  corner sys true b stops = Some (g_field g) /\ corner sys false b stops = Some (g_pupil g).
Proof.
  intros sys stops w b g H. unfold denormalize_grid in H. cbn [negb andb] in H.
  destruct (all_some (map ray_xy stops)) as [xy|] eqn:X; [|discriminate].
  destruct (all_some (map ray_angles stops)) as [an|] eqn:A; [|discriminate]. cbn [obind g_field g_pupil] in H.
  unfold corner, stop_coordinates. rewrite X, A.
  assert (D : forall l v, denormalize2 l (sign_of b, sign_of b) = Some v ->
    (let* x := (if b then list_max else list_min) (map fst l) in
     let* y := (if b then list_max else list_min) (map snd l) in Some (x, y)) = Some v).
  { intros l v E. unfold denormalize2 in E. cbn [fst snd] in E.
    destruct (denormalize (map fst l) (sign_of b)) as [x|] eqn:Ex; [|discriminate].
    destruct (denormalize (map snd l) (sign_of b)) as [y|] eqn:Ey; [|discriminate]. cbn in E. injection E as <-.
    destruct b; [apply denormalize_high in Ex; apply denormalize_high in Ey|apply denormalize_low in Ex; apply denormalize_low in Ey];
      rewrite Ex, Ey; reflexivity. }
  destruct (sys_at_infinity sys); cbn [Bool.eqb obind].
  - destruct (denormalize2 an _) as [f|] eqn:F; [|discriminate]. destruct (denormalize2 xy _) as [p|] eqn:P; [|discriminate].
    cbn in H. injection H as <-. cbn. split; apply D; assumption.
  - destruct (denormalize2 xy _) as [f|] eqn:F; [|discriminate]. destruct (denormalize2 an _) as [p|] eqn:P; [|discriminate].
    cbn in H. injection H as <-. cbn. split; apply D; assumption.
Qed.

Definition sound (calc : R -> list ray) (s : stop_state) : Prop :=
  match ss_cached s with Some l => l = calc (ss_wavelength s) | None => True end.

Lemma never_set_sound : forall calc sys l s, never_set l -> sound calc s ->
  ss_wavelength (fold_left (stop_step calc sys) l s) = ss_wavelength s /\ sound calc (fold_left (stop_step calc sys) l s).
Proof.
  intros calc sys. induction l as [|a l IH]; intros s N S; [auto|]. cbn.
  assert (N' : never_set l) by (intros w I; apply (N w); right; exact I).
  assert (Q : ss_wavelength (stop_step calc sys s a) = ss_wavelength s /\ sound calc (stop_step calc sys s a)).
  { destruct a as [f m|w|]; cbn.
    - unfold ask_corner, rayfunction_stops. destruct (ss_cached s) as [c|] eqn:C; cbn; [auto|]. split; reflexivity.
    - exfalso. apply (N w). left. reflexivity.
    - split; [reflexivity|exact I]. }
  destruct Q as [Q1 Q2]. destruct (IH _ N' Q2) as [A B]. rewrite A, Q1. auto.
Qed.

Lemma sound_corner : forall calc sys s f m, sound calc s ->
  snd (ask_corner calc sys f m s) = corner sys f m (calc (ss_wavelength s)).
Proof.
  intros calc sys s f m S. unfold ask_corner, rayfunction_stops, sound in *.
  destruct (ss_cached s) as [c|]; [rewrite S|]; reflexivity.
Qed.

Lemma corners : forall calc sys w l b g, never_set l ->
  denormalize_grid sys (calc w) (mkGrid w (sign_of b, sign_of b) (sign_of b, sign_of b)) true true = Some g ->
  snd (ask_corner calc sys true b (stop_history calc sys w l)) = Some (g_field g) /\
  snd (ask_corner calc sys false b (stop_history calc sys w l)) = Some (g_pupil g).
Proof.
  intros calc sys w l b g N H.
  destruct (never_set_sound calc sys l (mkStopState w None) N I) as [A B].
  unfold stop_history. rewrite !sound_corner by exact B. rewrite A. apply (corner_of_grid sys (calc w) w). exact H.
Qed.

Lemma corners_cleared : forall calc sys w0 l w l' b g, never_set l' ->
  denormalize_grid sys (calc w) (mkGrid w (sign_of b, sign_of b) (sign_of b, sign_of b)) true true = Some g ->
  snd (ask_corner calc sys true b (stop_history calc sys w0 (l ++ [SetWavelength w; DelStops] ++ l'))) = Some (g_field g) /\
  snd (ask_corner calc sys false b (stop_history calc sys w0 (l ++ [SetWavelength w; DelStops] ++ l'))) = Some (g_pupil g).
Proof.
  intros calc sys w0 l w l' b g N H. unfold stop_history. rewrite !fold_left_app. cbn [fold_left stop_step ss_wavelength ss_cached].
  destruct (never_set_sound calc sys l' (mkStopState w None) N I) as [A B].
  rewrite !sound_corner by exact B. rewrite A. apply (corner_of_grid sys (calc w) w). exact H.
Qed.

(** The corners enclose every stop ray. *)
Lemma corner_bounds : forall sys f stops lo hi l, corner sys f false stops = Some lo -> corner sys f true stops = Some hi ->
  stop_coordinates sys f stops = Some l ->
  (forall c, In c l -> fst lo <= fst c <= fst hi /\ snd lo <= snd c <= snd hi) /\
  (exists a, In a l /\ fst a = fst lo) /\ (exists a, In a l /\ snd a = snd lo) /\
  (exists a, In a l /\ fst a = fst hi) /\ (exists a, In a l /\ snd a = snd hi).
Proof.
  intros sys f stops lo hi l L H S. unfold corner in *. rewrite S in L, H. cbn [obind] in L, H.
  destruct l as [|c0 l]; [discriminate|].
  assert (Mn : forall (g : R * R -> R) v, list_min (map g (c0 :: l)) = Some v -> is_least (map g (c0 :: l)) v).
  { intros g v E. destruct (list_min_spec (map g (c0 :: l))) as (m & M & Lm); [discriminate|]. rewrite E in M. injection M as ->. exact Lm. }
  assert (Mx : forall (g : R * R -> R) v, list_max (map g (c0 :: l)) = Some v -> is_greatest (map g (c0 :: l)) v).
  { intros g v E. destruct (list_max_spec (map g (c0 :: l))) as (m & M & Lm); [discriminate|]. rewrite E in M. injection M as ->. exact Lm. }
  destruct (list_min (map fst (c0 :: l))) as [x0|] eqn:X0; [|discriminate]. destruct (list_min (map snd (c0 :: l))) as [y0|] eqn:Y0; [|discriminate].
  destruct (list_max (map fst (c0 :: l))) as [x1|] eqn:X1; [|discriminate]. destruct (list_max (map snd (c0 :: l))) as [y1|] eqn:Y1; [|discriminate].
  cbn [obind] in L, H. injection L as <-. injection H as <-. cbn [fst snd].
  apply Mn in X0, Y0. apply Mx in X1, Y1. destruct X0 as [Ix0 Bx0], Y0 as [Iy0 By0], X1 as [Ix1 Bx1], Y1 as [Iy1 By1].
  split.
  { intros c I. split; split; [apply Bx0|apply Bx1|apply By0|apply By1]; apply in_map; exact I. }
  apply in_map_iff in Ix0, Iy0, Ix1, Iy1. destruct Ix0 as (a & E & I0), Iy0 as (b & F & I1), Ix1 as (c & G & I2), Iy1 as (d & K & I3).
  repeat split; eexists; eauto.
Qed.

Lemma stale : forall calc sys w l f m f' m', (forall a, In a l -> a <> DelStops) ->
  snd (ask_corner calc sys f m (stop_history calc sys w (AskCorner f' m' :: l))) = corner sys f m (calc w).
Proof.
  intros calc sys w l f m f' m' N. unfold stop_history. cbn.
  assert (K : forall l s, (forall a, In a l -> a <> DelStops) -> ss_cached s = Some (calc w) ->
    ss_cached (fold_left (stop_step calc sys) l s) = Some (calc w)).
  { clear. induction l as [|a l IH]; intros s N C; [exact C|]. cbn. apply IH; [intros b I; apply N; right; exact I|].
    destruct a as [g n|v|]; cbn.
    - unfold ask_corner, rayfunction_stops. rewrite C. exact C.
    - exact C.
    - exfalso. apply (N DelStops); [left|]; reflexivity. }
  unfold ask_corner, rayfunction_stops. rewrite (K l _ N) by reflexivity. reflexivity.
Qed.

(** The same of the rays: none is left out. *)
Lemma all_some_each : forall (A B : Type) (f : A -> option B) l r, all_some (map f l) = Some r ->
  (forall a, In a l -> exists b, f a = Some b /\ In b r) /\ (forall b, In b r -> exists a, In a l /\ f a = Some b).
Proof.
  intros A B f l. induction l as [|a l IH]; intros r H; cbn in H.
  - injection H as <-. split; intros ? [].
  - destruct (f a) as [b|] eqn:F; [|discriminate]. destruct (all_some (map f l)) as [r'|] eqn:E; [|discriminate]. cbn in H. injection H as <-.
    destruct (IH r' eq_refl) as [H1 H2]. split.
    + intros c [<-|I]; [exists b; split; [exact F|left; reflexivity]|]. destruct (H1 c I) as (d & D & J). exists d. split; [exact D|right; exact J].
    + intros c [<-|I]; [exists a; split; [left; reflexivity|exact F]|]. destruct (H2 c I) as (d & D & J). exists d. split; [right; exact D|exact J].
Qed.
Lemma corner_rays : forall sys f stops lo hi, corner sys f false stops = Some lo -> corner sys f true stops = Some hi ->
  let at_edge (part : R * R -> R) v := exists r c, In r stops /\ coordinates (sys_at_infinity sys) f r = Some c /\ part c = v in
  (forall r, In r stops -> exists c, coordinates (sys_at_infinity sys) f r = Some c /\ fst lo <= fst c <= fst hi /\ snd lo <= snd c <= snd hi) /\
  at_edge fst (fst lo) /\ at_edge snd (snd lo) /\ at_edge fst (fst hi) /\ at_edge snd (snd hi).
Proof.
  intros sys f stops lo hi L H. cbv zeta. destruct (stop_coordinates sys f stops) as [l|] eqn:S; [|unfold corner in L; rewrite S in L; discriminate].
  destruct (corner_bounds sys f stops lo hi l L H S) as (B & X0 & Y0 & X1 & Y1).
  assert (S' : all_some (map (coordinates (sys_at_infinity sys) f) stops) = Some l).
  { rewrite <- S. unfold stop_coordinates, coordinates. destruct (sys_at_infinity sys), f; reflexivity. }
  destruct (all_some_each _ _ _ _ _ S') as [A1 A2].
  assert (E : forall (part : R * R -> R) v, (exists a, In a l /\ part a = v) ->
    exists r c, In r stops /\ coordinates (sys_at_infinity sys) f r = Some c /\ part c = v).
  { intros part v (a & I & P). destruct (A2 a I) as (r & J & C). exists r, a. auto. }
  split; [|auto 10]. intros r I. destruct (A1 r I) as (c & C & J). exists c. split; [exact C|apply B; exact J].
Qed.
