(** Binning rays into pixels. *)
From Coq Require Import Reals List Bool Sorted Lra Lia.
From Coquelicot Require Import Coquelicot.
From Verif Require Import Vec Num NumLemmas RayModel ComplexModel ComplexLemmas LayerModel LayerProofs RamanathanModel SensorModel SensorSpec.
Import ListNotations.
Open Scope R_scope.

(** ** Bins *)
Lemma bin_some : forall edges k x j, bin_from k x edges = Some j ->
  exists i, j = (k + i)%nat /\ (i + 1 < length edges)%nat /\ nth i edges 0 <= x <= nth (S i) edges 0.
Proof.
  induction edges as [|e0 rest IH]; intros k x j H; [discriminate|].
  destruct rest as [|e1 rest']; [discriminate|].
  cbn [bin_from] in H. destruct (Rle_dec e0 x) as [L|]; [|discriminate].
  destruct (Rlt_dec x e1) as [U|U].
  - injection H as <-. exists 0%nat. cbn. repeat split; try lia; lra.
  - destruct rest' as [|e2 rest''].
    + destruct (Req_EM_T x e1) as [E|]; [|discriminate]. injection H as <-.
      exists 0%nat. cbn. repeat split; try lia; lra.
    + apply IH in H. destruct H as (i & -> & I & B). exists (S i). split; [lia|]. cbn [length] in *. split; [lia|exact B].
Qed.

Lemma bin_exists : forall edges k x, Sorted Rlt edges -> (2 <= length edges)%nat ->
  nth 0 edges 0 <= x <= last edges 0 -> exists j, bin_from k x edges = Some j.
Proof.
  induction edges as [|e0 rest IH]; intros k x S L B; [cbn in L; lia|].
  destruct rest as [|e1 rest']; [cbn in L; lia|].
  cbn [bin_from]. cbn [nth] in B. destruct (Rle_dec e0 x) as [L0|]; [|lra].
  destruct (Rlt_dec x e1) as [U|U]; [eauto|].
  destruct rest' as [|e2 rest''].
  - cbn in B. destruct (Req_EM_T x e1); [eauto|lra].
  - apply IH; [inversion S; assumption | cbn; lia |]. split; [cbn; lra | apply B].
Qed.

Lemma sorted_mono : forall l i j, Sorted Rlt l -> (i <= j < length l)%nat -> nth i l 0 <= nth j l 0.
Proof.
  intros l i j S. apply Sorted_StronglySorted in S; [|exact Rlt_trans].
  revert i j. induction l as [|a l IH]; intros i j [I J]; [cbn in J; lia|].
  inversion S as [|? ? S' F]; subst. destruct j as [|j]; [replace i with 0%nat by lia; lra|].
  cbn in J. destruct i as [|i]; [|apply IH; [assumption | lia]].
  change (nth 0 (a :: l) 0) with a. change (nth (Datatypes.S j) (a :: l) 0) with (nth j l 0).
  rewrite List.Forall_forall in F. left. apply F. apply nth_In. lia.
Qed.
Lemma last_nth : forall (l : list R), last l 0 = nth (length l - 1) l 0.
Proof.
  induction l as [|a l IH]; [reflexivity|]. destruct l as [|b l]; [reflexivity|].
  cbn [last]. cbn [last] in IH. rewrite IH. cbn [length]. replace (S (S (length l)) - 1)%nat with (S (length l)) by lia.
  replace (S (length l) - 1)%nat with (length l) by lia. reflexivity.
Qed.

Lemma edges_nth : forall w n i, (0 < n)%nat -> (i <= n)%nat -> nth i (pixel_edges w n) 0 = w * (INR i - INR n / 2).
Proof.
  intros w n i N I. unfold pixel_edges. cbv zeta.
  set (f := fun i : nat => _). change 0 with (0 : R).
  rewrite (nth_indep _ 0 (f 0%nat)) by (rewrite map_length, seq_length; lia).
  rewrite map_nth, seq_nth by lia. unfold f. cbn [Nat.add].
  assert (P : INR n <> 0) by (apply not_0_INR; lia). field. exact P.
Qed.
Lemma edges_length : forall w n, length (pixel_edges w n) = S n.
Proof. intros. unfold pixel_edges. cbv zeta. rewrite map_length, seq_length. lia. Qed.
Lemma sorted_map_seq : forall f n k, (forall i, (k <= i < k + n)%nat -> f i < f (S i)) -> Sorted Rlt (map f (seq k (S n))).
Proof.
  intros f n. induction n as [|n IH]; intros k H.
  - cbn. repeat constructor.
  - change (seq k (S (S n))) with (k :: seq (S k) (S n)). rewrite map_cons. constructor.
    + apply IH. intros i I. apply H. lia.
    + cbn. constructor. apply H. lia.
Qed.
Lemma edges_sorted : forall w n, 0 < w -> (0 < n)%nat -> Sorted Rlt (pixel_edges w n).
Proof.
  intros w n W N. unfold pixel_edges. cbv zeta. replace (n + 1)%nat with (S n) by lia. apply sorted_map_seq.
  intros i I. assert (P : 0 < INR n) by (apply lt_0_INR; lia). rewrite S_INR.
  replace (w * INR n / 2 - - (w * INR n / 2)) with (w * INR n) by field.
  replace (w * INR n / INR n) with w by (field; lra). lra.
Qed.

Lemma pixel_bin_some : forall w n x i, 0 < w -> (0 < n)%nat -> bin_index (pixel_edges w n) x = Some i ->
  (i < n)%nat /\ w * (INR i - INR n / 2) <= x <= w * (INR i + 1 - INR n / 2).
Proof.
  intros w n x i W N H. apply bin_some in H. destruct H as (j & -> & J & B). rewrite edges_length in J.
  cbn [Nat.add]. split; [lia|]. rewrite !edges_nth in B by lia. rewrite S_INR in B. exact B.
Qed.
Lemma pixel_bin_exists : forall w n x, 0 < w -> (0 < n)%nat -> Rabs x <= w * INR n / 2 ->
  exists i, bin_index (pixel_edges w n) x = Some i.
Proof.
  intros w n x W N X. apply bin_exists; [apply edges_sorted; assumption | rewrite edges_length; lia |].
  rewrite last_nth, edges_length, !edges_nth by lia. replace (S n - 1)%nat with n by lia. change (INR 0) with 0.
  apply Rabs_le_between in X. lra.
Qed.
Lemma pixel_bin_range : forall w n x i, 0 < w -> (0 < n)%nat -> bin_index (pixel_edges w n) x = Some i ->
  Rabs x <= w * INR n / 2.
Proof.
  intros w n x i W N H. apply pixel_bin_some in H; [|assumption..]. destruct H as [I B].
  assert (0 <= INR i) by apply pos_INR. assert (INR i + 1 <= INR n) by (rewrite <- S_INR; apply le_INR; lia).
  apply Rabs_le_between. split; nra.
Qed.

(** ** The cell of a ray *)
Lemma cell_some : forall s wl r c, good_grid s wl -> ray_cell s wl r = Some c ->
  In c (grid_cells s wl) /\ covers s wl c r /\ inside s wl r.
Proof.
  intros s wl r c (WX & WY & NX & NY & L & S) H. unfold ray_cell in H.
  destruct (bin_index wl (r_wavelength r)) as [k|] eqn:K; [|discriminate]. cbn [obind] in H.
  destruct (r_position r) as [p|] eqn:P; [|discriminate]. cbn [obind] in H.
  destruct (bin_index (pixel_edges (sn_width_x s) (sn_num_x s)) (vx p)) as [i|] eqn:I; [|discriminate]. cbn [obind] in H.
  destruct (bin_index (pixel_edges (sn_width_y s) (sn_num_y s)) (vy p)) as [j|] eqn:J; [|discriminate]. cbn [obind] in H.
  injection H as <-. unfold bin_index in K. apply bin_some in K. destruct K as (k' & -> & K & BK). cbn [Nat.add].
  destruct (pixel_bin_some _ _ _ _ WX NX I) as [I' BI]. destruct (pixel_bin_some _ _ _ _ WY NY J) as [J' BJ].
  split; [|split].
  - unfold grid_cells. apply in_prod; [apply in_prod|]; apply in_seq; lia.
  - cbn [covers]. split; [exact BK|]. exists p. split; [exact P|]. split; assumption.
  - split.
    + rewrite last_nth. assert (A := sorted_mono wl 0 k' S ltac:(lia)).
      assert (B := sorted_mono wl (Datatypes.S k') (length wl - 1) S ltac:(lia)). lra.
    + exists p. split; [exact P|]. split; [eapply pixel_bin_range; eassumption | eapply pixel_bin_range; eassumption].
Qed.
Lemma cell_exists : forall s wl r, good_grid s wl -> inside s wl r -> exists c, ray_cell s wl r = Some c.
Proof.
  intros s wl r (WX & WY & NX & NY & L & S) [B (p & P & X & Y)]. unfold ray_cell.
  destruct (bin_exists wl 0 (r_wavelength r) S L B) as [k K]. unfold bin_index at 1. rewrite K. cbn [obind]. rewrite P. cbn [obind].
  destruct (pixel_bin_exists _ _ _ WX NX X) as [i I]. rewrite I. cbn [obind].
  destruct (pixel_bin_exists _ _ _ WY NY Y) as [j J]. rewrite J. exists (k, i, j). reflexivity.
Qed.
Lemma cell_eqb_eq : forall a b, cell_eqb a b = true <-> a = b.
Proof.
  intros [[a1 a2] a3] [[b1 b2] b3]. unfold cell_eqb. rewrite !andb_true_iff, !PeanoNat.Nat.eqb_eq.
  split; [intros (-> & -> & ->); reflexivity | intros E; injection E; auto].
Qed.
Lemma cells_nodup : forall s wl, NoDup (grid_cells s wl).
Proof.
  intros. unfold grid_cells.
  assert (P : forall (A B : Type) (l : list A) (m : list B), NoDup l -> NoDup m -> NoDup (list_prod l m)).
  { intros A B l m NL NM. induction NL as [|a l NI NL IH]; [constructor|]. cbn [list_prod].
    assert (D : forall (u v : list (A * B)), NoDup u -> NoDup v -> (forall x, In x u -> ~ In x v) -> NoDup (u ++ v)).
    { intros u v U V H. induction U as [|x u X U IHU]; [exact V|]. cbn. constructor.
      - rewrite in_app_iff. intros [I|I]; [contradiction | exact (H x (or_introl eq_refl) I)].
      - apply IHU. intros y Y. apply H. right. exact Y. }
    apply D; [|exact IH|].
    - clear - NM. induction NM as [|b m X NM IH]; [constructor|]. cbn. constructor; [|exact IH].
      rewrite in_map_iff. intros (y & E & Y). injection E as <-. contradiction.
    - intros [x y] I J. apply in_map_iff in I. destruct I as (z & E & _). injection E as <- <-. apply in_prod_iff in J. apply NI, J. }
  apply P; [apply P|]; apply seq_NoDup.
Qed.

(** ** Histograms *)
Lemma osum_some : forall {A} (f : A -> option R) (g : A -> R) l, (forall a, In a l -> f a = Some (g a)) ->
  osum (map f l) = Some (rsum (map g l)).
Proof.
  intros A f g l H. induction l as [|a l IH]; [reflexivity|]. cbn [map osum fold_right]. fold (osum (map f l)).
  rewrite (H a) by (left; reflexivity). cbn [obind]. rewrite IH by (intros; apply H; right; assumption). reflexivity.
Qed.
Lemma osum_none : forall {A} (f : A -> option R) l a, In a l -> f a = None -> osum (map f l) = None.
Proof.
  intros A f l a I H. induction l as [|b l IH]; [contradiction|]. cbn [map osum fold_right]. fold (osum (map f l)).
  destruct I as [->|I]; [rewrite H; reflexivity|]. destruct (f b); [|reflexivity]. cbn [obind]. rewrite IH by exact I. reflexivity.
Qed.
Definition in_cell (s : imaging_sensor) (wl : list R) (c : cell) (rw : ray * bool) : bool :=
  match ray_cell s wl (fst rw) with Some c' => cell_eqb c' c | None => false end.
Lemma in_cell_iff : forall s wl c rw, in_cell s wl c rw = true <-> ray_cell s wl (fst rw) = Some c.
Proof.
  intros s wl c rw. unfold in_cell. destruct (ray_cell s wl (fst rw)) as [c'|]; [|split; discriminate].
  rewrite cell_eqb_eq. split; [intros ->; reflexivity | congruence].
Qed.
Lemma flux_some : forall rw, r_intensity (fst rw) <> None -> ray_flux rw = Some (intensity_of (fst rw) * obool (ray_where rw)).
Proof. intros rw H. unfold ray_flux, intensity_of. destruct (r_intensity (fst rw)); [reflexivity | congruence]. Qed.
Lemma where_iff : forall rw, ray_where rw = true <-> counted rw.
Proof. intros. unfold ray_where, counted. rewrite andb_true_iff. tauto. Qed.

Lemma rsum_filter : forall {A} (f : A -> R) (b : A -> bool) l, rsum (map f (filter b l)) = rsum (map (fun a => f a * obool (b a)) l).
Proof.
  intros A f b l. induction l as [|a l IH]; [reflexivity|]. cbn [filter map]. cbn [rsum fold_right]. fold (rsum (map (fun a => f a * obool (b a)) l)).
  rewrite <- IH. destruct (b a); cbn [obool map rsum fold_right]; [unfold rsum; ring | fold (rsum (map f (filter b l))); ring].
Qed.

(** One indicator per cell adds up to the indicator of the grid. *)
Lemma rsum_single : forall (cells : list cell) (c0 : cell), NoDup cells -> In c0 cells ->
  rsum (map (fun c => obool (cell_eqb c0 c)) cells) = 1.
Proof.
  intros cells c0 N I. induction N as [|c cells NI N IH]; [contradiction|]. cbn [map rsum fold_right].
  fold (rsum (map (fun c => obool (cell_eqb c0 c)) cells)). destruct I as [->|I].
  - rewrite (proj2 (cell_eqb_eq c0 c0) eq_refl). rewrite (rsum_map_ext _ (fun _ => 0)); [rewrite rsum_map_0; cbn; ring|].
    intros c J. destruct (cell_eqb c0 c) eqn:E; [|reflexivity]. apply cell_eqb_eq in E. subst. contradiction.
  - rewrite IH by exact I. destruct (cell_eqb c0 c) eqn:E; [|cbn; ring]. apply cell_eqb_eq in E. subst. contradiction.
Qed.

Lemma indicator_sum : forall s wl rw, good_grid s wl ->
  rsum (map (fun c => obool (in_cell s wl c rw)) (grid_cells s wl)) =
  match ray_cell s wl (fst rw) with Some _ => 1 | None => 0 end.
Proof.
  intros s wl rw G. unfold in_cell. destruct (ray_cell s wl (fst rw)) as [c0|] eqn:E.
  - apply rsum_single; [apply cells_nodup | apply (cell_some _ _ _ _ G E)].
  - cbn [obool]. apply rsum_map_0.
Qed.

Definition sum_flux (s : imaging_sensor) (wl : list R) (rays : list (ray * bool)) (c : cell) : R :=
  rsum (map (fun rw => intensity_of (fst rw) * obool (ray_where rw)) (filter (in_cell s wl c) rays)).

Lemma image_value : forall s wl rays c,
  (forall rw, In rw rays -> ray_cell s wl (fst rw) = Some c -> r_intensity (fst rw) <> None) ->
  collect_image s wl rays c = Some (sum_flux s wl rays c).
Proof.
  intros s wl rays c H. unfold collect_image, histogram, sum_flux.
  change (fun a : ray * bool => match ray_cell s wl (fst a) with Some c' => cell_eqb c' c | None => false end) with (in_cell s wl c).
  apply osum_some. intros rw I. apply filter_In in I. destruct I as [I C]. apply flux_some, H; [exact I | apply in_cell_iff, C].
Qed.

Lemma flux_conserved : forall s wl rays, good_grid s wl ->
  (forall rw, In rw rays -> inside s wl (fst rw) -> r_intensity (fst rw) <> None) ->
  forall b, (forall rw, b rw = true <-> counted rw /\ inside s wl (fst rw)) ->
  osum (map (collect_image s wl rays) (grid_cells s wl)) =
  Some (rsum (map (fun rw => intensity_of (fst rw)) (filter b rays))).
Proof.
  intros s wl rays G H b B.
  rewrite (osum_some _ (sum_flux s wl rays)).
  2:{ intros c _. apply image_value. intros rw I C. apply H; [exact I|]. apply (cell_some _ _ _ _ G C). }
  f_equal. rewrite rsum_filter.
  transitivity (rsum (map (fun rw => rsum (map (fun c => intensity_of (fst rw) * obool (ray_where rw) * obool (in_cell s wl c rw)) (grid_cells s wl))) rays)).
  - rewrite rsum_swap. apply rsum_map_ext. intros c _. unfold sum_flux. apply rsum_filter.
  - apply rsum_map_ext. intros rw _. rewrite rsum_map_scale, indicator_sum by exact G.
    assert (E : b rw = true <-> ray_where rw = true /\ ray_cell s wl (fst rw) <> None).
    { rewrite B, where_iff. split; intros [W X]; (split; [exact W|]).
      - destruct (cell_exists _ _ _ G X) as [c E]. congruence.
      - destruct (ray_cell s wl (fst rw)) as [c|] eqn:E; [|congruence]. apply (cell_some _ _ _ _ G E). }
    destruct (b rw) eqn:EB, (ray_where rw) eqn:EW, (ray_cell s wl (fst rw)) as [c|] eqn:EC; cbn [obool]; try ring;
      exfalso; destruct E as [E1 E2]; try (destruct (E1 eq_refl); congruence); try (assert (false = true) by (apply E2; split; congruence); discriminate).
Qed.

(** One ray. *)
Lemma one_ray : forall s wl r i, good_grid s wl -> r_intensity r = Some i -> r_unvignetted r = true ->
  inside s wl r -> exists c, In c (grid_cells s wl) /\ covers s wl c r /\
    collect_image s wl [(r, true)] c = Some i /\
    (forall c', In c' (grid_cells s wl) -> c' <> c -> collect_image s wl [(r, true)] c' = Some 0).
Proof.
  intros s wl r i G I U X. destruct (cell_exists _ _ _ G X) as [c E]. destruct (cell_some _ _ _ _ G E) as (C1 & C2 & _).
  exists c. split; [exact C1|]. split; [exact C2|].
  assert (V : forall c, collect_image s wl [(r, true)] c = Some (sum_flux s wl [(r, true)] c)).
  { intros c0. apply image_value. intros rw [<-|[]] _. cbn. congruence. }
  split.
  - rewrite V. unfold sum_flux. cbn [filter]. rewrite (proj2 (in_cell_iff s wl c (r, true)) E). cbn.
    unfold intensity_of, ray_where. rewrite I. cbn. rewrite U. cbn. f_equal. ring.
  - intros c' _ N. rewrite V. unfold sum_flux. cbn [filter]. destruct (in_cell s wl c' (r, true)) eqn:Q; [|reflexivity].
    apply in_cell_iff in Q. cbn in Q. congruence.
Qed.
Lemma outside_ray : forall s wl r w c, good_grid s wl -> r_intensity r <> None ->
  ~ (counted (r, w) /\ inside s wl r) -> collect_image s wl [(r, w)] c = Some 0.
Proof.
  intros s wl r w c G I N. rewrite image_value by (intros rw [<-|[]] _; exact I). unfold sum_flux. cbn [filter].
  destruct (in_cell s wl c (r, w)) eqn:Q; [|reflexivity]. apply in_cell_iff in Q. cbn [fst] in Q.
  destruct (ray_where (r, w)) eqn:W.
  - exfalso. apply N. split; [apply where_iff, W | apply (cell_some _ _ _ _ G Q)].
  - cbn. rewrite W. cbn. f_equal. ring.
Qed.

(** ** The cosine of a pixel *)
Definition flux_of (rw : ray * bool) : R := intensity_of (fst rw) * obool (ray_where rw).
Lemma moment_value : forall part s wl rays c,
  (forall rw, In rw rays -> ray_cell s wl (fst rw) = Some c -> numeric s rw) ->
  histogram (fun rw => ray_cell s wl (fst rw)) (weighted part s) rays c =
  Some (rsum (map (fun rw => flux_of rw * part (cosine_of s rw)) (filter (in_cell s wl c) rays))).
Proof.
  intros part s wl rays c H. unfold histogram.
  change (fun a : ray * bool => match ray_cell s wl (fst a) with Some c' => cell_eqb c' c | None => false end) with (in_cell s wl c).
  apply osum_some. intros rw I. apply filter_In in I. destruct I as [I C]. apply in_cell_iff in C.
  destruct (H rw I C) as [F D]. unfold weighted. rewrite flux_some by exact F. cbn [obind]. unfold flux_of, cosine_of.
  destruct (ray_cosine s rw); [reflexivity | congruence].
Qed.

Lemma direction_value : forall s wl rays c,
  (forall rw, In rw rays -> ray_cell s wl (fst rw) = Some c -> numeric s rw) ->
  collect_direction s wl rays c =
  if Rlt_dec 0 (sum_flux s wl rays c) then
    Some (rsum (map (fun rw => flux_of rw * Re (cosine_of s rw)) (filter (in_cell s wl c) rays)) / sum_flux s wl rays c,
          rsum (map (fun rw => flux_of rw * Im (cosine_of s rw)) (filter (in_cell s wl c) rays)) / sum_flux s wl rays c)
  else Some (RtoC 1).
Proof.
  intros s wl rays c H. unfold collect_direction. rewrite image_value by (intros rw I C; apply (H rw I C)).
  rewrite !moment_value by exact H. destruct (Rlt_dec 0 (sum_flux s wl rays c)) as [P|P]; [|reflexivity].
  cbn [obind]. rewrite !odiv_nz by lra. reflexivity.
Qed.

Lemma split_members : forall s wl rays c b (g : ray * bool -> R), (forall rw, b rw = true <-> hits s wl c rw) ->
  rsum (map (fun rw => flux_of rw * g rw) (filter (in_cell s wl c) rays)) =
  rsum (map (fun rw => intensity_of (fst rw) * g rw) (filter b rays)).
Proof.
  intros s wl rays c b g B. rewrite !rsum_filter. apply rsum_map_ext. intros rw _. unfold flux_of.
  assert (E : b rw = ray_where rw && in_cell s wl c rw).
  { apply eq_true_iff_eq. rewrite B, andb_true_iff, where_iff, in_cell_iff. reflexivity. }
  rewrite E. destruct (ray_where rw), (in_cell s wl c rw); cbn; ring.
Qed.
Lemma flux_members : forall s wl rays c b, (forall rw, b rw = true <-> hits s wl c rw) ->
  sum_flux s wl rays c = rsum (map (fun rw => intensity_of (fst rw)) (filter b rays)).
Proof.
  intros s wl rays c b B. transitivity (rsum (map (fun rw => flux_of rw * 1) (filter (in_cell s wl c) rays))).
  - unfold sum_flux, flux_of. apply rsum_map_ext. intros; ring.
  - rewrite (split_members _ _ _ _ b) by exact B. apply rsum_map_ext. intros; ring.
Qed.

Section Cosine.
  Variables (s : imaging_sensor) (wl : list R) (rays : list (ray * bool)) (c : cell).
  Hypothesis N : forall rw, In rw rays -> numeric s rw.

  Lemma direction_mean : forall b, (forall rw, b rw = true <-> hits s wl c rw) ->
    0 < rsum (map (fun rw => intensity_of (fst rw)) (filter b rays)) ->
    exists d, collect_direction s wl rays c = Some d /\
      is_weighted_mean (fun rw => intensity_of (fst rw)) (fun rw => Re (cosine_of s rw)) (filter b rays) (Re d) /\
      is_weighted_mean (fun rw => intensity_of (fst rw)) (fun rw => Im (cosine_of s rw)) (filter b rays) (Im d).
  Proof.
    intros b B P. rewrite direction_value by (intros rw I _; exact (N rw I)).
    rewrite (flux_members _ _ _ _ b B). destruct (Rlt_dec 0 _) as [P'|P']; [|contradiction].
    eexists. split; [reflexivity|]. cbn [Re Im fst snd].
    rewrite !(split_members s wl rays c b) by exact B.
    split; (split; [exact P|]); field; lra.
  Qed.

  Lemma direction_empty : forall b, (forall rw, b rw = true <-> hits s wl c rw) ->
    rsum (map (fun rw => intensity_of (fst rw)) (filter b rays)) = 0 ->
    collect_direction s wl rays c = Some (RtoC 1).
  Proof.
    intros b B P. rewrite direction_value by (intros rw I _; exact (N rw I)).
    rewrite (flux_members _ _ _ _ b B), P. destruct (Rlt_dec 0 0); [lra | reflexivity].
  Qed.

  Lemma direction_hull : (forall rw, In rw rays -> 0 <= intensity_of (fst rw)) ->
    (exists rw, In rw rays /\ hits s wl c rw /\ 0 < intensity_of (fst rw)) ->
    exists d, collect_direction s wl rays c = Some d /\
      forall u v k, (forall rw, In rw rays -> hits s wl c rw -> u * Re (cosine_of s rw) + v * Im (cosine_of s rw) <= k) ->
        u * Re d + v * Im d <= k.
  Proof.
    intros NN (r0 & I0 & H0 & F0). set (b := fun rw => ray_where rw && in_cell s wl c rw).
    assert (B : forall rw, b rw = true <-> hits s wl c rw) by (intros rw; unfold b, hits; rewrite andb_true_iff, where_iff, in_cell_iff; reflexivity).
    assert (P : 0 < rsum (map (fun rw => intensity_of (fst rw)) (filter b rays))).
    { assert (I : In r0 (filter b rays)) by (apply filter_In; split; [exact I0 | apply B, H0]).
      assert (A : forall l, (forall rw, In rw l -> 0 <= intensity_of (fst rw)) -> In r0 l -> 0 < rsum (map (fun rw : ray * bool => intensity_of (fst rw)) l)).
      { induction l as [|a l IH]; intros Q J; [contradiction|]. cbn [map rsum fold_right]. fold (rsum (map (fun rw : ray * bool => intensity_of (fst rw)) l)).
        assert (Z := rsum_map_nonneg (fun rw : ray * bool => intensity_of (fst rw)) l ltac:(intros; apply Q; right; assumption)).
        assert (Z0 := Q a (or_introl eq_refl)). destruct J as [->|J]; [lra|]. assert (Z1 := IH ltac:(intros; apply Q; right; assumption) J). lra. }
      apply A; [|exact I]. intros rw J. apply filter_In in J. apply NN, J. }
    destruct (direction_mean b B P) as (d & D & [_ M1] & [_ M2]). exists d. split; [exact D|].
    intros u v k H. set (T := rsum (map (fun rw => intensity_of (fst rw)) (filter b rays))) in *.
    apply Rmult_le_reg_r with T; [exact P|].
    replace ((u * Re d + v * Im d) * T) with (u * (Re d * T) + v * (Im d * T)) by ring. rewrite M1, M2.
    unfold T. rewrite <- !rsum_map_scale, <- rsum_map_plus.
    apply rsum_map_le. intros rw J. apply filter_In in J. destruct J as [J J']. apply B in J'.
    assert (Q := H rw J J'). assert (Z := NN rw J). nra.
  Qed.
End Cosine.

Lemma scale_where : forall k rw, ray_where (scale_intensity k rw) = ray_where rw.
Proof. intros k [r w]. reflexivity. Qed.
Lemma scale_cosine : forall k s rw, ray_cosine s (scale_intensity k rw) = ray_cosine s rw.
Proof. intros k s [r w]. reflexivity. Qed.
Lemma scale_cell : forall k s wl rw, ray_cell s wl (fst (scale_intensity k rw)) = ray_cell s wl (fst rw).
Proof. intros k s wl [r w]. reflexivity. Qed.
Lemma scale_flux : forall k rw, ray_flux (scale_intensity k rw) = omap (Rmult k) (ray_flux rw).
Proof.
  intros k [r w]. unfold ray_flux, scale_intensity, ray_where. destruct r as [a p d i at0 n u]. cbn.
  destruct i as [i|]; cbn; [f_equal; ring | reflexivity].
Qed.
Lemma osum_scale : forall {A} k (f : A -> option R) l, osum (map (fun a => omap (Rmult k) (f a)) l) = omap (Rmult k) (osum (map f l)).
Proof.
  intros A k f l. induction l as [|a l IH]; [cbn; f_equal; ring|]. cbn [map osum fold_right].
  fold (osum (map f l)). fold (osum (map (fun a => omap (Rmult k) (f a)) l)). rewrite IH.
  destruct (f a) as [x|]; [|reflexivity]. cbn [omap obind]. destruct (osum (map f l)) as [y|]; [|reflexivity]. cbn. f_equal. ring.
Qed.
Lemma filter_map : forall {A B} (f : A -> B) p l, filter p (map f l) = map f (filter (fun a => p (f a)) l).
Proof. intros A B f p l. induction l as [|a l IH]; [reflexivity|]. cbn. destruct (p (f a)); cbn; rewrite IH; reflexivity. Qed.
Lemma histogram_scale : forall k s wl (w1 : ray * bool -> option R) rays c,
  (forall rw, w1 (scale_intensity k rw) = omap (Rmult k) (w1 rw)) ->
  histogram (fun rw => ray_cell s wl (fst rw)) w1 (map (scale_intensity k) rays) c =
  omap (Rmult k) (histogram (fun rw => ray_cell s wl (fst rw)) w1 rays c).
Proof.
  intros k s wl w1 rays c H. unfold histogram. rewrite filter_map, map_map.
  rewrite <- osum_scale. f_equal.
  erewrite filter_ext; [apply map_ext; intros rw; apply H|]. intros rw. cbv beta. rewrite scale_cell. reflexivity.
Qed.
Lemma direction_scale : forall s wl rays c k, 0 < k ->
  collect_direction s wl (map (scale_intensity k) rays) c = collect_direction s wl rays c.
Proof.
  intros s wl rays c k K. unfold collect_direction, collect_image.
  assert (W : forall part rw, weighted part s (scale_intensity k rw) = omap (Rmult k) (weighted part s rw)).
  { intros part rw. unfold weighted. rewrite scale_flux, scale_cosine. destruct (ray_flux rw); [|reflexivity]. cbn.
    destruct (ray_cosine s rw); cbn; [f_equal; ring | reflexivity]. }
  rewrite (histogram_scale k s wl ray_flux) by apply scale_flux.
  rewrite (histogram_scale k s wl (weighted Re s)), (histogram_scale k s wl (weighted Im s)) by apply W.
  destruct (histogram _ ray_flux rays c) as [f|]; [|reflexivity]. cbn [omap].
  assert (E : (if Rlt_dec 0 (k * f) then true else false) = (if Rlt_dec 0 f then true else false)).
  { destruct (Rlt_dec 0 (k * f)), (Rlt_dec 0 f); try reflexivity; exfalso; nra. }
  rewrite E. destruct (Rlt_dec 0 f) as [F|F]; [|reflexivity].
  assert (Q : forall m, obind (omap (Rmult k) m) (fun m => obind (Some (k * f)) (fun i => odiv m i)) = obind m (fun m => obind (Some f) (fun i => odiv m i))).
  { intros [m|]; [|reflexivity]. cbn. rewrite !odiv_nz by nra. f_equal. field. lra. }
  rewrite !Q. reflexivity.
Qed.

(** ** The refracted cosine of a ray *)
Lemma ideal_cosine : forall s r b d, sn_material s = Ideal -> r_direction r = Some d -> ray_cosine s (r, b) = Some (RtoC (vz d)).
Proof.
  intros s r b d M D. unfold ray_cosine. cbn [fst]. rewrite D. cbn [obind]. rewrite M. unfold direction_refracted, dot, vopp. cbn [vx vy vz].
  do 2 f_equal. ring.
Qed.

Lemma silicon_cosine : forall s r b d m c, sn_material s = Silicon m -> 0 < r_wavelength r -> r_direction r = Some d ->
  ray_cosine s (r, b) = Some c ->
  exists n : C, Re n = r_index r /\
    (forall x, (Cmod (cexp (Ci * (n * RtoC (2 * PI / r_wavelength r * x)%R))%C)) ^ 2 = exp (- (r_attenuation r * x))) /\
    ((si_n m (r_wavelength r) * si_n m (r_wavelength r)) * (1 - c * c) = (n * n) * (1 - RtoC (vz d) * RtoC (vz d)))%C /\ 0 <= Re c.
Proof.
  intros s r b d m c M W D E. exists (ray_n r). split; [reflexivity|]. split.
  - intros x. rewrite Cmod_cexp. unfold ray_n, Ci, RtoC, Re, Im, Cmult. cbn [fst snd]. cbn [pow]. rewrite Rmult_1_r, <- exp_plus. f_equal.
    field. split; [lra|]. apply Rgt_not_eq, PI_RGT_0.
  - unfold ray_cosine in E. cbn [fst] in E. rewrite D in E. cbn [obind] in E. rewrite M in E. unfold direction_refracted in E.
    replace (dot (vopp d) (V3 0 0 (-1))) with (vz d) in E by (unfold dot, vopp; cbn [vx vy vz]; ring).
    apply (snell_law_holds _ _ _ _ E).
Qed.
