(** The photons of an image. *)
From Coq Require Import Reals List Bool Lra Lia Sorted Arith.
From Verif Require Import Vec VecLemmas Num NumLemmas RayModel SnellModel SurfaceModel SequenceSpec SequenceProofs
  SystemModel SystemSpec SystemProofs SystemTraceProofs CellModel CellProofs SensorModel SensorSpec SensorCollectProofs
  ImageModel ImageSpec.
Import ListNotations.
Open Scope R_scope.

Section image.
Variable sys : system.
Variable s : stop_surface.
Hypothesis HS : sys_sensor sys = Some s.
Variables area_field area_pupil : point2 -> point2 -> point2 -> point2 -> R.
Variable g : object_grid.
Variable radiance : cell5 -> R.
Variable center : cell5 -> SystemModel.grid_point.
Let flux := cell_flux area_field area_pupil g radiance.
Let start c := start_ray sys (flux c) (center c).

Definition final_of (r : ray) : ray :=
  apply_inverse (sf_transformation (st_surface s))
    (propagate_rays surface_propagate (Sequence (map st_surface (surfaces_all sys)))
       (apply_inverse (sys_transformation sys) r)).

Lemma cell_ray_final : forall c, cell_ray sys area_field area_pupil g radiance center c = Some (final_of (start c)).
Proof.
  intros c. unfold cell_ray, at_sensor. rewrite HS. cbn [obind]. rewrite trace_last. reflexivity.
Qed.

Lemma all_rays : forall l, all_some (map (cell_ray sys area_field area_pupil g radiance center) l)
  = Some (map (fun c => final_of (start c)) l).
Proof.
  intros l. rewrite (map_ext _ _ cell_ray_final).
  rewrite <- (map_map (fun c => final_of (start c)) Some). apply all_some_map.
Qed.

Lemma inverse_more : forall t r, r_wavelength (apply_inverse t r) = r_wavelength r /\ r_index (apply_inverse t r) = r_index r.
Proof. intros [t|] r; split; reflexivity. Qed.
Lemma transformation_more : forall t r, r_wavelength (apply_transformation t r) = r_wavelength r /\
  r_index (apply_transformation t r) = r_index r /\ r_attenuation (apply_transformation t r) = r_attenuation r.
Proof. intros [t|] r; repeat split; reflexivity. Qed.

Lemma start_fields : forall c, r_wavelength (start c) = SystemModel.g_wavelength (center c) /\ r_index (start c) = 1 /\
  r_intensity (start c) = Some (flux c) /\ r_attenuation (start c) = 0.
Proof.
  intros c. unfold start, start_ray, launch, set_intensity. cbn [r_wavelength r_index r_intensity r_attenuation].
  match goal with |- context[apply_transformation ?t ?r] => destruct (transformation_more t r) as (-> & -> & ->) end.
  repeat split; reflexivity.
Qed.

Lemma final_wavelength : forall c, back_in_vacuum sys (start c) ->
  r_wavelength (final_of (start c)) = SystemModel.g_wavelength (center c).
Proof.
  intros c [P L]. destruct (start_fields c) as (W & I & _).
  unfold final_of. rewrite (proj1 (inverse_more _ _)).
  destruct (inverse_more (sys_transformation sys) (start c)) as [IW II].
  rewrite trace_wavelength_same.
  - rewrite IW. exact W.
  - rewrite II, I. lra.
  - exact P.
  - rewrite II, I. rewrite <- L. f_equal.
    assert (T := trace_last sys (start c)). rewrite (last_of_last _ _ (start c)) in T.
    + injection T as T. symmetry. exact T.
    + intros E. rewrite E in T. discriminate.
Qed.

Lemma final_intensity : forall c j, List.Forall rigid_surface (map st_surface (surfaces_all sys)) ->
  r_intensity (final_of (start c)) = Some j -> exists k, throughput sys (start c) k /\ j = flux c * k.
Proof.
  intros c j Rg J. unfold final_of in J. rewrite (proj1 (inverse_fields _ _)) in J.
  destruct (trace_intensity _ Rg _ _ J) as (i & k & I & K & E).
  exists k. split; [exact K|].
  destruct (inverse_fields (sys_transformation sys) (start c)) as (A & _). rewrite A in I.
  destruct (start_fields c) as (_ & _ & F & _). rewrite F in I. injection I as I. rewrite E, <- I. reflexivity.
Qed.

Lemma final_bounded : forall c j, List.Forall rigid_surface (map st_surface (surfaces_all sys)) ->
  List.Forall passive (map st_surface (surfaces_all sys)) -> 0 <= flux c ->
  r_intensity (final_of (start c)) = Some j -> 0 <= j <= flux c.
Proof.
  intros c j Rg Pa F J. unfold final_of in J. rewrite (proj1 (inverse_fields _ _)) in J.
  destruct (inverse_fields (sys_transformation sys) (start c)) as (A & _ & B).
  destruct (start_fields c) as (_ & _ & C & D).
  apply (trace_bounded _ Rg Pa (apply_inverse (sys_transformation sys) (start c)) (flux c) j).
  - rewrite B, D. lra.
  - rewrite A. exact C.
  - exact F.
  - exact J.
Qed.

Lemma filter_map : forall (A B : Type) (f : A -> B) (p : B -> bool) l,
  filter p (map f l) = map f (filter (fun a => p (f a)) l).
Proof. intros A B f p l. induction l as [|a l IH]; cbn; [reflexivity|]. destruct (p (f a)); cbn; rewrite IH; reflexivity. Qed.

Lemma in_cells5 : forall nw n1 n2 m1 m2 c, In c (cells5 nw n1 n2 m1 m2) ->
  (c_w c < nw)%nat /\ (c_i c < n1)%nat /\ (c_j c < n2)%nat /\ (c_k c < m1)%nat /\ (c_l c < m2)%nat.
Proof.
  intros nw n1 n2 m1 m2 c H. unfold cells5 in H.
  apply in_flat_map in H. destruct H as (w & W & H). apply in_flat_map in H. destruct H as (i & I & H).
  apply in_flat_map in H. destruct H as (j & J & H). apply in_flat_map in H. destruct H as (k & K & H).
  apply in_map_iff in H. destruct H as (l & <- & L). rewrite in_seq in *. cbn. lia.
Qed.

Lemma increasing_le : forall (x : nat -> R) n, (forall w, (w < n)%nat -> x w < x (S w)) ->
  forall a b, (a <= b)%nat -> (b <= n)%nat -> x a <= x b.
Proof.
  intros x n H a b L. induction L as [|b L IH]; intros B; [lra|].
  specialize (IH ltac:(lia)). specialize (H b ltac:(lia)). lra.
Qed.
Lemma increasing_lt : forall (x : nat -> R) n, (forall w, (w < n)%nat -> x w < x (S w)) ->
  forall a b, (a < b)%nat -> (b <= n)%nat -> x a < x b.
Proof.
  intros x n H a b L B. assert (A := increasing_le x n H (S a) b ltac:(lia) B). specialize (H a ltac:(lia)). lra.
Qed.

Lemma edges_integrated : forall nw, (forall w, (w < nw)%nat -> CellModel.g_wavelength g w < CellModel.g_wavelength g (S w)) ->
  image_edges true (map (CellModel.g_wavelength g) (seq 0 (nw + 1)))
  = Some [CellModel.g_wavelength g 0; CellModel.g_wavelength g nw].
Proof.
  intros nw H. unfold image_edges. set (l := map _ _).
  assert (N : l <> []). { unfold l. rewrite Nat.add_1_r. discriminate. }
  destruct (list_min_spec l N) as (mn & -> & L1). destruct (list_max_spec l N) as (mx & -> & L2). cbn [obind].
  f_equal. f_equal; [|f_equal].
  - apply (least_unique l); [exact L1|]. split; [unfold l; apply in_map, in_seq; lia|].
    intros x X. unfold l in X. apply in_map_iff in X. destruct X as (i & <- & I). apply in_seq in I.
    apply (increasing_le _ nw H); lia.
  - apply (greatest_unique l); [exact L2|]. split; [unfold l; apply in_map, in_seq; lia|].
    intros x X. unfold l in X. apply in_map_iff in X. destruct X as (i & <- & I). apply in_seq in I.
    apply (increasing_le _ nw H); lia.
Qed.

Lemma rsum_bounds : forall (A : Type) (f h : A -> R) l, (forall a, In a l -> 0 <= f a <= h a) ->
  0 <= rsum (map f l) <= rsum (map h l).
Proof.
  intros A f h l. induction l as [|a l IH]; intros H; cbn; [lra|].
  specialize (IH (fun x X => H x (or_intror X))). specialize (H a (or_introl eq_refl)). unfold rsum in IH. lra.
Qed.
Lemma rsum_filter_le : forall (A : Type) (h : A -> R) (b : A -> bool) l, (forall a, In a l -> 0 <= h a) ->
  rsum (map h (filter b l)) <= rsum (map h l).
Proof.
  intros A h b l. induction l as [|a l IH]; intros H; cbn; [lra|].
  specialize (IH (fun x X => H x (or_intror X))). specialize (H a (or_introl eq_refl)).
  destruct (b a); cbn; unfold rsum in IH; lra.
Qed.

Lemma image_total : forall sensor nw n1 n2 m1 m2, good_sensor sensor -> (0 < nw)%nat ->
  (forall w, (w < nw)%nat -> CellModel.g_wavelength g w < CellModel.g_wavelength g (S w)) ->
  let cells := cells5 nw n1 n2 m1 m2 in
  let traced := cell_ray sys area_field area_pupil g radiance center in
  (forall c, In c cells -> drawn_in g c (center c)) ->
  (forall c, In c cells -> back_in_vacuum sys (start c)) ->
  (forall c, In c cells -> 0 <= radiance c) ->
  (forall c r, In c cells -> traced c = Some r -> on_pixels sensor r -> r_intensity r <> None) ->
  List.Forall rigid_surface (map st_surface (surfaces_all sys)) ->
  List.Forall passive (map st_surface (surfaces_all sys)) ->
  forall b, (forall c, b c = true <-> arrives sensor (traced c)) ->
  exists k total,
    (forall c, In c cells -> b c = true -> throughput sys (start c) (k c)) /\
    osum (map (photon_image sys sensor area_field area_pupil g radiance center nw n1 n2 m1 m2 true)
      (grid_cells sensor [CellModel.g_wavelength g 0; CellModel.g_wavelength g nw])) = Some total /\
    total = rsum (map (fun c => flux c * k c) (filter b cells)) /\
    0 <= total <= rsum (map flux cells).
Proof.
  intros sensor nw n1 n2 m1 m2 GS NW Inc cells traced Dr Va Ra Nn Rg Pa b B.
  assert (FN : forall c, In c cells -> 0 <= flux c).
  { intros c I. unfold flux, cell_flux. apply Rmult_le_pos; [apply Ra, I|].
    apply cell_area_nonneg. destruct (in_cells5 _ _ _ _ _ _ I) as (W & _). specialize (Inc _ W). lra. }
  set (edges := [CellModel.g_wavelength g 0; CellModel.g_wavelength g nw]).
  assert (GG : good_grid sensor edges).
  { destruct GS as (A1 & A2 & A3 & A4). repeat split; try assumption; [cbn; lia|].
    assert (L := increasing_lt _ _ Inc 0 nw NW (Nat.le_refl nw)). repeat constructor. exact L. }
  assert (IN : forall c, In c cells -> (inside sensor edges (final_of (start c)) <-> on_pixels sensor (final_of (start c)))).
  { intros c I. unfold inside, on_pixels. split; [tauto|]. intros H. split; [|exact H].
    rewrite (final_wavelength c (Va c I)). cbn [nth last edges].
    specialize (Dr c I). unfold drawn_in in Dr. destruct (in_cells5 _ _ _ _ _ _ I) as (W & _).
    assert (L1 := increasing_le _ _ Inc 0 (c_w c) ltac:(lia) ltac:(lia)).
    assert (L2 := increasing_le _ _ Inc (S (c_w c)) nw ltac:(lia) ltac:(lia)). lra. }
  assert (J : forall c, In c cells -> b c = true -> exists j, r_intensity (final_of (start c)) = Some j).
  { intros c I Bc. apply B in Bc. destruct Bc as (r & E & _ & O).
    assert (N := Nn c r I E O). unfold traced in E. rewrite cell_ray_final in E. injection E as E. subst r.
    destruct (r_intensity (final_of (start c))) as [j|]; [eauto|congruence]. }
  assert (K : exists k, forall c, In c cells -> b c = true -> throughput sys (start c) (k c) /\
      r_intensity (final_of (start c)) = Some (flux c * k c)).
  { exists (fun c => match kept_product (map st_surface (surfaces_all sys)) (apply_inverse (sys_transformation sys) (start c)) (trace sys (start c))
                     with Some k => k | None => 0 end).
    intros c I Bc. destruct (J c I Bc) as (j & Ej). destruct (final_intensity c j Rg Ej) as (k & Tk & ->).
    assert (T := Tk). unfold throughput in T. rewrite T. split; [exact Tk|exact Ej]. }
  destruct K as (k & K). exists k, (rsum (map (fun c => flux c * k c) (filter b cells))).
  split; [intros c I Bc; apply (K c I Bc)|]. split; [|split; [reflexivity|]].
  - set (rays := map (fun r => (r, true)) (map (fun c => final_of (start c)) cells)).
    transitivity (osum (map (collect_image sensor edges rays) (grid_cells sensor edges))).
    { f_equal. apply map_ext. intros pixel. unfold photon_image. fold cells. rewrite all_rays. cbn [obind].
      rewrite edges_integrated by exact Inc. cbn [obind]. reflexivity. }
    set (b' := fun rw : ray * bool => ray_where rw && match ray_cell sensor edges (fst rw) with Some _ => true | None => false end).
    assert (B' : forall rw, b' rw = true <-> counted rw /\ inside sensor edges (fst rw)).
    { intros rw. unfold b'. rewrite andb_true_iff, where_iff. split; intros [W X]; (split; [exact W|]).
      - destruct (ray_cell sensor edges (fst rw)) as [c|] eqn:E; [|discriminate]. apply (cell_some _ _ _ _ GG E).
      - destruct (cell_exists _ _ _ GG X) as [c ->]. reflexivity. }
    rewrite (flux_conserved sensor edges rays GG) with (b := b').
    + f_equal. unfold rays. rewrite !filter_map, !map_map.
      assert (F : filter (fun a => b' (final_of (start a), true)) cells = filter b cells).
      { apply filter_ext_in. intros c I. apply eq_true_iff_eq. rewrite B', B. unfold counted. cbn [fst snd].
        rewrite (IN c I). unfold arrives, traced. rewrite cell_ray_final. split.
        - intros [[U _] O]. exists (final_of (start c)). auto.
        - intros (r & E & U & O). injection E as <-. auto. }
      rewrite F. apply rsum_map_ext. intros c I. apply filter_In in I. destruct I as [I Bc].
      unfold intensity_of. cbn [fst]. rewrite (proj2 (K c I Bc)). reflexivity.
    + intros rw I X. unfold rays in I. rewrite map_map in I. apply in_map_iff in I. destruct I as (c & <- & I). cbn [fst] in *.
      apply (Nn c _ I (cell_ray_final c)). apply (proj1 (IN c I)). exact X.
    + exact B'.
  - assert (T : 0 <= rsum (map (fun c => flux c * k c) (filter b cells)) <= rsum (map flux (filter b cells))).
    { apply rsum_bounds. intros c I. apply filter_In in I. destruct I as [I Bc].
      apply (final_bounded c); auto. apply (K c I Bc). }
    assert (U := rsum_filter_le _ flux b cells FN). lra.
Qed.
End image.

(** ** Separate wavelengths *)

Lemma bin_open : forall edges k x j, bin_from k x edges = Some j ->
  exists i, j = (k + i)%nat /\ (i + 1 < length edges)%nat /\ nth i edges 0 <= x /\
    ((i + 2 < length edges)%nat -> x < nth (S i) edges 0).
Proof.
  induction edges as [|e0 rest IH]; intros k x j H; [discriminate|].
  destruct rest as [|e1 rest']; [discriminate|].
  cbn [bin_from] in H. destruct (Rle_dec e0 x) as [L|]; [|discriminate].
  destruct (Rlt_dec x e1) as [U|U].
  - injection H as <-. exists 0%nat. cbn [length nth]. split; [lia|]. split; [lia|]. split; [exact L|]. intros _; exact U.
  - destruct rest' as [|e2 rest'].
    + destruct (Req_EM_T x e1) as [E|]; [|discriminate]. injection H as <-. exists 0%nat. cbn [length nth]. split; [lia|]. split; [lia|]. split; [exact L|]. intros; lia.
    + destruct (IH _ _ _ H) as (i & -> & I1 & I2 & I3). exists (S i). cbn [length] in *. repeat split; try lia.
      * exact I2.
      * intros B. apply I3. lia.
Qed.

Lemma nth_map_seq : forall (f : nat -> R) n i, (i < n)%nat -> nth i (map f (seq 0 n)) 0 = f i.
Proof.
  intros f n i H. rewrite (nth_indep _ 0 (f 0%nat)) by (rewrite map_length, seq_length; exact H).
  rewrite map_nth, seq_nth by exact H. reflexivity.
Qed.

Lemma wavelength_bin : forall g nw w x j,
  (forall w, (w < nw)%nat -> CellModel.g_wavelength g w < CellModel.g_wavelength g (S w)) -> (w < nw)%nat ->
  CellModel.g_wavelength g w <= x < CellModel.g_wavelength g (S w) ->
  bin_index (map (CellModel.g_wavelength g) (seq 0 (nw + 1))) x = Some j -> j = w.
Proof.
  intros g nw w x j Inc W X H. destruct (bin_open _ _ _ _ H) as (i & -> & I1 & I2 & I3).
  rewrite map_length, seq_length in I1, I3. rewrite nth_map_seq in I2 by lia.
  destruct (lt_eq_lt_dec i w) as [[L|E]|L]; [exfalso|lia|exfalso].
  - specialize (I3 ltac:(lia)). rewrite nth_map_seq in I3 by lia.
    assert (A := increasing_le _ _ Inc (S i) w ltac:(lia) ltac:(lia)). lra.
  - assert (A := increasing_le _ _ Inc (S w) i ltac:(lia) ltac:(lia)). lra.
Qed.

Lemma spectral : forall sys sensor area_field area_pupil g radiance radiance' center nw n1 n2 m1 m2 w i j,
  sys_sensor sys <> None ->
  (forall w, (w < nw)%nat -> CellModel.g_wavelength g w < CellModel.g_wavelength g (S w)) ->
  let cells := cells5 nw n1 n2 m1 m2 in
  (forall c, In c cells -> drawn_strictly_in g c (center c)) ->
  (forall c f, In c cells -> back_in_vacuum sys (start_ray sys f (center c))) ->
  (forall c, In c cells -> c_w c = w -> radiance c = radiance' c) ->
  photon_image sys sensor area_field area_pupil g radiance center nw n1 n2 m1 m2 false (w, i, j)
  = photon_image sys sensor area_field area_pupil g radiance' center nw n1 n2 m1 m2 false (w, i, j).
Proof.
  intros sys sensor area_field area_pupil g ra ra' center nw n1 n2 m1 m2 w i j HS Inc cells Dr Va Eq.
  destruct (sys_sensor sys) as [s|] eqn:S; [clear HS|congruence].
  unfold photon_image. fold cells. rewrite !(all_rays sys s S). cbn [obind image_edges].
  unfold collect_image, histogram. set (edges := map _ (seq 0 (nw + 1))).
  rewrite !map_map. rewrite !filter_map, !map_map.
  set (p := fun rad c => match ray_cell sensor edges (fst (final_of sys s (start_ray sys (cell_flux area_field area_pupil g rad c) (center c)), true)) with
     | Some c' => cell_eqb c' (w, i, j) | None => false end).
  assert (P : forall rad c, In c cells -> p rad c = true -> c_w c = w).
  { intros rad c I H. unfold p in H. cbn [fst] in H. destruct (ray_cell _ _ _) as [c'|] eqn:E; [|discriminate].
    apply cell_eqb_eq in H. subst c'. unfold ray_cell in E.
    destruct (bin_index edges _) as [k|] eqn:B; [|discriminate]. cbn [obind] in E.
    destruct (r_position _) as [q|]; [|discriminate]. cbn [obind] in E.
    destruct (bin_index _ (vx q)); [|discriminate]. cbn [obind] in E.
    destruct (bin_index _ (vy q)); [|discriminate]. cbn [obind] in E. injection E as -> _ _.
    rewrite (final_wavelength sys s area_field area_pupil g rad center c (Va c _ I)) in B.
    destruct (in_cells5 _ _ _ _ _ _ I) as (W & _). symmetry. exact (wavelength_bin g nw (c_w c) _ _ Inc W (Dr c I) B). }
  assert (Q : forall c, In c cells -> p ra c = p ra' c).
  { intros c I. destruct (Nat.eq_dec (c_w c) w) as [E|N].
    - unfold p, cell_flux. rewrite (Eq c I E). reflexivity.
    - destruct (p ra c) eqn:A; [exfalso; apply N, (P ra c I A)|]. destruct (p ra' c) eqn:A'; [exfalso; apply N, (P ra' c I A')|]. reflexivity. }
  change (filter (fun a => match ray_cell sensor edges (fst (final_of sys s (start_ray sys (cell_flux area_field area_pupil g ra a) (center a)), true)) with
     | Some c' => cell_eqb c' (w, i, j) | None => false end) cells) with (filter (p ra) cells).
  change (filter (fun a => match ray_cell sensor edges (fst (final_of sys s (start_ray sys (cell_flux area_field area_pupil g ra' a) (center a)), true)) with
     | Some c' => cell_eqb c' (w, i, j) | None => false end) cells) with (filter (p ra') cells).
  rewrite (filter_ext_in _ _ _ Q). f_equal. apply map_ext_in. intros c I. apply filter_In in I. destruct I as [I Pc].
  assert (W := P ra' c I Pc). unfold cell_flux. rewrite (Eq c I W). reflexivity.
Qed.
