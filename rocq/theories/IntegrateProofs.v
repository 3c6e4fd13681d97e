(** The image integrated over wavelength and the images of the bins. *)
From Coq Require Import Reals List Bool Sorted Lra Lia Arith.
From Coquelicot Require Import Coquelicot.
From Verif Require Import Vec Num NumLemmas RayModel SurfaceModel SequenceSpec SystemModel SystemSpec SystemProofs
  CellModel CellProofs RamanathanModel SensorModel SensorSpec SensorCollectProofs SensorProofs SensorStatProofs ImageModel ImageSpec ImageProofs MeasureModel MeasureSpec MeasureProofs IntegrateSpec.
Import ListNotations.
Open Scope R_scope.
Open Scope opt_scope.

Definition oadd (a b : option R) : option R := let* a := a in let* b := b in Some (a + b).
Lemma oadd_swap : forall a b c, oadd a (oadd b c) = oadd b (oadd a c).
Proof. intros [a|] [b|] [c|]; cbn; try reflexivity. f_equal. ring. Qed.
Lemma osum_cons : forall a l, osum (a :: l) = oadd a (osum l). Proof. reflexivity. Qed.

Lemma osum_zero : forall n k, osum (map (fun _ => Some 0) (seq k n)) = Some 0.
Proof. induction n as [|n IH]; intros k; [reflexivity|]. cbn [seq map]. rewrite osum_cons, IH. cbn. f_equal. ring. Qed.
Lemma osum_same : forall (f f' : nat -> option R) l, (forall j, In j l -> f j = f' j) -> osum (map f l) = osum (map f' l).
Proof. intros f f' l H. f_equal. apply map_ext_in. exact H. Qed.
Lemma osum_put : forall (f f' : nat -> option R) x k n i, (i <= k < i + n)%nat -> f k = oadd x (f' k) -> (forall j, j <> k -> f j = f' j) ->
  osum (map f (seq i n)) = oadd x (osum (map f' (seq i n))).
Proof.
  intros f f' x k n. induction n as [|n IH]; intros i K E D; [lia|]. cbn [seq map]. rewrite !osum_cons. destruct (Nat.eq_dec i k) as [->|N].
  - rewrite E. rewrite (osum_same f f') by (intros j J; apply in_seq in J; apply D; lia).
    destruct x as [x|], (f' k) as [y|], (osum (map f' (seq (S k) n))) as [z|]; cbn; try reflexivity. f_equal. ring.
  - rewrite (D i N), (IH (S i)) by (first [lia | assumption]). apply oadd_swap.
Qed.
Lemma osum_partition : forall A (w : A -> option R) (p : A -> bool) (q : nat -> A -> bool) n l,
  (forall a, In a l -> p a = false -> forall k, (k < n)%nat -> q k a = false) ->
  (forall a, In a l -> p a = true -> exists k, (k < n)%nat /\ q k a = true /\ forall j, j <> k -> q j a = false) ->
  osum (map w (filter p l)) = osum (map (fun k => osum (map w (filter (q k) l))) (seq 0 n)).
Proof.
  intros A w p q n l. induction l as [|a l IH]; intros H0 H1.
  - cbn. symmetry. apply osum_zero.
  - assert (H := IH (fun b I => H0 b (or_intror I)) (fun b I => H1 b (or_intror I))). cbn [filter]. destruct (p a) eqn:P.
    + destruct (H1 a (or_introl eq_refl) P) as (k & K & Q & D). cbn [map]. rewrite osum_cons, H. symmetry. apply (osum_put _ _ (w a) k); [lia| |].
      * rewrite Q. reflexivity.
      * intros j J. rewrite (D j J). reflexivity.
    + rewrite H. apply osum_same. intros k K. apply in_seq in K. rewrite (H0 a (or_introl eq_refl) P k) by lia. reflexivity.
Qed.

Lemma whole_bin : forall edges x, Sorted Rlt edges -> (2 <= length edges)%nat ->
  match bin_index edges x with
  | Some k => (k < length edges - 1)%nat /\ bin_index [nth 0 edges 0; last edges 0] x = Some 0%nat
  | None => bin_index [nth 0 edges 0; last edges 0] x = None
  end.
Proof.
  intros edges x S L.
  assert (O : nth 0 edges 0 < last edges 0).
  { rewrite last_nth. assert (H := Sorted_StronglySorted Rlt_trans S). destruct edges as [|a [|b l]]; [cbn in L; lia..|].
    inversion H as [|? ? H' F]; subst. rewrite List.Forall_forall in F. change (nth 0 (a :: b :: l) 0) with a. cbn [length]. replace (Datatypes.S (Datatypes.S (length l)) - 1)%nat with (Datatypes.S (length l)) by lia.
    apply F. change (nth (Datatypes.S (length l)) (a :: b :: l) 0) with (nth (length l) (b :: l) 0). apply nth_In. cbn [length]. lia. }
  destruct (bin_index edges x) as [k|] eqn:E.
  - apply bin_some in E. destruct E as (i & -> & I & B1 & B2). cbn [Nat.add]. split; [lia|].
    assert (M1 := sorted_mono edges 0 i S ltac:(lia)). assert (M2 := sorted_mono edges (Datatypes.S i) (length edges - 1) S ltac:(lia)). rewrite <- last_nth in M2.
    unfold bin_index, bin_from. destruct (Rle_dec _ _); [|lra]. destruct (Rlt_dec _ _); [reflexivity|]. destruct (Req_EM_T _ _); [reflexivity|lra].
  - destruct (bin_index [_; _] x) as [j|] eqn:B; [|reflexivity]. apply bin_some in B. destruct B as (i & -> & I & B). cbn in I. replace i with 0%nat in B by lia. cbn in B.
    destruct (bin_exists edges 0 x S L B) as [j E']. unfold bin_index in E. congruence.
Qed.

Lemma collect_integrated : forall s edges rays i j, Sorted Rlt edges -> (2 <= length edges)%nat ->
  collect_image s [nth 0 edges 0; last edges 0] rays (0, i, j)%nat =
  osum (map (fun k => collect_image s edges rays (k, i, j)) (seq 0 (length edges - 1))).
Proof.
  intros s edges rays i j S L. unfold collect_image, histogram. apply osum_partition; intros rw _.
  - intros P k K. unfold ray_cell in *. assert (W := whole_bin edges (r_wavelength (fst rw)) S L). destruct (bin_index edges _) as [k'|]; [|reflexivity].
    destruct W as [_ W]. rewrite W in P. cbn [obind] in *. destruct (r_position (fst rw)) as [p|]; [|reflexivity]. cbn [obind] in *.
    destruct (bin_index _ (vx p)) as [i'|]; [|reflexivity]. cbn [obind] in *. destruct (bin_index _ (vy p)) as [j'|]; [|reflexivity]. cbn in *. rewrite P. apply andb_false_r.
  - intros P. unfold ray_cell in *. assert (W := whole_bin edges (r_wavelength (fst rw)) S L). destruct (bin_index edges _) as [k'|]; [|rewrite W in P; discriminate].
    destruct W as [K W]. rewrite W in P. cbn [obind] in *. destruct (r_position (fst rw)) as [p|]; [|discriminate]. cbn [obind] in *.
    destruct (bin_index _ (vx p)) as [i'|]; [|discriminate]. cbn [obind] in *. destruct (bin_index _ (vy p)) as [j'|]; [|discriminate]. cbn in *.
    exists k'. split; [exact K|]. rewrite P, Nat.eqb_refl. split; [reflexivity|]. intros k N. apply Nat.neq_sym, Nat.eqb_neq in N. rewrite N. reflexivity.
Qed.

Section system.
Variable sys : system.
Variables area_field area_pupil : point2 -> point2 -> point2 -> point2 -> R.
Variable g : object_grid.
Variables (radiance : cell5 -> R) (center : cell5 -> SystemModel.grid_point).
Variables (sensor : imaging_sensor) (nw n1 n2 m1 m2 : nat).
Hypothesis Inc : forall w, (w < nw)%nat -> CellModel.g_wavelength g w < CellModel.g_wavelength g (S w).
Hypothesis N : (0 < nw)%nat.
Let photons := photon_image sys sensor area_field area_pupil g radiance center nw n1 n2 m1 m2.
Let edges := map (CellModel.g_wavelength g) (seq 0 (nw + 1)).

Lemma osum_none : forall n k, (0 < n)%nat -> osum (map (fun _ => None) (seq k n)) = None.
Proof. intros [|n] k L; [lia|reflexivity]. Qed.
Lemma edges_sorted_g : Sorted Rlt edges.
Proof. unfold edges. rewrite Nat.add_1_r. apply sorted_map_seq. intros i I. apply Inc. lia. Qed.
Lemma edges_length_g : length edges = (nw + 1)%nat. Proof. unfold edges. rewrite map_length, seq_length. reflexivity. Qed.
Lemma edges_whole : image_edges true edges = Some [nth 0 edges 0; last edges 0].
Proof.
  unfold edges at 1. rewrite edges_integrated by exact Inc. rewrite last_nth, edges_length_g. unfold edges. rewrite !nth_map_seq by lia. do 4 f_equal. lia.
Qed.
Lemma photons_integrated : forall i j, photons true (0, i, j)%nat = osum (map (fun k => photons false (k, i, j)) (seq 0 nw)).
Proof.
  intros i j. unfold photons. rewrite photon_rays. rewrite (osum_same _ (fun k => _)) by (intros k _; apply photon_rays).
  destruct (image_rays _ _ _ _ _ _ _ _ _ _ _) as [rays|]; [|symmetry; apply osum_none; exact N]. cbn [obind].
  fold edges. rewrite edges_whole. cbn [obind image_edges]. rewrite collect_integrated; [|exact edges_sorted_g|rewrite edges_length_g; lia].
  rewrite edges_length_g. replace (nw + 1 - 1)%nat with nw by lia. reflexivity.
Qed.

Lemma osum_scale : forall (f : nat -> option R) t l, osum (map (fun k => omap (fun p => p * t) (f k)) l) = omap (fun p => p * t) (osum (map f l)).
Proof.
  intros f t l. induction l as [|k l IH]; [cbn; f_equal; ring|]. cbn [map]. rewrite !osum_cons, IH.
  destruct (f k) as [a|], (osum (map f l)) as [b|]; cbn; try reflexivity. f_equal. ring.
Qed.
Variable tb : pair_table.
Let electrons := electron_image tb sys sensor area_field area_pupil g radiance center nw n1 n2 m1 m2.
Lemma ideal_integrated : sn_material sensor = Ideal -> forall i j,
  electrons true (0, i, j)%nat = osum (map (fun k => electrons false (k, i, j)) (seq 0 nw)).
Proof.
  intros M i j. unfold electrons. rewrite ideal_electrons by exact M.
  rewrite (osum_same _ (fun k => omap (fun p => p * sn_exposure sensor) (photons false (k, i, j)))) by (intros k _; apply ideal_electrons; exact M).
  rewrite osum_scale. fold photons. rewrite photons_integrated. reflexivity.
Qed.

(** A silicon sensor. *)
Let cosine := cosine_image sys sensor area_field area_pupil g radiance center nw n1 n2 m1 m2.
Lemma silicon_electrons : forall m integrate pixel w p d q, sn_material sensor = Silicon m -> exposed_at g nw integrate pixel w ->
  photons integrate pixel = Some p -> cosine integrate pixel = Some d -> working tb (Silicon m) w d -> quantum_yield_ideal tb w (si_temperature m) = Some q ->
  electrons integrate pixel = Some (q * sn_exposure sensor * (cce (depth m w d) (si_eta0 m) * p)).
Proof.
  intros m integrate pixel w p d q M X P D K Q. unfold photons in P. rewrite photon_rays in P. unfold cosine, cosine_image in D. unfold electrons, electron_image.
  destruct (image_rays _ _ _ _ _ _ _ _ _ _ _) as [rays|]; [|discriminate]. cbn [obind] in *.
  destruct (image_edges integrate _) as [e|] eqn:E; [|discriminate]. cbn [obind] in *. unfold measure. rewrite P, M. cbn [obind]. rewrite D. cbn [obind].
  rewrite (edges_center g nw integrate pixel e w Inc E X). apply (expose_silicon tb sensor m None p w d q M K Q).
Qed.

Lemma osum_values : forall (f : nat -> option R) (v : nat -> R) n i, (forall k, (i <= k < i + n)%nat -> f k = Some (v k)) ->
  osum (map f (seq i n)) = Some (rsum (map v (seq i n))).
Proof.
  intros f v n. induction n as [|n IH]; intros i H; [reflexivity|]. cbn [seq map]. rewrite osum_cons, (H i) by lia. rewrite IH by (intros k K; apply H; lia). reflexivity.
Qed.
Lemma rsum_diff : forall (t y0 : R) (y p : nat -> R) l,
  rsum (map (fun k => t * (y k * p k)) l) - t * (y0 * rsum (map p l)) = t * rsum (map (fun k => (y k - y0) * p k) l).
Proof. intros t y0 y p l. induction l as [|k l IH]; [cbn; ring|]. cbn [map rsum fold_right] in *. unfold rsum in IH. lra. Qed.

Lemma silicon_integrated : forall m i j w0 d0 y0 (w : nat -> R) (d : nat -> C) (y p : nat -> R), sn_material sensor = Silicon m ->
  exposed_at g nw true (0, i, j)%nat w0 -> cosine true (0, i, j)%nat = Some d0 -> working tb (Silicon m) w0 d0 -> per_photon tb m w0 d0 y0 ->
  (forall k, (k < nw)%nat -> exposed_at g nw false (k, i, j) (w k) /\ photons false (k, i, j) = Some (p k) /\ cosine false (k, i, j) = Some (d k) /\
     working tb (Silicon m) (w k) (d k) /\ per_photon tb m (w k) (d k) (y k)) ->
  exists whole bins, electrons true (0, i, j)%nat = Some whole /\
    osum (map (fun k => electrons false (k, i, j)) (seq 0 nw)) = Some bins /\
    bins - whole = sn_exposure sensor * rsum (map (fun k => (y k - y0) * p k) (seq 0 nw)).
Proof.
  intros m i j w0 d0 y0 w d y p M X0 C0 K0 (q0 & x0 & Q0 & -> & ->) B.
  assert (P0 : photons true (0, i, j)%nat = Some (rsum (map p (seq 0 nw)))).
  { rewrite photons_integrated. apply osum_values. intros k K. apply B. lia. }
  assert (E0 := silicon_electrons m true _ w0 _ d0 q0 M X0 P0 C0 K0 Q0).
  assert (EB : osum (map (fun k => electrons false (k, i, j)) (seq 0 nw)) = Some (rsum (map (fun k => sn_exposure sensor * (y k * p k)) (seq 0 nw)))).
  { apply osum_values. intros k K. destruct (B k ltac:(lia)) as (X & P & D & W & (q & x & Q & XX & ->)).
    rewrite (silicon_electrons m false _ (w k) _ (d k) q M X P D W Q). f_equal. unfold cce, phi, depth. rewrite XX. ring. }
  eexists. eexists. split; [exact E0|]. split; [exact EB|]. rewrite <- rsum_diff. unfold cce, phi, depth. ring.
Qed.
End system.
