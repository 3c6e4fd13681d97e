(** Wires of apertures. *)
From Coq Require Import Reals Lra Psatz List Bool ZArith Lia.
From Verif Require Import Vec VecLemmas Num NumLemmas Trig TrigLemmas RayModel SurfaceModel
  SequenceProofs ApertureModel ApertureSpec ApertureProofs ApertureProofs2 SectorProofs
  SagFloatModel WireFloatModel.
Import ListNotations.
Open Scope R_scope.

(** ** Numbers of points *)
Lemma Int_part_spec r z : r - 1 < IZR z <= r -> z = Int_part r.
Proof.
  intros H. unfold Int_part. rewrite <- (tech_up r (z + 1)); [lia| |]; rewrite plus_IZR; lra.
Qed.
Lemma Int_part_Zdiv a n : (0 < n)%Z -> Int_part (IZR a / IZR n) = (a / n)%Z.
Proof.
  intros H. symmetry. apply Int_part_spec.
  assert (Hn : 0 < IZR n) by (apply IZR_lt; auto).
  assert (E := Z.div_mod a n ltac:(lia)). assert (B := Z.mod_pos_bound a n H).
  assert (Er : IZR a = IZR n * IZR (a / n) + IZR (a mod n)) by (rewrite <- mult_IZR, <- plus_IZR; f_equal; lia).
  destruct B as [B1 B2]. apply IZR_le in B1. apply IZR_lt in B2.
  set (q := IZR (a / n)) in *. set (m := IZR (a mod n)) in *.
  assert (Ed : IZR a / IZR n = q + m / IZR n) by (rewrite Er; field; lra).
  assert (0 <= m / IZR n) by (apply Rmult_le_pos; [lra|left; apply Rinv_0_lt_compat; auto]).
  assert (m / IZR n < 1) by (apply Rmult_lt_reg_r with (IZR n); [lra|]; unfold Rdiv; rewrite Rmult_assoc, Rinv_l by lra; lra).
  lra.
Qed.
Lemma rtrunc_step num n v : (0 < n)%Z -> (0 <= num)%Z -> (0 <= v)%Z ->
  rtrunc (IZR (v + 1) * (IZR num / IZR n) - IZR (v * num / n)) = ((v + 1) * num / n - v * num / n)%Z.
Proof.
  intros Hn Hm Hv. assert (Hnr : 0 < IZR n) by (apply IZR_lt; auto).
  assert (Hle : (v * num / n <= (v + 1) * num / n)%Z) by (apply Z.div_le_mono; nia).
  replace (IZR (v + 1) * (IZR num / IZR n)) with (IZR ((v + 1) * num) / IZR n) by (rewrite mult_IZR; field; lra).
  assert (Ei := Int_part_Zdiv ((v + 1) * num) n Hn).
  assert (B := base_Int_part (IZR ((v + 1) * num) / IZR n)). rewrite Ei in B.
  set (x := IZR ((v + 1) * num) / IZR n) in *. set (c := ((v + 1) * num / n)%Z) in *. set (d := (v * num / n)%Z) in *.
  assert (Hcd : IZR d <= IZR c) by (apply IZR_le; auto).
  unfold rtrunc. destruct (Rle_dec 0 (x - IZR d)) as [H|H]; [|lra].
  symmetry. apply Int_part_spec. rewrite minus_IZR. lra.
Qed.
Definition cum_count (num n : nat) (v : nat) : Z := (Z.of_nat v * Z.of_nat num / Z.of_nat n)%Z.
Lemma side_counts_eq num n k v : (0 < n)%nat ->
  side_counts (INR num / INR n) k (Z.of_nat v) (cum_count num n v) =
  map (fun i => (cum_count num n (S i) - cum_count num n i)%Z) (seq v k).
Proof.
  intros Hn. revert v. induction k as [|k IH]; intros v; cbn [side_counts seq map]; auto.
  rewrite !INR_IZR_INZ. unfold cum_count at 1 3.
  rewrite rtrunc_step by lia.
  replace (Z.of_nat v + 1)%Z with (Z.of_nat (S v)) by lia.
  fold (cum_count num n (S v)) (cum_count num n v). apply cons_eq; auto.
  replace (cum_count num n v + (cum_count num n (S v) - cum_count num n v))%Z with (cum_count num n (S v)) by lia.
  rewrite <- !INR_IZR_INZ. apply IH.
Qed.
Lemma counts_eq num n : (0 < n)%nat ->
  counts num n = map (fun i => (cum_count num n (S i) - cum_count num n i)%Z) (seq 0 n).
Proof. intros H. unfold counts. change 0%Z with (Z.of_nat 0) at 1.
  replace 0%Z with (cum_count num n 0) by (unfold cum_count; rewrite Z.mul_0_l, Z.div_0_l; lia).
  apply side_counts_eq; auto. Qed.
Lemma cum_full num n : (0 < n)%nat -> cum_count num n n = Z.of_nat num.
Proof. intros H. unfold cum_count. rewrite Z.mul_comm, Z.div_mul; lia. Qed.
Lemma cum_mono num n i : (0 < n)%nat -> (0 <= cum_count num n i <= cum_count num n (S i))%Z.
Proof. intros H. unfold cum_count. split; [apply Z.div_pos; lia|apply Z.div_le_mono; lia]. Qed.
Lemma cum_lt num n i : (0 < num)%nat -> (i < n)%nat -> (cum_count num n i < Z.of_nat num)%Z.
Proof. intros Hn Hi. unfold cum_count. apply Z.div_lt_upper_bound; nia. Qed.

(** ** A wire made of pieces, one per count *)
Definition piece_points (num n : nat) (f : nat -> R -> vec3) (i : nat) : list vec3 :=
  map (f i) (linspace 1 (Z.to_nat (cum_count num n (S i) - cum_count num n i))
    (Z.eqb (cum_count num n (S i)) (Z.of_nat num))).
Definition pieces (num n : nat) (f : nat -> R -> vec3) (v k : nat) : list vec3 :=
  flat_map (piece_points num n f) (seq v k).

Lemma length_linspace s m e : length (linspace s m e) = m.
Proof. unfold linspace, linspace_open, linspace_closed. destruct e; rewrite map_length, seq_length; auto. Qed.

Lemma pieces_length num n f k v : (0 < n)%nat ->
  Z.of_nat (length (pieces num n f v k)) = (cum_count num n (v + k) - cum_count num n v)%Z.
Proof.
  intros Hn. revert v. induction k as [|k IH]; intros v; cbn [pieces seq flat_map].
  - rewrite Nat.add_0_r. cbn. lia.
  - rewrite app_length, Nat2Z.inj_add. fold (pieces num n f (S v) k). rewrite IH.
    unfold piece_points at 1. rewrite map_length, length_linspace.
    assert (H := cum_mono num n v Hn). rewrite Z2Nat.id by lia.
    replace (S v + k)%nat with (v + S k)%nat by lia. lia.
Qed.

(** parameters are in [0, 1] *)
Lemma linspace_range m e t : In t (linspace 1 m e) -> 0 <= t <= 1.
Proof.
  intros H. assert (G : exists i, (i < m)%nat /\ t = INR i * (1 / INR (if e then (m - 1)%nat else m))).
  { unfold linspace, linspace_open, linspace_closed in H. destruct e; apply in_map_iff in H; destruct H as (i & <- & Hi);
    apply in_seq in Hi; exists i; split; auto; lia. }
  destruct G as (i & Hi & ->). set (d := if e then (m - 1)%nat else m).
  assert (Hd : (i <= d)%nat) by (unfold d; destruct e; lia).
  apply le_INR in Hd. assert (H0 := pos_INR i).
  destruct (Req_dec (INR d) 0) as [E|E].
  - assert (INR i = 0) by lra. rewrite H1. lra.
  - assert (0 < INR d) by lra. replace (INR i * (1 / INR d)) with (INR i / INR d) by (field; auto). split.
    + apply Rmult_le_pos; [auto|left; apply Rinv_0_lt_compat; auto].
    + apply Rmult_le_reg_r with (INR d); auto. unfold Rdiv. rewrite Rmult_assoc, Rinv_l by auto. lra.
Qed.
Lemma pieces_in num n f v k p : In p (pieces num n f v k) ->
  exists i t, (v <= i < v + k)%nat /\ 0 <= t <= 1 /\ p = f i t.
Proof.
  intros H. apply in_flat_map in H. destruct H as (i & Hi & H). apply in_seq in Hi.
  apply in_map_iff in H. destruct H as (t & <- & Ht). exists i, t. split; [lia|split; auto].
  eapply linspace_range; eauto.
Qed.

(** first and last point *)
Lemma hd_error_app {A} (l m : list A) x : hd_error l = Some x -> hd_error (l ++ m) = Some x.
Proof. destruct l; cbn; auto; discriminate. Qed.
Lemma linspace_first m e : (0 < m)%nat -> hd_error (linspace 1 m e) = Some 0.
Proof.
  intros H. destruct m; [lia|]. unfold linspace, linspace_open, linspace_closed.
  destruct e; cbn [seq map hd_error INR]; f_equal; ring.
Qed.
Lemma linspace_last m : (1 < m)%nat -> hd_error (rev (linspace 1 m true)) = Some 1.
Proof.
  intros H. unfold linspace, linspace_closed. destruct m; [lia|].
  rewrite seq_S, map_app, rev_app_distr. cbn [map rev app hd_error plus]. f_equal.
  rewrite Nat.sub_succ, Nat.sub_0_r. field. apply not_0_INR. lia.
Qed.
Lemma hd_error_map {A B} (f : A -> B) l : hd_error (map f l) = option_map f (hd_error l).
Proof. destruct l; auto. Qed.

Lemma pieces_closed num n f : (0 < n)%nat -> (n < num)%nat ->
  hd_error (pieces num n f 0 n) = Some (f 0%nat 0) /\
  hd_error (rev (pieces num n f 0 n)) = Some (f (n - 1)%nat 1).
Proof.
  intros Hn Hm. split.
  - destruct n as [|n]; [lia|]. unfold pieces. cbn [seq flat_map]. apply hd_error_app.
    unfold piece_points. rewrite hd_error_map, linspace_first; auto.
    assert (H : (1 <= cum_count num (S n) 1)%Z) by (unfold cum_count; apply Z.div_le_lower_bound; lia).
    assert (E : cum_count num (S n) 0 = 0%Z) by (unfold cum_count; rewrite Z.mul_0_l, Z.div_0_l; lia).
    rewrite E. lia.
  - destruct n as [|n]; [lia|]. unfold pieces. rewrite seq_S, flat_map_app, rev_app_distr. cbn [flat_map plus].
    rewrite app_nil_r. apply hd_error_app. unfold piece_points.
    rewrite <- map_rev, hd_error_map. rewrite (cum_full num (S n)) by lia. rewrite Z.eqb_refl.
    rewrite linspace_last.
    + cbn [option_map]. f_equal. f_equal. lia.
    + assert (H : (cum_count num (S n) n < Z.of_nat num - 1)%Z).
      { unfold cum_count. apply Z.div_lt_upper_bound; [lia|]. rewrite Nat2Z.inj_succ. nia. }
      lia.
Qed.

(** ** The wires are made of pieces *)
Definition side_fun (vs : list vec3) (i : nat) (t : R) : vec3 :=
  vadd (nth i vs vzero) (vscale t (vsub (next_vertex vs i) (nth i vs vzero))).

Lemma sides_nth vs i : (i < length vs)%nat ->
  nth i (sides vs) (vzero, vzero) = (nth i vs vzero, next_vertex vs i).
Proof.
  intros H. destruct vs as [|v l]; [cbn in H; lia|]. cbn [sides].
  rewrite combine_nth by (rewrite app_length; cbn; lia). f_equal. unfold next_vertex.
  cbn [length] in *. destruct (Nat.eq_dec i (length l)) as [->|Hi].
  - rewrite app_nth2 by lia. rewrite Nat.sub_diag. rewrite Nat.mod_same by lia. reflexivity.
  - rewrite app_nth1 by lia. rewrite Nat.mod_small by lia. reflexivity.
Qed.
Lemma sides_length vs : length (sides vs) = length vs.
Proof. destruct vs as [|v l]; cbn [sides]; auto. rewrite combine_length, app_length. cbn [length]. lia. Qed.
Lemma sides_eq vs : sides vs = map (fun i => (nth i vs vzero, next_vertex vs i)) (seq 0 (length vs)).
Proof.
  apply nth_ext with (vzero, vzero) ((fun i => (nth i vs vzero, next_vertex vs i)) 0%nat).
  - rewrite map_length, seq_length. apply sides_length.
  - intros i Hi. rewrite sides_length in Hi. rewrite sides_nth by auto.
    rewrite (map_nth (fun i => (nth i vs vzero, next_vertex vs i))), seq_nth by auto. reflexivity.
Qed.
Lemma polygon_points_eq vs num n k v : (0 < n)%nat ->
  polygon_points num (map (fun i => (nth i vs vzero, next_vertex vs i)) (seq v k))
    (map (fun i => (cum_count num n (S i) - cum_count num n i)%Z) (seq v k)) (cum_count num n v) =
  pieces num n (side_fun vs) v k.
Proof.
  intros Hn. revert v. induction k as [|k IH]; intros v; cbn [seq map polygon_points pieces flat_map]; auto.
  replace (cum_count num n v + (cum_count num n (S v) - cum_count num n v))%Z with (cum_count num n (S v)) by lia.
  f_equal. apply IH.
Qed.
Lemma polygon_wire_pieces vs num : vs <> [] ->
  polygon_wire vs num = pieces num (length vs) (side_fun vs) 0 (length vs).
Proof.
  intros H. assert (Hn : (0 < length vs)%nat) by (destruct vs; [congruence|cbn; lia]).
  unfold polygon_wire. rewrite counts_eq, sides_eq by auto.
  rewrite <- (polygon_points_eq vs num (length vs) (length vs) 0 Hn).
  replace (cum_count num (length vs) 0) with 0%Z; [reflexivity|].
  unfold cum_count. rewrite Z.mul_0_l, Z.div_0_l; lia.
Qed.
Lemma sector_points_eq num n r a0 a1 k v : (0 < n)%nat ->
  sector_points num r a0 a1 v (map (fun i => (cum_count num n (S i) - cum_count num n i)%Z) (seq v k)) (cum_count num n v) =
  pieces num n (sector_point r a0 a1) v k.
Proof.
  intros Hn. revert v. induction k as [|k IH]; intros v; cbn [seq map sector_points pieces flat_map]; auto.
  replace (cum_count num n v + (cum_count num n (S v) - cum_count num n v))%Z with (cum_count num n (S v)) by lia.
  f_equal. apply IH.
Qed.
Lemma sector_wire_pieces r a0 a1 num :
  sector_points num r a0 a1 0 (counts num 3) 0 = pieces num 3 (sector_point r a0 a1) 0 3.
Proof.
  rewrite counts_eq by lia. rewrite <- (sector_points_eq num 3 r a0 a1 3 0) by lia. f_equal.
Qed.

(** ** Results *)

Lemma vertices_nonempty s : has_vertices s ->
  match s with Circular _ | Sector _ _ _ | Elliptical _ _ => True | _ => ap_vertices s <> [] end.
Proof.
  destruct s; cbn [has_vertices]; auto; intros H.
  - rewrite rect_vertices. discriminate.
  - intro E. apply (f_equal (@length vec3)) in E. rewrite regular_length in E. auto.
  - discriminate.
Qed.

Lemma wire_length a num : has_vertices (ao_shape a) -> length (wire a num) = num.
Proof.
  intros H. unfold wire. rewrite map_length. assert (V := vertices_nonempty _ H).
  assert (P : forall vs, vs <> [] -> length (polygon_wire vs num) = num).
  { intros vs Hv. rewrite polygon_wire_pieces by auto. assert (Hn : (0 < length vs)%nat) by (destruct vs; [congruence|cbn; lia]).
    assert (E := pieces_length num (length vs) (side_fun vs) (length vs) 0 Hn).
    rewrite Nat.add_0_l, cum_full in E by auto.
    assert (cum_count num (length vs) 0 = 0%Z) by (unfold cum_count; rewrite Z.mul_0_l, Z.div_0_l; lia). lia. }
  assert (L : forall n, length (linspace_closed (2 * PI) n) = n).
  { intro n. unfold linspace_closed. rewrite map_length, seq_length. auto. }
  destruct (ao_shape a); auto.
  - rewrite map_length. apply L.
  - rewrite sector_wire_pieces. assert (E := pieces_length num 3 (sector_point radius angle_start angle_stop) 3 0 ltac:(lia)).
    rewrite Nat.add_0_l, cum_full in E by lia.
    assert (cum_count num 3 0 = 0%Z) by reflexivity. lia.
  - rewrite map_length. apply L.
Qed.


Lemma closed_map (f : vec3 -> vec3) l : closed_curve l -> closed_curve (map f l).
Proof.
  intros (p & H1 & H2). exists (f p). rewrite <- map_rev, !hd_error_map, H1, H2. auto.
Qed.
Lemma azimuth_closed (g : R -> vec3) num : (0 < num)%nat -> g 0 = g (2 * PI) ->
  closed_curve (map g (linspace_closed (2 * PI) num)).
Proof.
  intros H E. exists (g 0). rewrite <- map_rev, !hd_error_map. split.
  - destruct num; [lia|]. unfold linspace_closed. cbn [seq map hd_error option_map INR]. do 2 f_equal. ring.
  - destruct num; [lia|]. unfold linspace_closed. rewrite seq_S, map_app, rev_app_distr.
    cbn [map rev app hd_error plus option_map]. rewrite Nat.sub_succ, Nat.sub_0_r. f_equal.
    destruct num.
    + cbn [INR]. f_equal. ring.
    + rewrite E. f_equal. field. apply not_0_INR. lia.
Qed.
Lemma wire_closed a num : has_vertices (ao_shape a) -> (segments (ao_shape a) < num)%nat ->
  closed_curve (wire a num).
Proof.
  intros H Hs. unfold wire. apply closed_map. assert (V := vertices_nonempty _ H).
  assert (P : forall vs, vs <> [] -> (length vs < num)%nat -> closed_curve (polygon_wire vs num)).
  { intros vs Hv Hl. rewrite polygon_wire_pieces by auto.
    assert (Hn : (0 < length vs)%nat) by (destruct vs; [congruence|cbn; lia]).
    destruct (pieces_closed num (length vs) (side_fun vs) Hn Hl) as [E1 E2].
    exists (side_fun vs 0 0). split; auto. rewrite E2. f_equal. unfold side_fun, next_vertex.
    replace (S (length vs - 1)) with (length vs) by lia. rewrite Nat.mod_same by lia.
    apply vec_eq; vec_unfold; ring. }
  destruct (ao_shape a); cbn [segments] in Hs; auto.
  - apply azimuth_closed; auto. rewrite cos_0, sin_0, cos_2PI, sin_2PI. reflexivity.
  - rewrite sector_wire_pieces. destruct (pieces_closed num 3 (sector_point radius angle_start angle_stop) ltac:(lia) Hs) as [E1 E2].
    eexists. split; [exact E1|]. rewrite E2. cbn. f_equal. apply vec_eq; cbn; ring.
  - apply azimuth_closed; auto. rewrite cos_0, sin_0, cos_2PI, sin_2PI. reflexivity.
Qed.

(** A rectangle with four points: the corners, not closed. *)
Lemma wire_open : exists a num, has_vertices (ao_shape a) /\ (2 <= num)%nat /\
  length (wire a num) = num /\ ~ closed_curve (wire a num).
Proof.
  exists (mkApertureObj (Rectangular 2 1) true false None true), 4%nat.
  split; [exact I|]. split; [lia|]. split; [apply wire_length; exact I|].
  unfold wire; cbn [ao_shape ao_transformation transform]. rewrite map_id.
  assert (Hv : ap_vertices (Rectangular 2 1) <> []) by (rewrite rect_vertices; discriminate).
  rewrite polygon_wire_pieces by auto. rewrite rect_vertices. cbn [length].
  unfold pieces, piece_points. cbn [seq flat_map]. cbn. intros (p & E1 & E2).
  cbn [linspace_open linspace_closed seq map] in *. cbn in E1, E2. inversion E1. subst p. inversion E2.
  unfold side_fun, next_vertex in *. cbn in *. lra.
Qed.


Lemma polygon_wire_on vs num p : vs <> [] -> In p (polygon_wire vs num) -> on_polygon vs p.
Proof.
  intros Hv H. rewrite polygon_wire_pieces in H by auto. apply pieces_in in H.
  destruct H as (i & t & Hi & Ht & ->). exists i. split; [lia|]. exists t. split; auto.
Qed.
Lemma polygon_in_hull vs p : on_polygon vs p -> in_hull vs p.
Proof.
  intros (i & Hi & t & Ht & ->).
  assert (Hn : (S i mod length vs < length vs)%nat) by (apply Nat.mod_upper_bound; lia).
  exists [(1 - t, nth i vs vzero); (t, next_vertex vs i)]. split; [|split].
  - intros w v [E|[E|[]]]; inversion E; subst; split; try lra; apply nth_In; auto.
  - cbn. ring.
  - unfold combination; cbn [fold_right fst snd]. apply vec_eq; vec_unfold; ring.
Qed.
Lemma planar_hull vs p : (forall v, In v vs -> vz v = 0) -> in_hull vs p -> vz p = 0.
Proof.
  intros H (ws & H1 & _ & <-). induction ws as [|[w v] ws IH]; cbn [combination fold_right]; auto.
  fold (combination ws). unfold vadd, vscale; cbn [vz fst snd].
  rewrite IH by (intros w' v' Hin; apply H1; right; auto).
  destruct (H1 w v) as [_ Hv]; [left; auto|]. rewrite (H v Hv). ring.
Qed.

Lemma wire_boundary a num p : has_vertices (ao_shape a) -> planar (ao_shape a) ->
  In p (wire a num) -> exists q, p = transform (ao_transformation a) q /\ on_boundary (ao_shape a) q.
Proof.
  intros Hv Hpl H. unfold wire in H. apply in_map_iff in H. destruct H as (q & <- & H). exists q. split; auto.
  assert (V := vertices_nonempty _ Hv).
  assert (P : forall vs, vs <> [] -> (forall v, In v vs -> vz v = 0) -> In q (polygon_wire vs num) ->
    vz q = 0 /\ on_polygon vs q).
  { intros vs Hne Hz Hin. assert (Ho := polygon_wire_on vs num q Hne Hin). split; auto.
    apply planar_hull with vs; auto. apply polygon_in_hull; auto. }
  destruct (ao_shape a); try (apply P; auto; fail).
  - apply in_map_iff in H. destruct H as (th & <- & _). split; [reflexivity|]. cbn [vx vy].
    assert (E := sin2_cos2 th). unfold Rsqr in E.
    replace (radius * cos th * (radius * cos th) + radius * sin th * (radius * sin th))
      with (radius * radius * (sin th * sin th + cos th * cos th)) by ring. rewrite E. ring.
  - rewrite sector_wire_pieces in H. apply pieces_in in H. destruct H as (i & t & Hi & Ht & ->).
    destruct i as [|[|[|i]]]; [| | |lia]; (split; [reflexivity|]); cbn [sector_point vx vy].
    + exists angle_start, (radius * t). repeat split; auto. right. split; [|auto].
      destruct (Rle_lt_dec 0 radius); [left|right]; nra.
    + exists (angle_start + (angle_stop - angle_start) * t), radius. repeat split; auto. left. split; auto.
      destruct (Rle_lt_dec angle_start angle_stop); [left|right]; nra.
    + exists angle_stop, (radius * (1 - t)). repeat split; auto. right. split; [|auto].
      destruct (Rle_lt_dec 0 radius); [left|right]; nra.
  - apply in_map_iff in H. destruct H as (th & <- & _). split; [reflexivity|]. cbn [vx vy].
    assert (E := sin2_cos2 th). unfold Rsqr in E.
    replace (ry * (rx * cos th) * (ry * (rx * cos th)) + rx * (ry * sin th) * (rx * (ry * sin th)))
      with (rx * ry * (rx * ry) * (sin th * sin th + cos th * cos th)) by ring. rewrite E. ring.
Qed.

Lemma hull_coord (g : vec3 -> R) vs p m :
  (forall a b, g (vadd a b) = g a + g b) -> (forall k a, g (vscale k a) = k * g a) -> g vzero = 0 ->
  in_hull vs p -> (forall v, In v vs -> - m <= g v <= m) -> - m <= g p <= m.
Proof.
  intros G1 G2 G3 Hh Hv. split.
  - apply Ropp_le_cancel. rewrite Ropp_involutive.
    apply (hull_bound (fun v => - g v) vs p); auto.
    + intros; rewrite G1; ring.
    + intros; rewrite G2; ring.
    + rewrite G3; ring.
    + intros v Hin. specialize (Hv v Hin). lra.
  - apply (hull_bound g vs p); auto. intros v Hin. apply Hv; auto.
Qed.
Lemma wire_accepted pip s t len num p : wire_accepting s -> rigid_or_none t ->
  let a := mkApertureObj s true false t len in
  In p (wire a num) -> aperture_call pip a (Some p) = true.
Proof.
  intros Hs Ht a H.
  destruct (wire_boundary a num p) as (q & -> & Hb); auto.
  { destruct s; cbn in Hs |- *; tauto. }
  { intros v. destruct s; cbn [wire_accepting] in Hs; try tauto; cbn [a ao_shape]; try (cbn; tauto). apply rectangle_planar. }
  rewrite call_local. cbn [a ao_active ao_inverted ao_shape ao_transformation negb]. rewrite xorb_false_l.
  rewrite local_transform by auto. destruct Hb as [_ Hb]. cbn [a ao_shape] in Hb.
  destruct s; cbn [wire_accepting] in Hs; try tauto; cbn [shape_mask].
  - apply rle_true. unfold xy_length. rewrite Hb, sqrt_square by auto. lra.
  - destruct Hs as [Hx Hy]. rewrite !odiv_nz by auto. apply rle_true. right.
    replace (vx q / rx * (vx q / rx) + vy q / ry * (vy q / ry)) with
      ((ry * vx q * (ry * vx q) + rx * vy q * (rx * vy q)) / (rx * ry * (rx * ry))) by (field; auto).
    rewrite Hb. field. auto.
  - apply polygon_in_hull in Hb. destruct Hs as [Hx Hy]. rewrite rect_vertices in Hb.
    rewrite !andb_true_iff, !rle_true. split.
    + apply (hull_coord vx _ _ _ ltac:(reflexivity) ltac:(reflexivity) ltac:(reflexivity) Hb).
      intros v. cbn. intros [<-|[<-|[<-|[<-|[]]]]]; cbn; lra.
    + apply (hull_coord vy _ _ _ ltac:(reflexivity) ltac:(reflexivity) ltac:(reflexivity) Hb).
      intros v. cbn. intros [<-|[<-|[<-|[<-|[]]]]]; cbn; lra.
Qed.

(** The sector rejects points of its own wire. *)
Lemma sector_wire_rejected pip : exists r a0 a1 num p, 0 < r /\ - (2 * PI) <= a0 /\ a0 < a1 /\ a1 <= 2 * PI /\
  let a := mkApertureObj (Sector r a0 a1) true false None true in
  In p (wire a num) /\ aperture_call pip a (Some p) = false.
Proof.
  assert (Hpi := PI_RGT_0).
  exists 1, (PI / 4), (PI / 2), 101%nat, vzero. repeat split; try lra.
  - unfold wire; cbn [ao_shape ao_transformation transform]. rewrite map_id.
    rewrite sector_wire_pieces. destruct (pieces_closed 101 3 (sector_point 1 (PI / 4) (PI / 2)) ltac:(lia) ltac:(lia)) as [E _].
    destruct (pieces _ _ _ _ _) as [|x l]; [discriminate|]. injection E as E. left. rewrite E.
    cbn [sector_point]. apply vec_eq; cbn; ring.
  - rewrite call_local. cbn [ao_active ao_inverted ao_shape ao_transformation negb ap_local]. rewrite xorb_false_l.
    apply not_true_iff_false. rewrite sector_mask by lra. cbn [vzero vx vy]. intros [_ [k Hk]].
    replace (atan2 0 0) with 0 in Hk.
    + assert (H1 : 0 < IZR k) by nra. assert (H2 : IZR k < 1) by nra.
      apply lt_IZR in H1. apply lt_IZR in H2. lia.
    + unfold atan2. destruct (Rlt_dec 0 0); lra.
Qed.

(** Counts in binary64 *)
Lemma counts_sum num n : (0 < n)%nat -> fold_right Z.add 0%Z (counts num n) = Z.of_nat num.
Proof.
  intros Hn. rewrite counts_eq by auto.
  assert (G : forall k v, fold_right Z.add 0%Z (map (fun i => (cum_count num n (S i) - cum_count num n i)%Z) (seq v k)) =
    (cum_count num n (v + k) - cum_count num n v)%Z).
  { induction k as [|k IH]; intros v; cbn [seq map fold_right].
    - rewrite Nat.add_0_r. lia.
    - rewrite IH. replace (S v + k)%nat with (v + S k)%nat by lia. lia. }
  rewrite G, Nat.add_0_l, cum_full by auto. unfold cum_count. rewrite Z.mul_0_l, Z.div_0_l; lia.
Qed.
Lemma counts_float_short : exists num n ks, (0 < n)%nat /\ f_counts num n = Some ks /\
  fold_right Z.add 0%Z (counts num n) = Z.of_nat num /\
  (fold_right Z.add 0 ks = Z.of_nat num - 1)%Z.
Proof.
  exists 61%nat, 7%nat. eexists. split; [lia|]. split; [vm_compute; reflexivity|]. split.
  - apply counts_sum. lia.
  - vm_compute. reflexivity.
Qed.
