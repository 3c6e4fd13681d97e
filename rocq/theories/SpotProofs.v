(** Spot diagrams. *)
From Coq Require Import Reals List Bool Lra Lia.
From Verif Require Import Vec Num NumLemmas RayModel SystemModel FitModel SpotModel SpotSpec.
Import ListNotations.
Open Scope R_scope.
Open Scope opt_scope.

Lemma all_of_strike : forall rays ps, strike rays ps -> all_of (map r_position rays) = Some ps.
Proof.
  unfold strike. intros rays ps ->. induction ps as [|p ps IH]; [reflexivity|]. cbn. rewrite IH. reflexivity.
Qed.

Lemma mean_balance : forall l m, mean l = Some m -> rsum (map (fun x => x - m) l) = 0.
Proof.
  intros l m H. unfold mean in H.
  assert (A : rsum (map (fun x => x - m) l) = rsum l - INR (length l) * m).
  { clear H. induction l as [|x l IH]; [cbn; lra|]. change (x - m + rsum (map (fun x => x - m) l) = x + rsum l - INR (S (length l)) * m).
    rewrite IH, S_INR. lra. }
  rewrite A. destruct (Req_dec (INR (length l)) 0) as [Z|Z].
  - rewrite Z, odiv_0 in H. discriminate H.
  - rewrite odiv_nz in H by exact Z. injection H as <-. field. exact Z.
Qed.
Lemma mean_defined : forall l, l <> [] -> exists m, mean l = Some m.
Proof.
  intros [|x l] H; [congruence|]. unfold mean. eexists. apply odiv_nz. change (INR (S (length l)) <> 0). apply not_0_INR. discriminate.
Qed.

Lemma center_defined : forall rays ps, strike rays ps -> rays <> [] ->
  exists c, spot_center rays = Some c /\ centroid (map xy ps) c.
Proof.
  intros rays ps H N. assert (ps <> []).
  { intros ->. destruct rays; [congruence|discriminate H]. }
  unfold spot_center. rewrite (all_of_strike rays ps H). cbn [obind].
  destruct (mean_defined (map vx ps)) as [mx Ex]; [destruct ps; [congruence|discriminate]|].
  destruct (mean_defined (map vy ps)) as [my Ey]; [destruct ps; [congruence|discriminate]|].
  rewrite Ex, Ey. cbn [obind]. exists (mx, my). split; [reflexivity|].
  apply mean_balance in Ex. apply mean_balance in Ey. unfold centroid. rewrite !map_map. rewrite !map_map in Ex, Ey. cbn. auto.
Qed.

Lemma filter_strike : forall rays ps, strike rays ps ->
  exists qs, strike (filter r_unvignetted rays) qs /\
    (List.Forall (fun r => r_unvignetted r = true) rays -> qs = ps).
Proof.
  intros rays ps. unfold strike. revert ps. induction rays as [|r rays IH]; intros ps H.
  - exists []. split; [reflexivity|]. destruct ps; [reflexivity|discriminate H].
  - destruct ps as [|p ps]; [discriminate H|]. cbn in H. injection H as H1 H2.
    destruct (IH ps H2) as (qs & Q & A). cbn. destruct (r_unvignetted r) eqn:E.
    + exists (p :: qs). split; [cbn; rewrite H1, Q; reflexivity|]. intros F. inversion F; subst. rewrite A by assumption. reflexivity.
    + exists qs. split; [exact Q|]. intros F. inversion F; subst. congruence.
Qed.

Lemma drawn_strike : forall rays qs c, strike rays qs ->
  drawn (map (spot_marker (Some c)) rays) = map (fun p => (vx p - fst c, vy p - snd c)) qs.
Proof.
  intros rays qs c. unfold strike. revert qs. induction rays as [|r rays IH]; intros qs H.
  - destruct qs; [reflexivity|discriminate H].
  - destruct qs as [|q qs]; [discriminate H|]. cbn in H. injection H as H1 H2.
    cbn [map]. unfold spot_marker at 1. rewrite H1. cbn. rewrite (IH qs H2). reflexivity.
Qed.

Lemma seen_map : forall c qs, seen_from c (map xy qs) (map (fun p => (vx p - fst c, vy p - snd c)) qs).
Proof. intros c qs. induction qs as [|q qs IH]; cbn; constructor; [cbn; auto|exact IH]. Qed.

Lemma strike_unique : forall rays ps qs, strike rays ps -> strike rays qs -> ps = qs.
Proof.
  unfold strike. intros rays ps qs A B. rewrite A in B. clear A. revert qs B.
  induction ps as [|p ps IH]; intros [|q qs] B; try reflexivity; try discriminate B.
  cbn in B. injection B as -> B. rewrite (IH qs B). reflexivity.
Qed.

(** What is drawn: the unvignetted rays, seen from the balance point of all the rays. *)
Lemma spot_figure : forall rays ps qs, strike rays ps -> strike (filter r_unvignetted rays) qs -> rays <> [] ->
  exists c, centroid (map xy ps) c /\ seen_from c (map xy qs) (spot rays).
Proof.
  intros rays ps qs H Q N. destruct (center_defined rays ps H N) as (c & E & B). exists c. split; [exact B|].
  unfold spot. rewrite E, (drawn_strike _ qs c Q). apply seen_map.
Qed.

Lemma seen_balance : forall c ps qs, seen_from c ps qs -> centroid ps c -> centroid qs (0, 0).
Proof.
  intros c ps qs H (A & B). unfold centroid in *. cbn.
  assert (X : rsum (map (fun p : R * R => fst p - 0) qs) = rsum (map (fun p => fst p - fst c) ps)).
  { clear A B. induction H as [|p q ps qs (H1 & H2) H IH]; [reflexivity|].
    change (fst q - 0 + rsum (map (fun p : R * R => fst p - 0) qs) = fst p - fst c + rsum (map (fun p => fst p - fst c) ps)). rewrite IH. lra. }
  assert (Y : rsum (map (fun p : R * R => snd p - 0) qs) = rsum (map (fun p => snd p - snd c) ps)).
  { clear A B X. induction H as [|p q ps qs (H1 & H2) H IH]; [reflexivity|].
    change (snd q - 0 + rsum (map (fun p : R * R => snd p - 0) qs) = snd p - snd c + rsum (map (fun p => snd p - snd c) ps)). rewrite IH. lra. }
  rewrite X, Y. split; assumption.
Qed.

Lemma spot_centred : forall rays ps, strike rays ps -> rays <> [] ->
  List.Forall (fun r => r_unvignetted r = true) rays ->
  centroid (spot rays) (0, 0) /\ length (spot rays) = length rays.
Proof.
  intros rays ps H N F. destruct (filter_strike rays ps H) as (qs & Q & A). rewrite (A F) in Q.
  destruct (spot_figure rays ps ps H Q N) as (c & B & S). split; [exact (seen_balance c _ _ S B)|].
  assert (L : forall c a b, seen_from c a b -> length a = length b).
  { intros c' a b X. induction X; cbn; congruence. }
  rewrite <- (L _ _ _ S), map_length. unfold strike in H. rewrite <- (map_length Some ps), <- H, map_length. reflexivity.
Qed.

(** Distances between drawn points are distances on the sensor. *)
Lemma spot_distances : forall rays ps qs i j p q p' q', strike rays ps -> strike (filter r_unvignetted rays) qs ->
  nth_error qs i = Some p -> nth_error qs j = Some q ->
  nth_error (spot rays) i = Some p' -> nth_error (spot rays) j = Some q' ->
  fst p' - fst q' = vx p - vx q /\ snd p' - snd q' = vy p - vy q.
Proof.
  intros rays ps qs i j p q p' q' H Q Ep Eq Ep' Eq'.
  assert (N : rays <> []).
  { intros ->. destruct qs; [destruct i; discriminate Ep|discriminate Q]. }
  destruct (spot_figure rays ps qs H Q N) as (c & _ & S).
  assert (G : forall a b, seen_from c (map xy a) b -> forall k u v, nth_error a k = Some u -> nth_error b k = Some v ->
     fst v = vx u - fst c /\ snd v = vy u - snd c).
  { induction a as [|x a IH]; intros b X k u v Eu Ev; inversion X; subst; [destruct k; discriminate Eu|].
    destruct k; cbn in Eu, Ev; [injection Eu as <-; injection Ev as <-; assumption|exact (IH _ H4 k u v Eu Ev)]. }
  destruct (G _ _ S i p p' Ep Ep') as [A1 A2]. destruct (G _ _ S j q q' Eq Eq') as [B1 B2]. lra.
Qed.

(** ** What fails *)

Definition spot_ray (p : option vec3) (b : bool) : ray := mkRay 1 p (Some (V3 0 0 1)) (Some 1) 0 1 b.

Lemma spot_shifted : exists rays ps q, strike rays ps /\ spot rays = [q] /\ fst q = -1.
Proof.
  exists [spot_ray (Some (V3 0 0 0)) true; spot_ray (Some (V3 2 0 0)) false], [V3 0 0 0; V3 2 0 0]. eexists.
  split; [reflexivity|]. unfold spot, spot_center, mean, spot_ray. cbn [map filter r_unvignetted r_position all_of obind vx vy length].
  rewrite !odiv_nz by (cbn; lra). cbn. split; [reflexivity|]. cbn. lra.
Qed.

Lemma spot_blank : exists rays r, In r rays /\ r_unvignetted r = true /\ r_position r <> None /\
  List.Forall (fun r => r_unvignetted r = true -> r_position r <> None) rays /\ spot rays = [].
Proof.
  exists [spot_ray (Some (V3 0 0 0)) true; spot_ray None false], (spot_ray (Some (V3 0 0 0)) true).
  split; [left; reflexivity|]. split; [reflexivity|]. split; [discriminate|]. split; [|reflexivity].
  repeat constructor; cbn; intros; discriminate.
Qed.
