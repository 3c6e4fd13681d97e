From Coq Require Import Reals Lra List Lia.
From Verif Require Import Num NumLemmas CellModel CellSpec.
Import ListNotations.
Open Scope R_scope.

Lemma sum_upto_ext n f g : (forall i, (i < n)%nat -> f i = g i) -> sum_upto n f = sum_upto n g.
Proof. induction n; cbn; intros H; [reflexivity|]; rewrite IHn by (intros; apply H; lia); rewrite H by lia; reflexivity. Qed.
Lemma sum_upto_scal n c f : sum_upto n (fun i => c * f i) = c * sum_upto n f.
Proof. induction n; cbn; [ring | rewrite IHn; ring]. Qed.
Lemma sum_upto_scal_r n c f : sum_upto n (fun i => f i * c) = sum_upto n f * c.
Proof. induction n; cbn; [ring | rewrite IHn; ring]. Qed.
Lemma sum_upto_plus n f g : sum_upto n (fun i => f i + g i) = sum_upto n f + sum_upto n g.
Proof. induction n; cbn; [ring | rewrite IHn; ring]. Qed.
Lemma sum_upto_minus n f g : sum_upto n (fun i => f i - g i) = sum_upto n f - sum_upto n g.
Proof. induction n; cbn; [ring | rewrite IHn; ring]. Qed.
Lemma sum_upto_tele n f : sum_upto n (fun i => f (S i) - f i) = f n - f 0%nat.
Proof. induction n; cbn; [ring | rewrite IHn; ring]. Qed.
Lemma sum_upto_swap n m f : sum_upto n (fun i => sum_upto m (f i)) = sum_upto m (fun j => sum_upto n (fun i => f i j)).
Proof.
  induction n; cbn; [induction m; cbn; [reflexivity | rewrite <- IHm; ring]|].
  rewrite IHn; clear; induction m; cbn; [ring|]; lra.
Qed.
Lemma sum_upto_nonneg n f : (forall i, (i < n)%nat -> 0 <= f i) -> 0 <= sum_upto n f.
Proof. induction n; cbn; intros H; [lra|]; pose proof (H n ltac:(lia)); assert (0 <= sum_upto n f) by (apply IHn; intros; apply H; lia); lra. Qed.
Lemma sum_upto_nonpos n f : (forall i, (i < n)%nat -> f i <= 0) -> sum_upto n f <= 0.
Proof. induction n; cbn; intros H; [lra|]; pose proof (H n ltac:(lia)); assert (sum_upto n f <= 0) by (apply IHn; intros; apply H; lia); lra. Qed.
Lemma sum_upto_split n m f : sum_upto (n + m) f = sum_upto n f + sum_upto m (fun i => f (n + i)%nat).
Proof. induction m; [rewrite Nat.add_0_r; cbn; ring|]; rewrite Nat.add_succ_r; cbn; rewrite IHm; ring. Qed.
Lemma sum_upto_rev n f : sum_upto n (fun i => f (n - 1 - i)%nat) = sum_upto n f.
Proof.
  revert f; induction n; intros f; [reflexivity|].
  change (S n) with (1 + n)%nat at 1; rewrite sum_upto_split; cbn [sum_upto].
  rewrite <- (IHn f); rewrite (sum_upto_ext n _ (fun i => f (n - 1 - i)%nat)) by (intros; f_equal; lia).
  replace (S n - 1 - 0)%nat with n by lia; ring.
Qed.

(** ** The area of a closed path is a sum over its edges *)
Lemma path_close p0 l : l <> [] -> path_area p0 (l ++ [p0]) = path_area p0 l.
Proof.
  induction l as [|a l IH]; [congruence|]; intros _.
  destruct l as [|b l]; [cbn; unfold cross2; lra|].
  change ((a :: b :: l) ++ [p0]) with (a :: ((b :: l) ++ [p0])).
  transitivity (cross2 a b / 2 + path_area p0 ((b :: l) ++ [p0])); [reflexivity|].
  rewrite IH by discriminate; reflexivity.
Qed.

(** edges from consecutive points of [map f (seq s n)] followed by [q] *)
Lemma path_area_seq p0 (f : nat -> point2) n s q rest : 
  path_area p0 (map f (seq s n) ++ q :: rest) =
  sum_upto n (fun i => cross2 (f (s + i)%nat) (if Nat.eqb (S i) n then q else f (s + S i)%nat) / 2)
  + path_area p0 (q :: rest).
Proof.
  revert s; induction n; intros s; [cbn [seq map app sum_upto]; ring|].
  cbn [seq map].
  destruct n.
  - cbn [seq map app sum_upto path_area]; rewrite Nat.add_0_r; cbn; ring.
  - change ((f s :: map f (seq (S s) (S n))) ++ q :: rest) with (f s :: (map f (seq (S s) (S n)) ++ q :: rest)).
    transitivity (cross2 (f s) (f (S s)) / 2 + path_area p0 (map f (seq (S s) (S n)) ++ q :: rest)).
    { cbn [seq map app path_area]; reflexivity. }
    rewrite IHn.
    match goal with |- _ = sum_upto (S (S n)) ?F + _ =>
      change (sum_upto (S (S n)) F) with (sum_upto (1 + S n) F); rewrite (sum_upto_split 1 (S n) F) end.
    match goal with |- _ + (sum_upto (S n) ?F + _) = _ + sum_upto (S n) ?G + _ =>
      assert (E : sum_upto (S n) F = sum_upto (S n) G) end.
    { apply sum_upto_ext; intros i _; replace (S s + i)%nat with (s + (1 + i))%nat by lia;
        replace (S s + S i)%nat with (s + S (1 + i))%nat by lia; reflexivity. }
    rewrite E; generalize (sum_upto (S n) (fun i : nat => cross2 (f (s + (1 + i))%nat)
      (if Nat.eqb (S (1 + i)) (S (S n)) then q else f (s + S (1 + i))%nat) / 2)); intros T.
    cbn [sum_upto Nat.eqb]; rewrite Nat.add_0_r, Nat.add_1_r; ring.
Qed.

Lemma sum_edges n (f : nat -> point2) q : q = f n ->
  sum_upto n (fun i => cross2 (f i) (if Nat.eqb (S i) n then q else f (S i)) / 2)
  = sum_upto n (fun i => cross2 (f i) (f (S i)) / 2).
Proof.
  intros ->; apply sum_upto_ext; intros i I; destruct (Nat.eqb_spec (S i) n) as [<-|]; reflexivity.
Qed.

Lemma boundary_area p m n : (0 < m)%nat -> (0 < n)%nat ->
  polygon_area (boundary p m n) =
    sum_upto m (fun i => cross2 (p i 0%nat) (p (S i) 0%nat) / 2)
    + sum_upto n (fun j => cross2 (p m j) (p m (S j)) / 2)
    - sum_upto m (fun i => cross2 (p i n) (p (S i) n) / 2)
    - sum_upto n (fun j => cross2 (p 0%nat j) (p 0%nat (S j)) / 2).
Proof.
  intros M N; unfold boundary.
  set (s1 := fun i => p i 0%nat); set (s2 := fun j => p m j).
  set (s3 := fun i => p (m - i)%nat n); set (s4 := fun j => p 0%nat (n - j)%nat).
  assert (E : polygon_area (map s1 (seq 0 m) ++ map s2 (seq 0 n) ++ map s3 (seq 0 m) ++ map s4 (seq 0 n))
    = path_area (p 0%nat 0%nat) (map s1 (seq 0 m) ++ map s2 (seq 0 n) ++ map s3 (seq 0 m) ++ map s4 (seq 0 n) ++ [p 0%nat 0%nat])).
  { rewrite !app_assoc, path_close.
    - destruct m; [lia | reflexivity].
    - destruct m; [lia | discriminate]. }
  rewrite E; clear E; set (p0 := p 0%nat 0%nat).
  assert (H2 : map s2 (seq 0 n) ++ map s3 (seq 0 m) ++ map s4 (seq 0 n) ++ [p0]
    = p m 0%nat :: (map s2 (seq 1 (n - 1)) ++ map s3 (seq 0 m) ++ map s4 (seq 0 n) ++ [p0])).
  { destruct n; [lia|]; cbn [seq map app]; rewrite Nat.sub_succ, Nat.sub_0_r; reflexivity. }
  assert (H3 : map s3 (seq 0 m) ++ map s4 (seq 0 n) ++ [p0]
    = p m n :: (map s3 (seq 1 (m - 1)) ++ map s4 (seq 0 n) ++ [p0])).
  { destruct m; [lia|]; cbn [seq map app]; unfold s3 at 1; rewrite !Nat.sub_0_r, Nat.sub_succ, Nat.sub_0_r; reflexivity. }
  assert (H4 : map s4 (seq 0 n) ++ [p0] = p 0%nat n :: (map s4 (seq 1 (n - 1)) ++ [p0])).
  { destruct n; [lia|]; cbn [seq map app]; unfold s4 at 1; rewrite !Nat.sub_0_r, Nat.sub_succ, Nat.sub_0_r; reflexivity. }
  rewrite H2, path_area_seq, <- H2, H3, path_area_seq, <- H3, H4, path_area_seq, <- H4, path_area_seq.
  cbn [Nat.add path_area].
  rewrite (sum_edges m s1) by reflexivity.
  rewrite (sum_edges n s2) by reflexivity.
  rewrite (sum_edges m s3) by (unfold s3; rewrite Nat.sub_diag; reflexivity).
  rewrite (sum_edges n s4) by (unfold s4; rewrite Nat.sub_diag; reflexivity).
  assert (R : forall k (f : nat -> point2), sum_upto k (fun i => cross2 (f (k - i)%nat) (f (k - S i)%nat) / 2)
     = - sum_upto k (fun i => cross2 (f i) (f (S i)) / 2)).
  { intros k f; rewrite <- (sum_upto_rev k (fun i => cross2 (f i) (f (S i)) / 2)).
    replace (- sum_upto k (fun i => cross2 (f (k - 1 - i)%nat) (f (S (k - 1 - i))) / 2))
      with (-1 * sum_upto k (fun i => cross2 (f (k - 1 - i)%nat) (f (S (k - 1 - i))) / 2)) by ring.
    rewrite <- sum_upto_scal; apply sum_upto_ext; intros i I.
    replace (S (k - 1 - i)) with (k - i)%nat by lia; replace (k - S i)%nat with (k - 1 - i)%nat by lia.
    unfold cross2; lra. }
  unfold s3, s4; rewrite (R m (fun i => p i n)), (R n (fun j => p 0%nat j)).
  unfold s1, s2; fold p0; unfold cross2 at 5; lra.
Qed.

Lemma cells_area p m n :
  sum_upto m (fun i => sum_upto n (fun j => volume_cell_2d quad_area p i j)) =
    sum_upto m (fun i => cross2 (p i 0%nat) (p (S i) 0%nat) / 2)
    + sum_upto n (fun j => cross2 (p m j) (p m (S j)) / 2)
    - sum_upto m (fun i => cross2 (p i n) (p (S i) n) / 2)
    - sum_upto n (fun j => cross2 (p 0%nat j) (p 0%nat (S j)) / 2).
Proof.
  set (H := fun i j => cross2 (p i j) (p (S i) j) / 2).
  set (V := fun i j => cross2 (p i j) (p i (S j)) / 2).
  rewrite (sum_upto_ext m _ (fun i => sum_upto n (fun j => (V (S i) j - V i j) - (H i (S j) - H i j)))).
  2:{ intros i _; apply sum_upto_ext; intros j _; unfold volume_cell_2d, quad_area, H, V, cross2; lra. }
  rewrite (sum_upto_ext m _ (fun i => sum_upto n (fun j => V (S i) j - V i j) - (H i n - H i 0%nat))).
  2:{ intros i _; rewrite sum_upto_minus, (sum_upto_tele n (H i)); reflexivity. }
  rewrite !sum_upto_minus, sum_upto_swap.
  rewrite (sum_upto_ext n _ (fun j => V m j - V 0%nat j)) by (intros j _; apply (sum_upto_tele m (fun i => V i j))).
  rewrite sum_upto_minus; unfold H, V; ring.
Qed.

Lemma cell_sign_eq p i j : cell_sign p i j = volume_cell_2d quad_area p i j.
Proof. unfold cell_sign, volume_cell_2d, quad_area; cbn; lra. Qed.

Lemma sum_abs n f : (forall i, (i < n)%nat -> 0 <= f i) \/ (forall i, (i < n)%nat -> f i <= 0) ->
  sum_upto n (fun i => Rabs (f i)) = Rabs (sum_upto n f).
Proof.
  intros [H | H].
  - rewrite (sum_upto_ext n _ f) by (intros i I; apply Rabs_pos_eq, H, I).
    symmetry; apply Rabs_pos_eq, sum_upto_nonneg, H.
  - rewrite (sum_upto_ext n _ (fun i => -1 * f i)).
    + rewrite sum_upto_scal; assert (0 <= sum_upto n (fun i => -1 * f i)) as P.
      { apply sum_upto_nonneg; intros i I; specialize (H i I); lra. }
      rewrite sum_upto_scal in P; rewrite Rabs_left1 by lra; ring.
    + intros i I; rewrite Rabs_left1 by (apply H, I); ring.
Qed.

Lemma cells_abs p m n : (0 < m)%nat -> (0 < n)%nat -> oriented p m n ->
  sum_upto m (fun i => sum_upto n (fun j => Rabs (volume_cell_2d quad_area p i j)))
  = Rabs (polygon_area (boundary p m n)).
Proof.
  intros M N O; rewrite boundary_area, <- cells_area by assumption.
  rewrite (sum_upto_ext m _ (fun i => Rabs (sum_upto n (fun j => volume_cell_2d quad_area p i j)))).
  - apply sum_abs; destruct O as [O | O]; [left | right]; intros i I.
    + apply sum_upto_nonneg; intros j J; rewrite <- cell_sign_eq; auto.
    + apply sum_upto_nonpos; intros j J; rewrite <- cell_sign_eq; auto.
  - intros i I; apply sum_abs; destruct O as [O | O]; [left | right]; intros j J; rewrite <- cell_sign_eq; auto.
Qed.

(** ** Totals *)
Lemma sum_upto_abs_nonneg n f : 0 <= sum_upto n (fun i => Rabs (f i)).
Proof. apply sum_upto_nonneg; intros; apply Rabs_pos. Qed.

Lemma separable_cell af ap g f p w i j k l : separable g f p ->
  cell_area af ap g w i j k l
  = (g_wavelength g (S w) - g_wavelength g w) * Rabs (volume_cell_2d af f i j) * Rabs (volume_cell_2d ap p k l).
Proof.
  intros [F P]; unfold cell_area, center1, volume_cell_1d, volume_cell_2d; cbv zeta; rewrite !F, !P; lra.
Qed.

Lemma separable_total g f p nw n1 n2 m1 m2 : separable g f p ->
  (0 < n1)%nat -> (0 < n2)%nat -> (0 < m1)%nat -> (0 < m2)%nat -> oriented f n1 n2 -> oriented p m1 m2 ->
  total nw n1 n2 m1 m2 (cell_area quad_area quad_area g)
  = (g_wavelength g nw - g_wavelength g 0%nat)
    * Rabs (polygon_area (boundary f n1 n2)) * Rabs (polygon_area (boundary p m1 m2)).
Proof.
  intros S N1 N2 M1 M2 OF OP; unfold total.
  set (lam := g_wavelength g).
  rewrite (sum_upto_ext nw _ (fun w => (lam (Datatypes.S w) - lam w)
     * (Rabs (polygon_area (boundary f n1 n2)) * Rabs (polygon_area (boundary p m1 m2))))).
  { rewrite sum_upto_scal_r, (sum_upto_tele nw lam); ring. }
  intros w _.
  rewrite (sum_upto_ext n1 _ (fun i => sum_upto n2 (fun j => Rabs (volume_cell_2d quad_area f i j))
     * ((lam (Datatypes.S w) - lam w) * Rabs (polygon_area (boundary p m1 m2))))).
  { rewrite sum_upto_scal_r, cells_abs by assumption; ring. }
  intros i _; rewrite <- sum_upto_scal_r; apply sum_upto_ext; intros j _.
  rewrite <- (cells_abs p m1 m2) by assumption.
  transitivity (((lam (Datatypes.S w) - lam w) * Rabs (volume_cell_2d quad_area f i j))
     * sum_upto m1 (fun k => sum_upto m2 (fun l => Rabs (volume_cell_2d quad_area p k l)))); [|ring].
  rewrite <- sum_upto_scal; apply sum_upto_ext; intros k _.
  rewrite <- sum_upto_scal; apply sum_upto_ext; intros l _.
  rewrite (separable_cell _ _ g f p) by exact S; unfold lam; ring.
Qed.

(** Refining the pupil alone, whatever the dependence of the pupil on wavelength and field. *)
Lemma pupil_total af g w i j m1 m2 : (0 < m1)%nat -> (0 < m2)%nat ->
  (forall w i j, oriented (g_pupil g w i j) m1 m2) ->
  sum_upto m1 (fun k => sum_upto m2 (fun l => cell_area af quad_area g w i j k l))
  = (g_wavelength g (S w) - g_wavelength g w)
    * center1 (fun w => Rabs (volume_cell_2d af (g_field g w) i j)) w
    * center1 (fun w => center1 (fun i => center1 (fun j =>
        Rabs (polygon_area (boundary (g_pupil g w i j) m1 m2))) j) i) w.
Proof.
  intros M1 M2 O.
  assert (E : forall w i j, Rabs (polygon_area (boundary (g_pupil g w i j) m1 m2))
    = sum_upto m1 (fun k => sum_upto m2 (fun l => Rabs (volume_cell_2d quad_area (g_pupil g w i j) k l)))).
  { intros; symmetry; apply cells_abs; auto. }
  unfold center1; rewrite !E; clear E O.
  unfold cell_area, center1, volume_cell_1d.
  set (A := g_wavelength g (S w) - g_wavelength g w); set (B := (_ + _) / 2).
  rewrite <- !sum_upto_plus; unfold Rdiv.
  repeat (rewrite <- ?sum_upto_scal_r, <- ?sum_upto_plus).
  rewrite <- sum_upto_scal; apply sum_upto_ext; intros k _.
  repeat (rewrite <- ?sum_upto_scal_r, <- ?sum_upto_plus).
  rewrite <- sum_upto_scal; apply sum_upto_ext; intros l _.
  ring.
Qed.

(** ** Rectilinear grids *)
Lemma rectilinear_cell p x y i j : rectilinear p x y ->
  volume_cell_2d quad_area p i j = (x (S i) - x i) * (y (S j) - y j).
Proof. intros R; unfold volume_cell_2d, quad_area, cross2; rewrite !R; cbn; field. Qed.

Lemma sum_diff_abs n x : monotone n x -> sum_upto n (fun i => Rabs (x (S i) - x i)) = Rabs (x n - x 0%nat).
Proof.
  intros M; rewrite <- sum_upto_tele; apply sum_abs.
  destruct M as [M | M]; [left | right]; intros i I; specialize (M i I); lra.
Qed.

Lemma rectilinear_abs p x y m n : rectilinear p x y -> monotone m x -> monotone n y ->
  sum_upto m (fun i => sum_upto n (fun j => Rabs (volume_cell_2d quad_area p i j)))
  = Rabs (x m - x 0%nat) * Rabs (y n - y 0%nat).
Proof.
  intros R X Y; rewrite <- !sum_diff_abs by assumption; rewrite <- sum_upto_scal_r.
  apply sum_upto_ext; intros i _; rewrite <- sum_upto_scal; apply sum_upto_ext; intros j _.
  rewrite (rectilinear_cell p x y) by exact R; apply Rabs_mult.
Qed.

Lemma rectilinear_total g f p fx fy px py nw n1 n2 m1 m2 : separable g f p ->
  rectilinear f fx fy -> rectilinear p px py ->
  monotone n1 fx -> monotone n2 fy -> monotone m1 px -> monotone m2 py ->
  total nw n1 n2 m1 m2 (cell_area quad_area quad_area g)
  = (g_wavelength g nw - g_wavelength g 0%nat)
    * (Rabs (fx n1 - fx 0%nat) * Rabs (fy n2 - fy 0%nat))
    * (Rabs (px m1 - px 0%nat) * Rabs (py m2 - py 0%nat)).
Proof.
  intros S RF RP X Y U V; unfold total.
  set (lam := g_wavelength g).
  rewrite <- (rectilinear_abs f fx fy n1 n2), <- (rectilinear_abs p px py m1 m2), <- (sum_upto_tele nw lam) by assumption.
  rewrite <- !sum_upto_scal_r; apply sum_upto_ext; intros w _.
  rewrite Rmult_assoc, <- !sum_upto_scal_r, <- sum_upto_scal; apply sum_upto_ext; intros i _.
  rewrite <- !sum_upto_scal_r, <- sum_upto_scal; apply sum_upto_ext; intros j _.
  rewrite <- !sum_upto_scal; apply sum_upto_ext; intros k _.
  rewrite <- !sum_upto_scal; apply sum_upto_ext; intros l _.
  rewrite (separable_cell _ _ g f p) by exact S; unfold lam; ring.
Qed.

Lemma rectilinear_cell_area g f p fx fy px py w i j k l : separable g f p ->
  rectilinear f fx fy -> rectilinear p px py ->
  cell_area quad_area quad_area g w i j k l
  = (g_wavelength g (S w) - g_wavelength g w)
    * (Rabs (fx (S i) - fx i) * Rabs (fy (S j) - fy j)) * (Rabs (px (S k) - px k) * Rabs (py (S l) - py l)).
Proof.
  intros S RF RP; rewrite (separable_cell _ _ g f p) by exact S.
  rewrite (rectilinear_cell f fx fy), (rectilinear_cell p px py), !Rabs_mult by assumption; reflexivity.
Qed.

Lemma center1_nonneg f i : (forall i, 0 <= f i) -> 0 <= center1 f i.
Proof. intros H; unfold center1; pose proof (H i); pose proof (H (S i)); lra. Qed.
Lemma cell_area_nonneg af ap g w i j k l : g_wavelength g w <= g_wavelength g (S w) ->
  0 <= cell_area af ap g w i j k l.
Proof.
  intros W; unfold cell_area, volume_cell_1d.
  apply Rmult_le_pos; [apply Rmult_le_pos; [lra|]|].
  - apply center1_nonneg; intros; apply Rabs_pos.
  - do 3 (apply center1_nonneg; intros); apply Rabs_pos.
Qed.

Lemma check_axes_distinct sw sf sp aw af1 af2 ap1 ap2 :
  check_axes sw sf sp aw (af1, af2) (ap1, ap2) = Some tt ->
  aw <> af1 /\ aw <> af2 /\ aw <> ap1 /\ aw <> ap2 /\ af1 <> ap1 /\ af1 <> ap2 /\ af2 <> ap1 /\ af2 <> ap2.
Proof.
  unfold check_axes; cbn [fst snd existsb forallb].
  assert (MI : forall a l, mem a l = true <-> In a l).
  { intros a l; unfold mem; rewrite existsb_exists; split.
    - intros (b & B & E); apply String.eqb_eq in E; subst; exact B.
    - intros I; exists a; split; [exact I | apply String.eqb_refl]. }
  destruct (mem aw sw) eqn:E1; [|discriminate]; cbn [negb].
  destruct (mem af1 sf) eqn:E2; [|discriminate]; destruct (mem af2 sf) eqn:E3; [|discriminate]; cbn [andb negb].
  destruct (mem af1 sw) eqn:E4; [discriminate|]; destruct (mem af2 sw) eqn:E5; [discriminate|]; cbn [orb].
  destruct (mem ap1 sp) eqn:E6; [|discriminate]; destruct (mem ap2 sp) eqn:E7; [|discriminate]; cbn [andb negb].
  destruct (mem ap1 (sw ++ sf)) eqn:E8; [discriminate|]; destruct (mem ap2 (sw ++ sf)) eqn:E9; [discriminate|].
  intros _.
  assert (N8 : ~ In ap1 (sw ++ sf)) by (rewrite <- MI; congruence).
  assert (N9 : ~ In ap2 (sw ++ sf)) by (rewrite <- MI; congruence).
  apply MI in E1, E2, E3; rewrite in_app_iff in N8, N9.
  repeat split; intros ->; try (apply MI in E1; congruence); tauto.
Qed.

(** ** A grid of which the pupil depends on the wavelength *)
Definition varying (width : nat -> R) (step : R) : object_grid := {|
  g_wavelength := fun w => step * INR w;
  g_field := fun _ i j => (INR i, INR j);
  g_pupil := fun w _ _ k l => (width w * INR k, INR l) |}.

Lemma varying_total width step n : (forall w, 0 <= width w) ->
  total n 1 1 1 1 (cell_area quad_area quad_area (varying width step))
  = sum_upto n (fun w => step * ((width w + width (S w)) / 2)).
Proof.
  intros P; unfold total; apply sum_upto_ext; intros w _; cbn [sum_upto].
  unfold cell_area, volume_cell_1d, volume_cell_2d, center1, varying; cbn [g_wavelength g_field g_pupil].
  replace (quad_area (INR 0, INR 0) (INR 1, INR 0) (INR 1, INR 1) (INR 0, INR 1)) with 1
    by (unfold quad_area, cross2; cbn; field).
  assert (Q : forall u, quad_area (width u * INR 0, INR 0) (width u * INR 1, INR 0) (width u * INR 1, INR 1) (width u * INR 0, INR 1) = width u)
    by (intros u; unfold quad_area, cross2; cbn; field).
  rewrite !Q, !Rabs_pos_eq, S_INR by (auto; lra); lra.
Qed.

Lemma varying_refuted :
  exists (fine coarse : object_grid),
    (forall w i j k l, g_wavelength coarse w = g_wavelength fine (2 * w)%nat /\
       g_field coarse w i j = g_field fine (2 * w)%nat i j /\
       g_pupil coarse w i j k l = g_pupil fine (2 * w)%nat i j k l) /\
    (forall w, g_wavelength fine w < g_wavelength fine (S w)) /\
    total 2 1 1 1 1 (cell_area quad_area quad_area fine) <> total 1 1 1 1 1 (cell_area quad_area quad_area coarse).
Proof.
  set (w3 := fun w => if Nat.even w then 1 else 3).
  exists (varying w3 1), (varying (fun w => w3 (2 * w)%nat) 2); split; [|split].
  - intros; cbn [g_wavelength g_field g_pupil varying]; repeat split.
    rewrite mult_INR; cbn [INR]; ring.
  - intros; cbn [g_wavelength varying]; rewrite S_INR; lra.
  - assert (P : forall w, 0 <= w3 w) by (intros w; unfold w3; destruct (Nat.even w); lra).
    rewrite !varying_total by auto; cbn; unfold w3; cbn; lra.
Qed.

Lemma decreasing_negative : exists g, (forall w, g_wavelength g (S w) < g_wavelength g w) /\
  cell_area quad_area quad_area g 0 0 0 0 0 < 0.
Proof.
  exists (varying (fun _ => 1) (-1)); split.
  - intros w; cbn [g_wavelength varying]; rewrite S_INR; lra.
  - pose proof (varying_total (fun _ => 1) (-1) 1 ltac:(intros; lra)) as T; unfold total in T; cbn [sum_upto] in T; lra.
Qed.

(** ** A skewed grid *)
Definition skewed (i j : nat) : point2 := (INR i + INR j / 2, INR j).
Lemma skewed_oriented m n : oriented skewed m n.
Proof.
  left; intros i j _ _; rewrite cell_sign_eq; unfold volume_cell_2d, quad_area, cross2, skewed; cbn [fst snd].
  rewrite !S_INR; lra.
Qed.
