(** An exposure of two pixels at two wavelengths, whose photons are all in one of them. *)
From Coq Require Import Reals List String Arith ZArith Lia Lra.
From Verif Require Import Num NumLemmas ShapeModel RamanathanModel MonteCarloExamples ExposureModel ExposureSpec ExposureProofs.
Import ListNotations.
Open Scope string_scope.
Open Scope list_scope.
Open Scope nat_scope.

Definition grid : shape := [("x", 2); ("y", 1); ("w", 2)].
Definition constant (v : R) : narray R := mkNarray [] [v].
Definition frame : exposure := mkExposure (mkNarray [("x", 2); ("w", 2)] [1; 0; 0; 0]%R) (constant 10) (constant 0) (constant 0) (constant (1 / 2)) (constant 1)
  (constant 1) (constant 1) (constant 1) (mkNarray [("num_electron", 1)] [1%R]) (mkNarray [("num_electron", 1)] [3%Z]) (constant 1) (constant 1).
Definition same_draws (i : nat) (x y : Z) (j : nat) : photon_draws := draws_m.

Definition four (v : R) : narray R := mkNarray [("w", 2); ("x", 2); ("y", 1)] [v; v; v; v].
Definition wide : exposure := mkExposure (mkNarray [("w", 2); ("x", 2); ("y", 1)] [1; 0; 0; 0]%R) (four 10) (four 0) (four 0) (four (1 / 2)) (four 1)
  (four 1) (four 1) (four 1) (mkNarray [("w", 2); ("x", 2); ("y", 1); ("num_electron", 1)] [1; 1; 1; 1]%R)
  (mkNarray [("w", 2); ("x", 2); ("y", 1); ("num_electron", 1)] [3; 3; 3; 3]%Z) (four 1) (four 1).
Lemma frame_wide : broadcast_exposure frame [("w", 2); ("x", 2); ("y", 1)] 1 = Some wide.
Proof. reflexivity. Qed.
Lemma frame_first g j : run_slice false 2 1 (mkSlice (pixel_of g j 2 1 1 wide 0) (same_draws 0)) = run_slice false 2 1 slice_m.
Proof. reflexivity. Qed.
Lemma frame_second g j : slice_writes false 2 1 (mkSlice (pixel_of g j 2 1 1 wide 1) (same_draws 1)) = Some [].
Proof.
  unfold slice_writes. change (zrange 2) with [0; 1]%Z. change (zrange 1) with [0%Z]. cbn [oconcat sl_pixel sl_draws].
  change (px_photons (pixel_of g j 2 1 1 wide 1 0 0)) with 0%R. change (px_photons (pixel_of g j 2 1 1 wide 1 1 0)) with 0%R.
  rewrite (int_of_IZR 0) by lia. reflexivity.
Qed.
Lemma frame_measured g j : measured_array g j false same_draws (Some ("x", "y")) grid 1 frame = Some (mkNarray [("w", 2); ("x", 2); ("y", 1)] [1; 1; 0; 0]%Z).
Proof.
  unfold measured_array. change (exposure_shape grid (Some ("x", "y"))) with (Some ([("w", 2); ("x", 2); ("y", 1)], ("x", "y"))). cbn [obind].
  rewrite frame_wide. cbn [obind]. change (last_sizes [("w", 2); ("x", 2); ("y", 1)]) with (Some (2, 1)). cbn [obind].
  change (Nat.eqb (2 * 1 * 1) 0) with false. cbv iota. change (Nat.div (List.length (na_data (ex_p wide))) (2 * 1 * 1)) with 2.
  change (seq 0 2) with [0; 1]. cbn [map run_slices]. change (Z.of_nat 2) with 2%Z. change (Z.of_nat 1) with 1%Z. rewrite frame_first.
  unfold run_slice. rewrite writes_m, frame_second. reflexivity.
Qed.

(** The same without a grid: the pixels are sensors of their own. *)
Definition four_d (v : R) : narray R := mkNarray [("x", 2); ("y", 1); ("w", 2); ("__dummy_x__", 1); ("__dummy_y__", 1)] [v; v; v; v].
Definition wide_d : exposure := mkExposure (mkNarray [("x", 2); ("y", 1); ("w", 2); ("__dummy_x__", 1); ("__dummy_y__", 1)] [1; 0; 0; 0]%R)
  (four_d 10) (four_d 0) (four_d 0) (four_d (1 / 2)) (four_d 1) (four_d 1) (four_d 1) (four_d 1)
  (mkNarray [("x", 2); ("y", 1); ("w", 2); ("__dummy_x__", 1); ("__dummy_y__", 1); ("num_electron", 1)] [1; 1; 1; 1]%R)
  (mkNarray [("x", 2); ("y", 1); ("w", 2); ("__dummy_x__", 1); ("__dummy_y__", 1); ("num_electron", 1)] [3; 3; 3; 3]%Z) (four_d 1) (four_d 1).
Lemma frame_wide_d : broadcast_exposure frame [("x", 2); ("y", 1); ("w", 2); ("__dummy_x__", 1); ("__dummy_y__", 1)] 1 = Some wide_d.
Proof. reflexivity. Qed.
Lemma frame_dark g j i : In i [1; 2; 3] -> slice_writes true 1 1 (mkSlice (pixel_of g j 1 1 1 wide_d i) (same_draws i)) = Some [].
Proof.
  intros I. unfold slice_writes. change (zrange 1) with [0%Z]. cbn [oconcat sl_pixel sl_draws].
  assert (P : px_photons (pixel_of g j 1 1 1 wide_d i 0 0) = 0%R) by (destruct I as [<- | [<- | [<- | []]]]; reflexivity).
  rewrite P, (int_of_IZR 0) by lia. reflexivity.
Qed.
Lemma frame_single g j : measured_array g j true same_draws None grid 1 frame = Some (mkNarray grid [3; 0; 0; 0]%Z).
Proof.
  unfold measured_array. change (exposure_shape grid None) with (Some ([("x", 2); ("y", 1); ("w", 2); ("__dummy_x__", 1); ("__dummy_y__", 1)], ("__dummy_x__", "__dummy_y__"))). cbn [obind].
  rewrite frame_wide_d. cbn [obind]. change (last_sizes [("x", 2); ("y", 1); ("w", 2); ("__dummy_x__", 1); ("__dummy_y__", 1)]) with (Some (1, 1)). cbn [obind].
  change (Nat.eqb (1 * 1 * 1) 0) with false. cbv iota. change (Nat.div (List.length (na_data (ex_p wide_d))) (1 * 1 * 1)) with 4.
  change (seq 0 4) with [0; 1; 2; 3]. cbn [map run_slices]. change (Z.of_nat 1) with 1%Z. unfold run_slice.
  rewrite (frame_dark g j 1), (frame_dark g j 2), (frame_dark g j 3) by (cbn; auto).
  change (slice_writes true 1 1 (mkSlice (pixel_of g j 1 1 1 wide_d 0) (same_draws 0))) with (slice_writes true 1 1 (mkSlice (fun _ _ => pixel_m 1) (fun _ _ _ => draws_m))).
  rewrite single_writes_m. reflexivity.
Qed.

Lemma exposure_example : NoDup (map fst grid) /\ "x" <> "y" /\ ~ In "num_electron" (map fst grid) /\
  ~ In "__dummy_x__" (map fst grid) /\ ~ In "__dummy_y__" (map fst grid) /\
  (forall g j, measured_array g j false same_draws (Some ("x", "y")) grid 1 frame = Some (mkNarray [("w", 2); ("x", 2); ("y", 1)] [1; 1; 0; 0]%Z)) /\
  (forall g j, measured_array g j true same_draws None grid 1 frame = Some (mkNarray grid [3; 0; 0; 0]%Z)) /\
  inside grid (fun a => if String.eqb a "x" then 1 else 0).
Proof.
  split; [cbn; repeat constructor; cbn; intuition discriminate|]. split; [discriminate|]. split; [cbn; intuition discriminate|].
  split; [cbn; intuition discriminate|]. split; [cbn; intuition discriminate|]. split; [exact frame_measured|]. split; [exact frame_single|].
  intros a n [H | [H | [H | []]]]; injection H as <- <-; cbn; lia.
Qed.

(** The same exposure, with energies along an axis of the size one. *)
Definition slim : exposure := mkExposure (mkNarray [("x", 2); ("w", 2)] [1; 0; 0; 0]%R) (mkNarray [("w", 1)] [10%R]) (constant 0) (constant 0) (constant (1 / 2)) (constant 1)
  (constant 1) (constant 1) (constant 1) (mkNarray [("num_electron", 1)] [1%R]) (mkNarray [("num_electron", 1)] [3%Z]) (constant 1) (constant 1).
Lemma slim_fits : arguments_fit grid 1 slim /\ lookup "x" grid = Some 2 /\ lookup "y" grid = Some 1.
Proof.
  split; [|split; reflexivity]. unfold arguments_fit, fits, slim, constant, grid, elements.
  cbn [ex_photons ex_energy ex_absorption ex_implant ex_depletion ex_substrate ex_width_x ex_width_y ex_eta0 ex_p ex_n ex_pair_inf ex_fano_inf na_shape na_data List.length fold_right snd].
  repeat split; intros b n H; cbn [In] in H;
    repeat match goal with H : _ \/ _ |- _ => destruct H as [H | H] | H : False |- _ => destruct H | H : (_, _) = (_, _) |- _ => injection H as <- <- end;
    first [exists 2; split; [cbn; tauto | lia] | exists 1; split; [cbn; tauto | lia]].
Qed.
Lemma slim_measured g j : measured_array g j false same_draws (Some ("x", "y")) grid 1 slim = Some (mkNarray [("w", 2); ("x", 2); ("y", 1)] [1; 1; 0; 0]%Z).
Proof. rewrite <- (frame_measured g j). reflexivity. Qed.
Lemma slim_single g j : measured_array g j true same_draws None grid 1 slim = Some (mkNarray grid [3; 0; 0; 0]%Z).
Proof. rewrite <- (frame_single g j). reflexivity. Qed.
