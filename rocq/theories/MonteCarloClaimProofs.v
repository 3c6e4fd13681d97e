(** Totals of the Monte Carlo image, and the sensor without a grid. *)
From Coq Require Import Reals List ZArith Lra Lia.
From Verif Require Import Num NumLemmas RamanathanModel DiffusionSpec MonteCarloSpec MonteCarloProofs DepthProofs.
Import ListNotations.
Open Scope R_scope.

Lemma wrap_total : forall nx ny s g, (0 < nx)%Z -> (0 < ny)%Z -> proper_draws s -> run_slice true nx ny s = Some g ->
  grid_total nx ny g = freed nx ny s.
Proof.
  intros nx ny s g X Y D R. unfold freed. rewrite <- count_survivors by exact D.
  apply (total_equal true nx ny s g); try assumption; [apply number_total | left; reflexivity].
Qed.

Lemma lost_total : forall nx ny s g, (0 < nx)%Z -> (0 < ny)%Z -> proper_draws s -> run_slice false nx ny s = Some g ->
  (grid_total nx ny g <= freed nx ny s)%Z /\
  ((forall el, is_electron nx ny s el -> in_grid nx ny (position s el)) -> grid_total nx ny g = freed nx ny s).
Proof.
  intros nx ny s g X Y D R. unfold freed. rewrite <- count_survivors by exact D. split.
  - apply (total_bound false nx ny s g); try assumption. apply number_total.
  - intros I. apply (total_equal false nx ny s g); try assumption; [apply number_total | right; exact I].
Qed.

Lemma single_total : forall g, grid_total 1 1 g = g 0%Z 0%Z.
Proof. intros g. unfold grid_total. change (zrange 1) with [0%Z]. cbn [map zsum fold_right]. rewrite !Z.add_0_r. reflexivity. Qed.

Lemma still : forall px d e, 0 <= px_absorption px -> 0 < px_substrate px -> 0 <= dr_depth d < 1 ->
  px_substrate px <= px_depletion px \/ px_width_x px <= 0 \/ px_width_y px <= 0 -> displacement px d e = (0, 0)%Z.
Proof.
  intros px d e A D U H. assert (Z := depth_range (px_absorption px) (px_substrate px) (dr_depth d) A D U).
  unfold displacement. destruct (Rlt_dec _ (px_substrate px - px_depletion px)); [|reflexivity].
  destruct (Rlt_dec 0 (px_width_x px)); [|reflexivity]. destruct (Rlt_dec 0 (px_width_y px)); [|reflexivity]. lra.
Qed.

Lemma single_measured : forall wrap px draws v, (forall j n p, (0 <= n -> 0 <= dr_binomial (draws j) n p <= n)%Z) ->
  measured_single wrap px draws = Some v ->
  let s := mkSlice (fun _ _ => px) (fun _ _ j => draws j) in
  (v <= zsum (map (survivors s 0 0) (seq 0 (photons s 0 0))))%Z /\
  (wrap = true \/
   (0 <= px_absorption px /\ 0 < px_substrate px /\ (forall j, 0 <= dr_depth (draws j) < 1) /\
    (px_substrate px <= px_depletion px \/ px_width_x px <= 0 \/ px_width_y px <= 0)) ->
   v = zsum (map (survivors s 0 0) (seq 0 (photons s 0 0)))).
Proof.
  intros wrap px draws v P R s. unfold measured_single in R. fold s in R. destruct (run_slice wrap 1 1 s) as [g|] eqn:G; [|discriminate].
  cbn [obind] in R. injection R as <-. rewrite <- (single_total g).
  assert (D : proper_draws s) by (intros x y j n p N; apply P, N).
  assert (F : freed 1 1 s = zsum (map (survivors s 0 0) (seq 0 (photons s 0 0)))) by (unfold freed; rewrite single_total; reflexivity).
  rewrite <- F. destruct wrap.
  - rewrite (wrap_total 1 1 s g) by (assumption || lia). split; [lia | reflexivity].
  - destruct (lost_total 1 1 s g ltac:(lia) ltac:(lia) D G) as [B E]. split; [exact B|].
    intros [X|(A & S & U & H)]; [discriminate|]. apply E. intros el I. destruct el as [[[x y] j] e]. destruct I as ([X Y] & _).
    unfold position. cbn [sl_pixel sl_draws s]. rewrite still by (assumption || apply U). unfold in_grid. cbn. lia.
Qed.

(** ** The law of the depth *)
Lemma depth_cdf_iff : forall a D y z, 0 <= a -> 0 < D -> 0 <= y < 1 -> 0 <= z <= D -> photon_depth a D y <= z <-> y <= truncated_cdf a D z.
Proof.
  intros a D y z A P Y Z. unfold truncated_cdf. destruct (Req_EM_T a 0) as [->|N].
  - rewrite depth_transparent. split; intros H.
    + apply Rmult_le_reg_r with D; [exact P|]. unfold Rdiv. rewrite Rmult_assoc, Rinv_l, Rmult_1_r by lra. exact H.
    + apply Rle_trans with (z / D * D); [apply Rmult_le_compat_r; lra|]. right. field. lra.
  - assert (A0 : 0 < a) by lra. assert (F := absorbed_pos a D A0 P).
    assert (I := depth_inverse a D z A0 P). set (c := (1 - exp (- a * z)) / (1 - exp (- a * D))) in *.
    assert (C : c <= 1).
    { unfold c. apply (proj2 (Rcomplements.Rle_div_l (1 - exp (- a * z)) 1 (1 - exp (- a * D)) (proj1 F))). assert (exp (- a * D) <= exp (- a * z)); [|lra].
      destruct (Req_dec z D) as [->|]; [lra|]. left. apply exp_increasing. nra. }
    split; intros H.
    + destruct (Rle_lt_dec y c) as [L|L]; [exact L|]. assert (X := depth_increasing a D c y A P L ltac:(lra)). lra.
    + destruct H as [H| ->]; [|lra]. assert (X := depth_increasing a D y c A P H C). lra.
Qed.

(** ** The pixel of an electron *)
Lemma round_nearest : forall x, nearest x (round_even x).
Proof.
  intros x. unfold nearest, round_even. destruct (base_Int_part x) as [L U]. set (f := Int_part x) in *. set (d := x - IZR f).
  assert (D : 0 <= d < 1) by (unfold d; lra).
  assert (A0 : x - IZR f = d) by reflexivity. assert (A1 : x - IZR (f + 1) = d - 1) by (rewrite plus_IZR; unfold d; ring).
  destruct (Rlt_dec d (1 / 2)) as [H | H]; [|destruct (Rlt_dec (1 / 2) d) as [H' | H']].
  - rewrite A0, Rabs_pos_eq by lra. split; lra.
  - rewrite A1, Rabs_left by lra. split; lra.
  - assert (E : d = 1 / 2) by lra. destruct (Z.even f) eqn:P.
    + rewrite A0, Rabs_pos_eq by lra. split; [lra|]. intros _. apply Z.even_spec, P.
    + rewrite A1, Rabs_left by lra. split; [lra|]. intros _. apply Z.even_spec. rewrite Z.even_add, P. reflexivity.
Qed.

Lemma electron_pixel : forall px d e,
  let z := photon_depth (px_absorption px) (px_substrate px) (dr_depth d) in
  let f := px_substrate px - px_depletion px in
  (z < f -> 0 < px_width_x px -> 0 < px_width_y px ->
    nearest (dr_gauss_x d e (dr_u d) (diffusion_width f z / px_width_x px)) (fst (displacement px d e)) /\
    nearest (dr_gauss_y d e (dr_v d) (diffusion_width f z / px_width_y px)) (snd (displacement px d e))) /\
  (f <= z \/ px_width_x px <= 0 \/ px_width_y px <= 0 -> displacement px d e = (0, 0)%Z).
Proof.
  intros px d e z f. unfold displacement. fold z. fold f. unfold diffusion_width. split.
  - intros H X Y. destruct (Rlt_dec z f); [|lra]. destruct (Rlt_dec 0 (px_width_x px)); [|lra]. destruct (Rlt_dec 0 (px_width_y px)); [|lra].
    split; apply round_nearest.
  - intros H. destruct (Rlt_dec z f); [|reflexivity]. destruct (Rlt_dec 0 (px_width_x px)); [|reflexivity]. destruct (Rlt_dec 0 (px_width_y px)); [lra | reflexivity].
Qed.

(** The number of pairs of an energetic photon. *)
Lemma energetic_pairs : forall px d n, 50 < px_energy px -> pair_count px d = Some n ->
  exists mean, mean * px_energy_pair_inf px = px_energy px /\ nearest (dr_normal d mean (sqrt (px_fano_inf px * mean))) n.
Proof.
  intros px d n H. unfold pair_count, odiv, osqrt. destruct (Req_EM_T (px_energy_pair_inf px) 0) as [|N]; [discriminate|]. cbn [obind].
  set (m := px_energy px / px_energy_pair_inf px). destruct (Rle_dec 0 (px_fano_inf px * m)); [|discriminate]. cbn [obind].
  destruct (Rle_dec (px_energy px) 50); [lra|]. intros E. injection E as <-. exists m. split; [unfold m; field; exact N | apply round_nearest].
Qed.
