(** Theorems on charge diffusion: C57, C58, C78, C79. *)
From Coq Require Import Reals List ZArith Lra Lia.
From Coquelicot Require Import Coquelicot.
From Verif Require Import Num NumLemmas ExtNum RamanathanModel SensorSpec DiffusionModel DiffusionSpec DiffusionProofs.
Import ListNotations.
Open Scope R_scope.

(** ** C57 *)

(** The square of the width is the mean of the square of the width of the cloud, over the
    depths of absorption in the substrate, and over the depths drawn by
    [electrons_measured]. *)
Theorem C57_average : forall a s d, 0 < a -> 0 < s -> 0 <= d <= s -> exists w, charge_diffusion a s d = Some w /\
  is_truncated_mean a s (fun z => diffusion_width (s - d) z ^ 2) (w ^ 2) /\
  is_RInt (fun y => diffusion_width (s - d) (photon_depth a s y) ^ 2) 0 1 (w ^ 2).
Proof. exact diffusion_average. Qed.
Print Assumptions C57_average.

Theorem C57_range : forall a s d, 0 < a -> 0 < s -> 0 <= d <= s ->
  exists w, charge_diffusion a s d = Some w /\ 0 <= w <= s - d /\ (w = 0 <-> d = s).
Proof. exact diffusion_range. Qed.
Print Assumptions C57_range.

(** The width is a number unless the depletion region is thicker than the substrate or nothing is absorbed. *)
Theorem C57_defined : forall s d, 0 < s ->
  (forall a, 0 < a -> ((exists w, charge_diffusion a s d = Some w) <-> d <= s)) /\ charge_diffusion 0 s d = None.
Proof. intros s d S. split; [intros a A; exact (diffusion_defined a s d A S) | exact (diffusion_clear s d)]. Qed.
Print Assumptions C57_defined.

Example C57_nonvacuous : charge_diffusion 1 2 2 = Some 0 /\ charge_diffusion (ln 2) 1 0 = Some (sqrt ((2 * ln 2 - 1) / ln 2)).
Proof.
  assert (L := ln_lt_2). split; rewrite charge_diffusion_value by lra; f_equal.
  - replace (2 - 2) with 0 by ring. unfold spread_of. rewrite Rmult_0_l. unfold Rdiv. rewrite Rmult_0_l. apply sqrt_0.
  - f_equal. unfold spread_of. replace (1 - 0) with 1 by ring. replace (- ln 2 * 1) with (- ln 2) by ring. rewrite exp_Ropp, exp_ln by lra. field. lra.
Qed.

(** ** C58 *)

(** The value of the one-dimensional kernel is the probability of the pixel: the photon is
    uniform over the central pixel and the electrons are normal around it. *)
Theorem C58_probability : forall w d n, 0 < w -> 0 < d -> exists k, kernel_1d w d n = Fin k /\ is_pixel_probability w d n k /\ 0 < k.
Proof.
  intros w d n W D. exists (second_difference (d / w) (IZR n)).
  exact (conj (kernel_value w d n W D) (conj (kernel_meaning w d n W D) (second_pos (d / w) (IZR n) (Rdiv_lt_0_compat d w D W)))).
Qed.
Print Assumptions C58_probability.

Theorem C58_total : forall w d, 0 < w -> 0 < d -> exists k, (forall n, kernel_1d w d n = Fin (k n)) /\ is_lim_seq (centred_sum k) 1.
Proof.
  intros w d W D. exists (fun n => second_difference (d / w) (IZR n)).
  exact (conj (fun n => kernel_value w d n W D) (centred_limit (d / w) (Rdiv_lt_0_compat d w D W))).
Qed.
Print Assumptions C58_total.

Theorem C58_positive : forall w d i j, 0 < w -> 0 < d -> exists v, kernel_diffusion w d i j = Fin v /\ 0 < v.
Proof. exact kernel_positive. Qed.
Print Assumptions C58_positive.

Theorem C58_symmetric : forall w d i j, 0 < w -> 0 < d ->
  kernel_diffusion w d (- i) j = kernel_diffusion w d i j /\ kernel_diffusion w d i (- j) = kernel_diffusion w d i j /\
  kernel_diffusion w d j i = kernel_diffusion w d i j.
Proof. exact kernel_symmetric. Qed.
Print Assumptions C58_symmetric.

Theorem C58_sum : forall w d, 0 < w -> 0 < d ->
  esum (flat_map (fun i => map (fun j => kernel_diffusion w d i j) [-1; 0; 1]%Z) [-1; 0; 1]%Z) = Fin 1.
Proof. exact kernel_sum. Qed.
Print Assumptions C58_sum.

(** The centre: before normalisation it is the square root of the mean charge capture;
    afterwards, since the charge beyond the nine pixels is left out, it exceeds it. *)
Theorem C58_centre : forall w d, 0 < w -> 0 < d -> exists k c v, kernel_1d w d 0 = Fin k /\ mean_charge_capture w d = Fin c /\
  kernel_diffusion w d 0 0 = Fin v /\ c = k ^ 2 /\ c < v.
Proof. exact kernel_centre. Qed.
Print Assumptions C58_centre.

Theorem C58_capture : forall w d, 0 < w -> 0 < d -> exists c, mean_charge_capture w d = Fin c /\ 0 < c < 1.
Proof. exact capture_bounds. Qed.
Print Assumptions C58_capture.

Example C58_nonvacuous : exists c, mean_charge_capture 1 1 = Fin c /\ 0 < c < 1 /\ kernel_diffusion 1 1 1 0 = kernel_diffusion 1 1 0 (-1).
Proof.
  destruct (capture_bounds 1 1 ltac:(lra) ltac:(lra)) as (c & E & B). exists c. split; [exact E|]. split; [exact B|].
  destruct (kernel_symmetric 1 1 1 0 ltac:(lra) ltac:(lra)) as (_ & _ & <-). destruct (kernel_symmetric 1 1 0 1 ltac:(lra) ltac:(lra)) as (_ & <- & _). reflexivity.
Qed.

(** ** C78 *)

(** A sensor without a field-free region has a cloud of width zero. The capture is then
    complete.  The full statement asks for the kernel to be the identity as well. *)
Theorem C78_capture_partial : forall a s wp, 0 < a -> 0 < s -> 0 < wp -> charge_diffusion a s s = Some 0 /\ mean_charge_capture 0 wp = Fin 1.
Proof.
  intros a s wp A S W. destruct (diffusion_range a s s A S ltac:(lra)) as (w & E & _ & Z). rewrite (proj2 Z eq_refl) in E.
  exact (conj E (capture_zero wp W)).
Qed.
Print Assumptions C78_capture_partial.

(** But the kernel is NaN at all nine pixels, whatever the width of the pixels. *)
Theorem C78_kernel_refuted : exists a s w, 0 < a /\ 0 < s /\ charge_diffusion a s s = Some w /\
  forall d, 0 < d -> forall i j, In i [-1; 0; 1]%Z -> In j [-1; 0; 1]%Z -> kernel_diffusion w d i j = NaN.
Proof.
  exists 1, 1, 0.
  exact (conj Rlt_0_1 (conj Rlt_0_1 (conj (proj1 (C78_capture_partial 1 1 1 Rlt_0_1 Rlt_0_1 Rlt_0_1)) (fun d D i j => kernel_nan d i j D)))).
Qed.
Print Assumptions C78_kernel_refuted.

Example C78_nonvacuous : charge_diffusion 1 1 1 = Some 0 /\ kernel_diffusion 0 1 0 0 = NaN.
Proof.
  split; [apply (C78_capture_partial 1 1 1); lra|]. apply kernel_nan; [lra | right; left; reflexivity | right; left; reflexivity].
Qed.

(** ** C79 *)

Theorem C79_increasing : forall a s d e wp b c, 0 < a -> 0 < s -> 0 <= d < e -> e <= s -> 0 < wp ->
  depletion_capture a s d wp = Fin b -> depletion_capture a s e wp = Fin c -> b < c.
Proof. exact depletion_increasing. Qed.
Print Assumptions C79_increasing.

Theorem C79_defined : forall a s d wp, 0 < a -> 0 < s -> 0 <= d <= s -> 0 < wp -> exists c, depletion_capture a s d wp = Fin c /\ 0 < c <= 1.
Proof. exact depletion_value. Qed.
Print Assumptions C79_defined.

(** Measurements made by a sensor of depletion thickness [d0]: the objective vanishes there
    and nowhere else. *)
Theorem C79_fit : forall s wp d0 measured, 0 < s -> 0 < wp -> 0 <= d0 <= s -> measured <> [] ->
  (forall m, In m measured -> 0 < fst m /\ depletion_capture (fst m) s d0 wp = Fin (snd m)) ->
  fit_objective s wp measured d0 = Fin 0 /\
  forall d, 0 <= d <= s -> d <> d0 -> exists v, fit_objective s wp measured d = Fin v /\ 0 < v.
Proof. exact fit_exact. Qed.
Print Assumptions C79_fit.

Example C79_nonvacuous : exists b c, 0 < b /\ b < c /\ depletion_capture 1 2 1 1 = Fin b /\ depletion_capture 1 2 2 1 = Fin c /\ c = 1.
Proof.
  destruct (depletion_value 1 2 1 1 ltac:(lra) ltac:(lra) ltac:(lra) ltac:(lra)) as (b & E & B).
  assert (C : depletion_capture 1 2 2 1 = Fin 1).
  { unfold depletion_capture. destruct (C78_capture_partial 1 2 1 ltac:(lra) ltac:(lra) ltac:(lra)) as [-> H]. exact H. }
  exists b, 1. split; [lra|]. split; [|tauto]. apply (depletion_increasing 1 2 1 2 1 b 1); try assumption; lra.
Qed.
