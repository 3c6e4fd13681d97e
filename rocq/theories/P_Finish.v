(** C104: the Monte Carlo run of a slice and the error that can end it. *)
From Coq Require Import Reals List Lra Lia ZArith.
From Verif Require Import Num RamanathanModel SiliconSpec PairTableModel MonteCarloSpec MonteCarloExamples PairDrawProofs PairFinishSpec
  MonteCarloFinishProofs.
Open Scope R_scope.

(** Every wavelength and temperature of a sensor gives the arguments of a pixel. *)
Theorem C104_pixel : forall photons w a W Dp D wx wy h0 T, 0 <= T <= 300 ->
  exists px, measured_pixel shipped photons w a W Dp D wx wy h0 T = Some px.
Proof. exact measured_defined. Qed.
Print Assumptions C104_pixel.

(** The run fails exactly when the normal draw of some photon above 50 eV is below -1/2. *)
Theorem C104_fails : forall wrap nx ny s, (forall x y, silicon_pixel (sl_pixel s x y)) -> uniform_depths s ->
  run_slice wrap nx ny s = None <->
  exists x y j, in_grid nx ny (x, y) /\ (j < photons s x y)%nat /\ 50 < px_energy (sl_pixel s x y) /\
    dr_normal (sl_draws s x y j) (pairs_mean (sl_pixel s x y)) (pairs_deviation (sl_pixel s x y)) < - (1 / 2).
Proof. exact run_fails. Qed.
Print Assumptions C104_fails.

(** It finishes if no such draw is negative.  The full claim is without this hypothesis. *)
Theorem C104_finishes_partial : forall wrap nx ny s, (forall x y, silicon_pixel (sl_pixel s x y)) -> uniform_depths s ->
  (forall x y j, in_grid nx ny (x, y) -> 50 < px_energy (sl_pixel s x y) ->
    0 <= dr_normal (sl_draws s x y j) (pairs_mean (sl_pixel s x y)) (pairs_deviation (sl_pixel s x y))) ->
  exists g, run_slice wrap nx ny s = Some g.
Proof. exact run_finishes. Qed.
Print Assumptions C104_finishes_partial.

(** A negative draw is more than ten standard deviations below the mean. *)
Theorem C104_deviations : forall px, silicon_pixel px -> 50 < px_energy px ->
  0 < pairs_deviation px /\ 10 < pairs_mean px / pairs_deviation px.
Proof. exact deviations. Qed.
Print Assumptions C104_deviations.

(** The run of one photon fails. *)
Theorem C104_finishes_refuted : exists s, (forall x y, silicon_pixel (sl_pixel s x y)) /\ uniform_depths s /\ photons s 0 0 = 1%nat /\
  50 < px_energy (sl_pixel s 0%Z 0%Z) /\ forall wrap, run_slice wrap 1 1 s = None.
Proof. exact slice_fails. Qed.
Print Assumptions C104_finishes_refuted.

(** A pixel of a sensor at room temperature in light of 100 eV, whose draws are their means. *)
Example C104_nonvacuous : exists px, silicon_pixel px /\ 50 < px_energy px /\
  exists d, 0 <= dr_normal d (pairs_mean px) (pairs_deviation px).
Proof.
  destruct (shipped_probabilities (hc / 100) 300) as (p & P & _).
  destruct (shipped_pixel 1 (hc / 100) 1 1 1 1 1 1 1 300 p ltac:(lra) P) as (e & f & E & EB & _).
  assert (HC : hc <> 0) by (unfold hc; lra). eexists. split; [|split].
  - exists 1, (hc / 100), 1, 1, 1, 1, 1, 1, 1, 300. split; [unfold hc; lra|]. split; [lra|]. split; [lra|]. split; [lra|]. split; [lra|exact E].
  - cbn [px_energy]. replace (hc / (hc / 100)) with 100 by (field; exact HC). lra.
  - exists (mkDraws 0 (fun m s => m) 0 (fun n p => n) 0 0 (fun _ _ _ => 0) (fun _ _ _ => 0)). cbn [dr_normal].
    unfold pairs_mean. cbn [px_energy px_energy_pair_inf]. replace (hc / (hc / 100)) with 100 by (field; exact HC).
    apply Rlt_le, Rdiv_lt_0_compat; lra.
Qed.
