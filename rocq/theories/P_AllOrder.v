(** C106: all orders of a grating together. *)
From Coq Require Import Reals List Bool ZArith Lra Lia.
From Coquelicot Require Import Coquelicot.
From Verif Require Import Vec VecLemmas Num NumLemmas RayModel SnellSpec RulingModel RulingSpec GrooveProofs AllOrderSpec AllOrderProofs.
Import ListNotations.
Open Scope R_scope.

(** The orders of a grating with square, sawtooth or rectangular grooves get together all the light that
    arrives.  Missing for the full claim: triangular grooves, for which it is false, and sinusoidal ones,
    whose efficiencies are not powers (C98). *)
Theorem C106_all_partial : forall p sp r n (e : Z -> R), lossless_profile p ->
  (forall i, rulings_efficiency p i sp r n = Some (e i)) ->
  is_lim_seq (fun N => rsum (map e (orders_up_to N))) 1.
Proof. exact all_orders. Qed.
Print Assumptions C106_all_partial.

(** With square or rectangular grooves, of any depth and fraction, what the orders beyond [N] get is at most [1 / N]. *)
Theorem C106_rate_partial : forall p sp r n (e : Z -> R) N,
  (exists h, p = Square h \/ exists D, 0 < D < 1 /\ p = RectangularGroove h D) -> (1 <= N)%nat ->
  (forall i, rulings_efficiency p i sp r n = Some (e i)) ->
  1 - / INR N <= rsum (map e (orders_up_to N)) <= 1.
Proof. exact few_orders_rate. Qed.
Print Assumptions C106_rate_partial.

(** Triangular grooves half a wavelength deep lose three quarters of the light, or more. *)
Theorem C106_triangular_refuted : exists h w c (e : Z -> R), 0 < h /\ 0 < w /\ 0 < c <= 1 /\
  (forall i, profile_efficiency (Triangular h) i w c = Some (e i)) /\
  (forall N, rsum (map e (orders_up_to N)) <= 1 / 4) /\
  ~ is_lim_seq (fun N => rsum (map e (orders_up_to N))) 1.
Proof. exact triangular_loss. Qed.
Print Assumptions C106_triangular_refuted.

(** A sawtooth of a depth of 1/8 of the wavelength, and a rectangular groove, at an angle. *)
Example C106_nonvacuous :
  (exists e : Z -> R, (forall i, rulings_efficiency (Sawtooth (1 / 8)) i (default_spacing 1)
     (test_ray (V3 (3 / 5) 0 (4 / 5))) (Some (V3 0 0 (-1))) = Some (e i)) /\ forall i, 0 < e i) /\
  (exists e : Z -> R, (forall i, rulings_efficiency (RectangularGroove (1 / 8) (1 / 3)) i (default_spacing 1)
     (test_ray (V3 (3 / 5) 0 (4 / 5))) (Some (V3 0 0 (-1))) = Some (e i))).
Proof. split; [exact sawtooth_example | exact rectangular_example]. Qed.
