(** C19: direction and angles. *)
From Coq Require Import Reals Lra.
From Verif Require Import Vec AngleModel AngleProofs.
Open Scope R_scope.

Theorem C19_direction_unit : forall ax ay, is_unit (direction ax ay).
Proof. exact direction_unit. Qed.
Print Assumptions C19_direction_unit.

Theorem C19_angles_direction : forall ax ay, - PI < ax < PI -> - (PI / 2) < ay < PI / 2 ->
  angles (direction ax ay) = Some (ax, ay).
Proof. exact angles_direction. Qed.
Print Assumptions C19_angles_direction.

(** Also for vectors parallel to the y axis. *)
Theorem C19_direction_angles : forall d, is_unit d ->
  exists ax ay, angles d = Some (ax, ay) /\ direction ax ay = d.
Proof. exact direction_angles. Qed.
Print Assumptions C19_direction_angles.

Example C19_nonvacuous : - PI < -2 < PI /\ - (PI / 2) < 1 < PI / 2 /\ is_unit (V3 (3/5) 0 (-4/5)).
Proof.
  assert (H := PI2_3_2). unfold is_unit, norm2, dot; cbn. lra.
Qed.
