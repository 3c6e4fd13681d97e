(** Stop rays that depend on the wavelength. *)
From Coq Require Import Reals List Bool Lra.
From Verif Require Import Vec Num RayModel AngleModel SystemModel SystemSpec SystemExamples CornerModel CornerProofs.
Import ListNotations.
Open Scope R_scope.
Open Scope opt_scope.

Definition two_wavelengths (w : R) : list ray :=
  [mkRay w (Some (V3 (- w) 0 0)) (Some (V3 0 0 1)) (Some 1) 0 1 true; mkRay w (Some (V3 w 1 0)) (Some (V3 0 0 1)) (Some 1) 0 1 true].

Lemma two_corner : forall sys w, sys_at_infinity sys = false -> 0 <= w ->
  corner sys true true (two_wavelengths w) = Some (w, 1) /\ corner sys true false (two_wavelengths w) = Some (- w, 0).
Proof.
  intros sys w F W. unfold corner, stop_coordinates. rewrite F. cbn.
  rewrite (Rmax_right (- w) w), (Rmin_left (- w) w), (Rmax_right 0 1), (Rmin_left 0 1) by lra. auto.
Qed.

Lemma two_grid : forall w, 0 <= w -> exists g,
  denormalize_grid simple (two_wavelengths w) (mkGrid w (sign_of true, sign_of true) (sign_of true, sign_of true)) true true = Some g /\
  g_field g = (w, 1).
Proof.
  intros w W. destruct on_axis_angles as (a & A & _). unfold on_axis in A.
  unfold denormalize_grid. cbn [negb andb simple sys_at_infinity two_wavelengths map].
  unfold ray_xy, ray_angles. cbn [r_position r_direction omap obind]. rewrite A. cbn [all_some obind g_field g_pupil].
  unfold denormalize2, denormalize. cbn [map fst snd list_min list_max fold_left obind vx vy sign_of g_wavelength].
  eexists. split; [reflexivity|]. cbn [g_field].
  rewrite (Rmin_left (- w) w), (Rmax_right (- w) w), (Rmin_left 0 1), (Rmax_right 0 1) by lra. f_equal; field.
Qed.
