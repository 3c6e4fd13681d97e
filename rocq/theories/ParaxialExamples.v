(** A lens, a concave mirror with a screen, and a family of rays. *)
From Coq Require Import Reals Lra List.
From Coquelicot Require Import Coquelicot.
From Verif Require Import Vec Num NumLemmas RayModel SurfaceModel MaterialModel SagModel SequenceSpec FocusExamples ParaxialSpec ParaxialProofs ParaxialImageProofs.
Import ListNotations.
Open Scope R_scope.

Definition placed (e z : R) : rigid := mkRigid (M3 (V3 1 0 0) (V3 0 e 0) (V3 0 0 e)) (V3 0 0 z).
Definition lens_front : surface := bare (glass_material (3 / 2)) (SphericalSag 10) None.
(** The same sphere, turned around. *)
Definition lens_back : surface := bare (glass_material 1) (SphericalSag 10) (Some (placed (-1) 1)).
(** An oblate mirror and a screen in front of it. *)
Definition dish : surface := bare mirror (ConicSag (-20) 1) None.
Definition screen : surface := bare (glass_material 1) NoSag (Some (placed 1 (-15))).

Definition front_vertex := mkVertex 0 (1 / 10) (3 / 2).
Definition back_vertex := mkVertex 1 (- (1 / 10)) 1.
Definition dish_vertex := mkVertex 0 (- (1 / 20)) (-1).
Definition screen_vertex := mkVertex (-15) 0 (-1).

Lemma front_is : is_vertex no_solver lens_front 1 front_vertex front_vertex.
Proof.
  exists (SphericalSag 10), (1 / 10), (1 / 10), 1. cbn. split; [reflexivity|]. split; [reflexivity|]. split; [split; [left; reflexivity | left; auto]|].
  split; [repeat split; lra|]. repeat split; try lra. right. cbn. rewrite Rabs_right, !rsign_pos by lra. repeat split; lra.
Qed.
Lemma back_is : is_vertex no_solver lens_back (3 / 2) back_vertex back_vertex.
Proof.
  exists (SphericalSag 10), (1 / 10), (1 / 10), (-1). cbn. split; [reflexivity|]. split; [reflexivity|].
  split; [split; [right; reflexivity | right; exists 1, (-1); repeat split; auto]|].
  split; [repeat split; lra|]. repeat split; try lra. right. cbn. rewrite Rabs_right, !rsign_pos by lra. repeat split; lra.
Qed.
Lemma dish_is : is_vertex no_solver dish 1 dish_vertex dish_vertex.
Proof.
  exists (ConicSag (-20) 1), (1 / (-20)), (1 / (-20)), 1. cbn [dish bare sf_sag sf_rulings]. split; [reflexivity|]. split; [reflexivity|].
  split; [split; [left; reflexivity | left; auto]|]. split; [cbn; split; [lra|]; split; [rewrite Rabs_left; lra | split; reflexivity]|].
  cbn. repeat split; try lra. left. cbn. split; [reflexivity|]. split; [reflexivity | lra].
Qed.
Lemma screen_is : is_vertex no_solver screen (-1) screen_vertex screen_vertex.
Proof.
  exists NoSag, 0, 0, 1. cbn. split; [reflexivity|]. split; [reflexivity|].
  split; [split; [left; reflexivity | right; exists 1, 1; repeat split; auto]|].
  split; [split; reflexivity|]. repeat split; try lra. right. cbn. rewrite Rabs_left by lra. split; [reflexivity|]. split; [lra|]. split; [intros; lra | lra].
Qed.

(** Rays at the heights t and 2 t, of the angle a t. *)
Definition pencil (a : R) (t : R) : ray := light 1 (V3 t (2 * t) (-30)) (V3 (sin (a * t)) 0 (cos (a * t))).
Lemma pencil_near a : near_axis (pencil a) (mkPx 1 (-30) 1 a) (mkPx 1 (-30) 2 0).
Proof.
  unfold near_axis. cbn [px_index px_z px_h px_w]. rewrite (rsign_pos 1) by lra. split; [lra|]. split; [reflexivity|]. split; [reflexivity|].
  exists (fun t => V3 t (2 * t) (-30)), (fun t => V3 (sin (a * t)) 0 (cos (a * t))). cbn [vx vy vz].
  split; [apply filter_forall; intros t; cbn; rewrite Rabs_R1; auto|]. rewrite !Rmult_0_r, sin_0, cos_0.
  split; [reflexivity|]. split; [reflexivity|].
  split; [auto_derive; [exact I | ring]|]. split; [auto_derive; [exact I | ring]|].
  split; [auto_derive; [exact I | rewrite Rmult_0_r, cos_0; ring]|]. split; [auto_derive; [exact I | ring]|].
  split; [apply continuous_const|]. apply (continuous_comp (fun t => a * t) cos); [|apply continuity_pt_filterlim; apply continuity_cos].
  apply (ex_derive_continuous (fun t => a * t)). exists a. auto_derive; [exact I | ring].
Qed.

Lemma paraxial_example :
  are_vertices no_solver 1 [lens_front; lens_back] [front_vertex; back_vertex] [front_vertex; back_vertex] /\
  near_axis (pencil 1) (mkPx 1 (-30) 1 1) (mkPx 1 (-30) 2 0) /\ near_axis (pencil 0) (mkPx 1 (-30) 1 0) (mkPx 1 (-30) 2 0) /\
  is_vertex no_solver lens_front 1 front_vertex front_vertex /\ is_vertex no_solver lens_back (3 / 2) back_vertex back_vertex /\
  is_vertex no_solver dish 1 dish_vertex dish_vertex /\ is_vertex no_solver screen (-1) screen_vertex screen_vertex /\
  -1 / (-15 - 0) = 1 / (-30 - 0) + (-1 - 1) * - (1 / 20) /\
  invariant (mkPx 1 (-30) 1 1) (mkPx 1 (-30) 1 0) = -1.
Proof.
  split; [repeat constructor; first [exact front_is | exact back_is]|]. split; [apply pencil_near|]. split; [apply pencil_near|].
  split; [exact front_is|]. split; [exact back_is|]. split; [exact dish_is|]. split; [exact screen_is|].
  split; [field | unfold invariant; cbn; ring].
Qed.
