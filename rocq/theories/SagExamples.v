(** Concrete sags and rays used beside the theorems of P_Sag. *)
From Coq Require Import Reals Lra Psatz.
From Coquelicot Require Import Coquelicot.
From Verif Require Import Vec VecLemmas Num NumLemmas RayModel SurfaceModel SagModel SagSpec
  SagNormalProofs SagInterceptProofs SagMoreProofs.
Open Scope R_scope.

Lemma conic_line_graph r k o u q : regular (ConicSag r k) o u ->
  conic_intercept r k o u = Some q -> on_line o u q /\ on_graph (conic_z r k) q.
Proof.
  intros Hr H. split; [apply (class_on_line (fun _ _ => None) (ConicSag r k)); auto|].
  eapply conic_on_graph; eauto.
Qed.

Lemma sags_agree r f x y : sphere_z r x y = conic_z r 0 x y /\ parabola_z f x y = conic_z (2 * f) (-1) x y.
Proof. split; [apply sphere_z_conic|apply parabola_z_eq]. Qed.

Lemma normals_agree r f p :
  (interior (SphericalSag r) (vx p) (vy p) -> sphere_normal r p = conic_normal r 0 p) /\
  (f <> 0 -> parabola_normal f p = conic_normal (2 * f) (-1) p).
Proof. split; intros; [apply sphere_normal_conic|apply parabola_normal_conic]; auto. Qed.

Lemma ex_interior :
  interior (ToroidalSag 5 (-10)) 2 3 /\ interior (SphericalSag (-5)) 2 3 /\
  interior (ConicSag 5 (-3)) 20 30 /\ interior (ParabolicSag (-1)) 2 3 /\
  interior (CylindricalSag 5) 2 30.
Proof.
  repeat split; try lra; try (cbn; lra).
  all: unfold arc. rewrite rsign_pos by lra. replace (5 * 5 - 3 * 3) with (4 * 4) by ring.
  rewrite sqrt_square by lra. lra.
Qed.

Lemma ex_sphere_hit : regular (SphericalSag 5) (V3 (-1) 0 (-2)) (V3 (4/5) 0 (3/5)) /\
  class_intercept (fun _ _ => None) (SphericalSag 5) (V3 (-1) 0 (-2)) (V3 (4/5) 0 (3/5))
  = Some (V3 3 0 1).
Proof.
  split.
  - split; [lra|split]; [unfold is_unit, norm2, dot; vcb; field|vcb; lra].
  - cbn [class_intercept]. rewrite sphere_intercept_eq.
    replace (sph_rad 5 (V3 (-1) 0 (-2)) (V3 (4/5) 0 (3/5))) with (0 * 0)
      by (unfold sph_rad, sph_up; vcb; field).
    rewrite osqrt_sq by lra. cbn [obind]. f_equal. unfold sph_up. apply vec_eq; vcb; field.
Qed.

Lemma ex_hyperboloid : regular (ConicSag 3 (-2)) (V3 0 0 (-1)) (V3 (4/5) 0 (3/5)) /\
  on_line (V3 0 0 (-1)) (V3 (4/5) 0 (3/5)) (V3 4 0 2) /\ on_graph (conic_z 3 (-2)) (V3 4 0 2).
Proof.
  split; [|split].
  - split; [lra|split]; [unfold is_unit, norm2, dot; vcb; field|right].
    vcb. replace (1 / 3 * (4 / 5 * (4 / 5) + 0 * 0 + (1 + -2) * (3 / 5 * (3 / 5)))) with (7/75) by field.
    rewrite Rabs_right; lra.
  - exists 5. apply vec_eq; vcb; field.
  - apply sheet_graph; [lra|]. unfold quad; vcb. lra.
Qed.

Lemma ex_concave : regular (SphericalSag (-5)) (V3 3 0 0) (V3 0 0 1) /\
  on_line (V3 3 0 0) (V3 0 0 1) (V3 3 0 (-1)) /\ on_graph (sphere_z (-5)) (V3 3 0 (-1)) /\
  (forall q', on_line (V3 3 0 0) (V3 0 0 1) q' -> on_graph (sphere_z (-5)) q' -> q' = V3 3 0 (-1)).
Proof.
  split; [|split; [|split]].
  - split; [lra|split]; [unfold is_unit, norm2, dot; vcb; field|vcb; lra].
  - exists (-1). apply vec_eq; vcb; field.
  - apply sphere_graph; [lra|]. cbn [on_quadric]. vcb. lra.
  - intros q' [t ->] H. apply sphere_graph in H; [|lra]. revert H. cbn [on_quadric]. vcb. intros [H1 H2].
    apply vec_eq; vcb; try ring; try field. nra.
Qed.

Lemma ex_strict :
  regular (SphericalSag (-5)) (V3 3 0 0) (V3 0 0 1) /\
  sphere_intercept (-5) (V3 3 0 0) (V3 0 0 1) = Some (V3 3 0 (-1)) /\
  strictly_nearest (sphere_z (-5)) (V3 3 0 0) (V3 0 0 1) (V3 3 0 (-1)).
Proof.
  destruct ex_concave as (H1 & H2 & H3 & H4). split; [auto|]. split; [apply sphere_unique; auto|].
  split; [auto|split; [auto|]]. intros q' Ha Hb Hc. exfalso; auto.
Qed.

Lemma ex_motions : is_rigid tilt345 /\ is_translation (mkRigid mid (V3 1 2 3)) /\
  keeps_height (mkRigid (M3 (V3 0 (-1) 0) (V3 1 0 0) (V3 0 0 1)) (V3 1 2 0)).
Proof.
  split; [apply tilt345_rigid|]. split; [reflexivity|]. split.
  - unfold is_rigid, orthogonal, mmul, mtrans, mid; simpl. unfold dot; simpl. f_equal; f_equal; ring.
  - intros [x y z]. cbv [vx vy vz rigid_point mapply rg_mat rg_shift vadd dot mr1 mr2 mr3]. ring.
Qed.
