(** A drawing that meets the hypotheses. *)
From Coq Require Import Reals List Bool Lra.
From Verif Require Import Vec VecLemmas Num RayModel SurfaceModel SagModel SequenceSpec SequenceProofs SequenceExamples SystemModel SystemTraceProofs
  SystemExamples DrawModel DrawSpec DrawProofs.
Import ListNotations.
Open Scope R_scope.

Definition drawn_system : system :=
  mkSystem (win 0 true false) [win 1 false true] None (Some (mkRigid tilt (V3 1 2 3))) false.
Definition square : outline := mkOutline true [V3 1 1 0; V3 (-1) 1 0; V3 (-1) (-1) 0; V3 1 (-1) 0].
Definition flat_look (s : surface) : looks := mkLooks (fun _ => Some 0) (Some square) None.

Lemma plane_z : forall x d q, sag_intercept plane x d = Some q -> vz q = 0.
Proof.
  intros x d q H. unfold plane, make_sag, class_intercept in H. cbn in H. unfold flat_intercept in H.
  destruct (odiv (- vz x) (vz d)) as [t|] eqn:T; [|discriminate]. cbn in H. injection H as <-.
  unfold odiv in T. destruct (Req_EM_T (vz d) 0); [discriminate|]. injection T as <-. cbn. field. assumption.
Qed.

Lemma drawn_meets : rigid_system drawn_system /\
  (forall s, In s (surfaces_all drawn_system) -> sound_sag (st_surface s) (flat_look (st_surface s))) /\
  arrives drawn_system (mkRay 1 (Some (V3 0 0 0)) (Some (V3 0 0 1)) (Some 1) 0 1 true) = true /\
  arrives drawn_system (mkRay 1 (Some (V3 0 0 0)) (Some (V3 0 0 1)) (Some 1) 0 1 false) = false.
Proof.
  assert (S : rigid_system drawn_system).
  { split; [exact ex_tilt|]. cbn. repeat (apply Forall_cons; [exact (ex_shift _)|]). apply Forall_nil. }
  split; [exact S|]. split; [|split].
  - intros s H. assert (P : sf_sag (st_surface s) = plane) by (cbn in H; destruct H as [<- | [<- | []]]; reflexivity).
    split; [|reflexivity]. intros x d q. rewrite P. intros Q. unfold on_sag. cbn. f_equal. symmetry. exact (plane_z _ _ _ Q).
  - apply (arrives_iff drawn_system _ S). split; [reflexivity|]. intros i s r' H _. cbn in H.
    destruct i as [|[|[|i]]]; try discriminate; injection H as <-; reflexivity.
  - match goal with |- arrives ?a ?b = false => destruct (arrives a b) eqn:E; [|reflexivity] end. apply (arrives_iff drawn_system _ S) in E. destruct E as [E _]. discriminate.
Qed.
