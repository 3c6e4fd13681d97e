(** An absorbing layer on glass under 60 degrees, and glass behind a rough layer. *)
From Coq Require Import Reals Lra List.
From Coquelicot Require Import Coquelicot.
From Verif Require Import ComplexModel ComplexLemmas LayerModel LayerSpec FresnelSpec FresnelExamples ReciprocitySpec.
Import ListNotations.
Open Scope R_scope.

Definition dark : layer := Layer (Some (fun _ => (2, 1))) 1 None.

Lemma reciprocity_example : wave_angle (1 * sin (PI / 3)) 1 (PI / 3) /\ wave_angle (1 * sin (PI / 3)) (sqrt 3) (PI / 6) /\
  List.Forall (smooth_layer 8 (1 * sin (PI / 3))) [dark; slab 2 1] /\ half_space 8 (slab 1 0) 1 /\ half_space 8 (slab (sqrt 3) 0) (sqrt 3) /\
  0 < Im (layer_n dark 8) /\ lossless (layer_n (slab 2 1) 8).
Proof.
  destruct tilted_example as (A & B & _). split; [exact A|]. split; [exact B|].
  assert (K : (1 * sin (PI / 3)) ^ 2 = 3 / 4).
  { rewrite sin_PI3. assert (S3 : sqrt 3 * sqrt 3 = 3) by (apply sqrt_sqrt; lra). nra. }
  split; [|split; [split; reflexivity|]; split; [split; reflexivity|]; split; [cbn; lra | split; cbn; lra]].
  repeat apply List.Forall_cons; [| |constructor].
  - split; [split; cbn; lra|]. split; [cbn; lra|]. split; [reflexivity|]. unfold off_critical. rewrite K. intros E. apply (f_equal Im) in E. cbn in E. lra.
  - split; [split; cbn; lra|]. split; [cbn; lra|]. split; [reflexivity|]. unfold off_critical. rewrite K. intros E. apply (f_equal Re) in E. cbn in E. lra.
Qed.
