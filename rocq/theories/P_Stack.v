(** The amplitudes of a multilayer are the field that satisfies the boundary conditions: C75. *)
From Coq Require Import Reals List Lra.
From Coquelicot Require Import Coquelicot.
From Verif Require Import ComplexModel LayerModel LayerSpec LayerProofs StackSpec StackProofs StackExamples ComplexLemmas.
Import ListNotations.
Open Scope C_scope.

(** C75: with a wave of amplitude one arriving at the stack, the coefficients are the only
    reflected and transmitted amplitudes for which the field is continuous at every interface.
    Missing from the full claim: p polarization where some cosine is not real, for which it is false
    ([C75_p_refuted]), rough interfaces, and layers treated as opaque. *)
Theorem C75_field_partial : forall wl s (n d : C) ls sub r t,
  (wl <> 0)%R -> n <> 0 -> layer_n sub wl <> 0 -> ly_interface sub = None ->
  List.Forall (fun l => layer_n l wl <> 0 /\ ly_interface l = None /\ transparent (n * n * (1 - d * d)) wl l) ls ->
  (s = true \/ (Im d = 0%R /\ List.Forall (real_cosine (n * n * (1 - d * d)) wl) (sub :: ls))) ->
  multilayer_coefficients wl d n (ASequence (map ALayer ls)) (Some sub) s = (Some r, Some t) ->
  forall r' t', stack_field wl s n d 1 r' ls sub t' <-> r' = r /\ t' = t.
Proof. exact coefficients_field. Qed.
Print Assumptions C75_field_partial.

Example C75_field_nonvacuous :
  (layer_n vacuum 16 <> 0 /\ ly_interface vacuum = None) /\
  List.Forall (fun l => layer_n l 16 <> 0 /\ ly_interface l = None /\ transparent (1 * 1 * (1 - 1 * 1)) 16 l) [glass] /\
  List.Forall (real_cosine (1 * 1 * (1 - 1 * 1)) 16) [vacuum; glass] /\
  exists r t, multilayer_coefficients 16 1 1 (ASequence (map ALayer [glass])) (Some vacuum) true = (Some r, Some t) /\ t <> 0.
Proof.
  split; [split; [apply C1_neq_0 | reflexivity]|]. split.
  - apply List.Forall_cons; [|apply List.Forall_nil]. split; [apply RtoC_neq_0; lra|]. split; [reflexivity | exact glass_transparent].
  - split; [|exact glass_coefficients].
    apply List.Forall_cons; [exact vacuum_real|]. apply List.Forall_cons; [exact glass_real | apply List.Forall_nil].
Qed.

(** C75 is false for p polarization in an absorbing medium, where the code conjugates the cosine:
    light from vacuum on a bare substrate, for which the boundary conditions give a reflectivity below
    1/5 and the code one above 2/5. *)
Theorem C75_p_refuted : exists wl d sub r t R T,
  ly_interface sub = None /\ passive (layer_n sub wl) /\
  stack_field wl false 1 (RtoC d) 1 r [] sub t /\ (Cmod r ^ 2 < 1 / 5)%R /\
  multilayer_efficiency wl (RtoC d) 1 (ASequence []) (Some sub) false = (Some R, Some T) /\ (2 / 5 < R)%R.
Proof.
  destruct metal_field as (r & t & F & B). destruct metal_efficiency as (R & T & E & L).
  exists 1%R, (3 / 5)%R, metal, r, t, R, T. repeat split; try assumption; cbn; lra.
Qed.
Print Assumptions C75_p_refuted.
