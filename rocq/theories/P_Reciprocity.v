(** C115: what a stack transmits from its two sides. *)
From Coq Require Import Reals Lra List.
From Coquelicot Require Import Coquelicot.
From Verif Require Import ComplexModel ProfileModel LayerModel LayerSpec FresnelSpec FresnelExamples ReciprocitySpec ReciprocityProofs ReciprocityExamples.
Import ListNotations.
Open Scope R_scope.

(** C115.  Any smooth layers, absorbing or not, between two transparent media: light that comes along the refracted
    ray from the other side, through the same layers in the reverse order, is transmitted to the same fraction; and
    reflected to the same fraction if no layer absorbs. *)
Theorem C115_partial : forall wl s n0 th0 ls front back ns ths, 0 < wl -> wave_angle (n0 * sin th0) n0 th0 ->
  List.Forall (smooth_layer wl (n0 * sin th0)) ls -> wave_angle (n0 * sin th0) ns ths -> half_space wl front n0 -> half_space wl back ns ->
  exists r r' t,
    multilayer_efficiency wl (RtoC (cos th0)) (RtoC n0) (ASequence (map ALayer ls)) (Some back) s = (Some r, Some t) /\
    multilayer_efficiency wl (RtoC (cos ths)) (RtoC ns) (ASequence (map ALayer (rev ls))) (Some front) s = (Some r', Some t) /\
    ((forall l, In l ls -> lossless (layer_n l wl)) -> r = r').
Proof. exact reciprocity. Qed.
Print Assumptions C115_partial.

Example C115_nonvacuous : wave_angle (1 * sin (PI / 3)) 1 (PI / 3) /\ wave_angle (1 * sin (PI / 3)) (sqrt 3) (PI / 6) /\
  List.Forall (smooth_layer 8 (1 * sin (PI / 3))) [dark; slab 2 1] /\ half_space 8 (slab 1 0) 1 /\ half_space 8 (slab (sqrt 3) 0) (sqrt 3) /\
  0 < Im (layer_n dark 8) /\ lossless (layer_n (slab 2 1) 8).
Proof. exact reciprocity_example. Qed.

(** C115.  Not so with a rough interface, here between vacuum and a layer on glass, at normal incidence and without
    any absorption. *)
Theorem C115_rough_refuted : exists wl h p, 0 < wl /\ 0 < h /\
  snd (multilayer_efficiency wl 1 (RtoC 1) (ASequence [ALayer (Layer (Some (fun _ => RtoC 2)) h (Some p))])
    (Some (Layer (Some (fun _ => RtoC 3)) 0 None)) true) = Some (1728 / 2209) /\
  snd (multilayer_efficiency wl 1 (RtoC 3) (ASequence [ALayer (Layer (Some (fun _ => RtoC 2)) h None)])
    (Some (Layer (Some (fun _ => RtoC 1)) 0 (Some p))) true) = Some (432 / 529).
Proof. exact rough_one_way. Qed.
Print Assumptions C115_rough_refuted.
