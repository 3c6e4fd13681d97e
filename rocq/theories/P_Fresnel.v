(** C114: coatings obey the classical formulas. *)
From Coq Require Import Reals Lra List Arith ZArith.
From Coquelicot Require Import Coquelicot.
From Verif Require Import ComplexModel LayerModel LayerSpec FresnelSpec FresnelProofs FresnelExamples.
Import ListNotations.
Open Scope R_scope.

(** Any stack of transparent plates: the fields in front of it are those behind it times the characteristic
    matrices of the plates. *)
Theorem C114_matrix : forall wl s n0 th0 ls plates sub ns ths, 0 < wl -> wave_angle (n0 * sin th0) n0 th0 ->
  Forall2 (is_plate wl (n0 * sin th0)) ls plates -> wave_angle (n0 * sin th0) ns ths ->
  layer_n sub wl = RtoC ns -> ly_interface sub = None ->
  let q0 := tilted s n0 th0 in let q := tilted s ns ths in
  let '(E, H) := front_fields s q plates in
  multilayer_efficiency wl (RtoC (cos th0)) (RtoC n0) (ASequence (map ALayer ls)) (Some sub) s =
  (Some (Cmod (RtoC q0 * E - H)%C ^ 2 / Cmod (RtoC q0 * E + H)%C ^ 2), Some (4 * q0 * q / Cmod (RtoC q0 * E + H)%C ^ 2)).
Proof. exact plates_efficiency. Qed.
Print Assumptions C114_matrix.

(** Plates of whole numbers of quarter waves: the odd ones invert the ratio of the fields, the even ones keep it. *)
Theorem C114_quarter : forall wl s n0 th0 ls plates ms sub ns ths, 0 < wl -> wave_angle (n0 * sin th0) n0 th0 ->
  Forall2 (is_plate wl (n0 * sin th0)) ls plates -> Forall2 quarters plates ms -> wave_angle (n0 * sin th0) ns ths ->
  layer_n sub wl = RtoC ns -> ly_interface sub = None ->
  let q0 := tilted s n0 th0 in let q := quarter_waves s (tilted s ns ths) plates ms in
  multilayer_efficiency wl (RtoC (cos th0)) (RtoC n0) (ASequence (map ALayer ls)) (Some sub) s =
  (Some (step_reflects q0 q), Some (step_transmits q0 q)).
Proof. exact quarter_efficiency. Qed.
Print Assumptions C114_quarter.

(** A plate of whole half waves is not there. *)
Theorem C114_half : forall wl s n0 th0 before l after p sub ns ths, 0 < wl -> wave_angle (n0 * sin th0) n0 th0 ->
  (exists before', Forall2 (is_plate wl (n0 * sin th0)) before before') ->
  is_plate wl (n0 * sin th0) l p -> sin (pl_phase p) = 0 ->
  (exists after', Forall2 (is_plate wl (n0 * sin th0)) after after') -> wave_angle (n0 * sin th0) ns ths ->
  layer_n sub wl = RtoC ns -> ly_interface sub = None ->
  multilayer_efficiency wl (RtoC (cos th0)) (RtoC n0) (ASequence (map ALayer (before ++ l :: after))) (Some sub) s =
  multilayer_efficiency wl (RtoC (cos th0)) (RtoC n0) (ASequence (map ALayer (before ++ after))) (Some sub) s.
Proof. exact half_wave. Qed.
Print Assumptions C114_half.

(** A quarter wave on a substrate reflects nothing exactly if it is the geometric mean of the two media. *)
Theorem C114_antireflection : forall wl s n0 th0 l p m sub ns ths, 0 < wl -> wave_angle (n0 * sin th0) n0 th0 ->
  is_plate wl (n0 * sin th0) l p -> Nat.odd m = true -> quarters p m -> wave_angle (n0 * sin th0) ns ths ->
  layer_n sub wl = RtoC ns -> ly_interface sub = None ->
  exists r, fst (multilayer_efficiency wl (RtoC (cos th0)) (RtoC n0) (ASequence [ALayer l]) (Some sub) s) = Some r /\
    (r = 0 <-> plate_tilted s p ^ 2 = tilted s n0 th0 * tilted s ns ths).
Proof. exact antireflection. Qed.
Print Assumptions C114_antireflection.

(** [N] pairs of quarter waves; if the plates differ, enough pairs reflect as much of the light as desired. *)
Theorem C114_bragg : forall wl s n0 th0 h l ph pl mh ml sub ns ths, 0 < wl -> wave_angle (n0 * sin th0) n0 th0 ->
  is_plate wl (n0 * sin th0) h ph -> is_plate wl (n0 * sin th0) l pl ->
  Nat.odd mh = true -> quarters ph mh -> Nat.odd ml = true -> quarters pl ml ->
  wave_angle (n0 * sin th0) ns ths -> layer_n sub wl = RtoC ns -> ly_interface sub = None ->
  let q0 := tilted s n0 th0 in let x := plate_tilted s ph / plate_tilted s pl in
  (forall N, (1 <= N)%nat ->
    let q := tilted s ns ths * x ^ (2 * N) in
    multilayer_efficiency wl (RtoC (cos th0)) (RtoC n0) (APeriodic [ALayer h; ALayer l] (Z.of_nat N)) (Some sub) s =
    (Some (step_reflects q0 q), Some (step_transmits q0 q))) /\
  (x <> 1 -> forall eps, 0 < eps -> exists N0, forall N, (N0 <= N)%nat ->
    1 - eps < step_reflects q0 (tilted s ns ths * x ^ (2 * N)) <= 1).
Proof.
  intros wl s n0 th0 h l ph pl mh ml sub ns ths WL W PH PL OH EH OL EL V SN SI q0 x. split.
  - intros N N1. exact (bragg wl s n0 th0 h l ph pl mh ml N sub ns ths WL W PH PL OH EH OL EL N1 V SN SI).
  - intros X eps E. destruct PH as (_ & _ & _ & WH & _). destruct PL as (_ & _ & _ & WL' & _).
    exact (bragg_limit q0 _ x eps (tilted_pos s _ _ _ W) (tilted_pos s _ _ _ V)
      (Rdiv_lt_0_compat _ _ (tilted_pos s _ _ _ WH) (tilted_pos s _ _ _ WL')) X E).
Qed.
Print Assumptions C114_bragg.

(** A bare surface: Fresnel's laws of sines and of tangents. *)
Theorem C114_fresnel : forall wl n0 th0 sub ns ths, 0 < wl -> wave_angle (n0 * sin th0) n0 th0 -> wave_angle (n0 * sin th0) ns ths ->
  layer_n sub wl = RtoC ns -> ly_interface sub = None -> 0 < th0 ->
  fst (multilayer_efficiency wl (RtoC (cos th0)) (RtoC n0) (ASequence []) (Some sub) true) =
    Some ((sin (th0 - ths) / sin (th0 + ths)) ^ 2) /\
  fst (multilayer_efficiency wl (RtoC (cos th0)) (RtoC n0) (ASequence []) (Some sub) false) =
    Some ((sin (th0 - ths) * cos (th0 + ths) / (sin (th0 + ths) * cos (th0 - ths))) ^ 2).
Proof.
  intros wl n0 th0 sub ns ths WL W V SN SI P. rewrite !(bare_efficiency wl _ n0 th0 sub ns ths WL W V SN SI). cbn [fst].
  rewrite (fresnel_s n0 th0 ns ths W V P), (fresnel_p n0 th0 ns ths W V P). split; reflexivity.
Qed.
Print Assumptions C114_fresnel.

(** It reflects no p-polarized light exactly at Brewster's angle, always some s-polarized light, and never
    more of the former than of the latter. *)
Theorem C114_brewster : forall wl n0 th0 sub ns ths, 0 < wl -> wave_angle (n0 * sin th0) n0 th0 -> wave_angle (n0 * sin th0) ns ths ->
  layer_n sub wl = RtoC ns -> ly_interface sub = None ->
  exists rs rp, fst (multilayer_efficiency wl (RtoC (cos th0)) (RtoC n0) (ASequence []) (Some sub) true) = Some rs /\
    fst (multilayer_efficiency wl (RtoC (cos th0)) (RtoC n0) (ASequence []) (Some sub) false) = Some rp /\
    (rp = 0 <-> n0 = ns \/ th0 + ths = PI / 2) /\ (rs = 0 <-> n0 = ns) /\ rp <= rs.
Proof.
  intros wl n0 th0 sub ns ths WL W V SN SI. rewrite !(bare_efficiency wl _ n0 th0 sub ns ths WL W V SN SI). cbn [fst].
  eexists. eexists. split; [reflexivity|]. split; [reflexivity|]. destruct (brewster n0 th0 ns ths W V) as [A B].
  split; [exact A|]. split; [exact B|]. exact (polarized_reflects n0 th0 ns ths W V).
Qed.
Print Assumptions C114_brewster.

(** Beyond the critical angle of the substrate any lossless coating reflects everything. *)
Theorem C114_total : forall wl s n0 th0 layers sub ns, ideal_stack lossless wl n0 (cos th0) layers (Some sub) ->
  layer_n sub wl = RtoC ns -> 0 < ns -> ns < n0 * sin th0 ->
  multilayer_efficiency wl (RtoC (cos th0)) (RtoC n0) layers (Some sub) s = (Some 1, Some 0).
Proof. exact total_reflection. Qed.
Print Assumptions C114_total.

(** Light along the normal of a bare substrate that may absorb. *)
Theorem C114_normal : forall wl s n0 sub, 0 < wl -> 0 < n0 -> passive (layer_n sub wl) -> ly_interface sub = None ->
  let n := Re (layer_n sub wl) in let k := Im (layer_n sub wl) in
  multilayer_efficiency wl (RtoC 1) (RtoC n0) (ASequence []) (Some sub) s =
  (Some (((n0 - n) ^ 2 + k ^ 2) / ((n0 + n) ^ 2 + k ^ 2)), Some (4 * n0 * n / ((n0 + n) ^ 2 + k ^ 2))).
Proof. exact normal_efficiency. Qed.
Print Assumptions C114_normal.

Example C114_nonvacuous : wave_angle (1 * sin 0) 1 0 /\ wave_angle (1 * sin 0) 4 0 /\ layer_n (slab 4 0) 8 = RtoC 4 /\
  is_plate 8 (1 * sin 0) (slab 2 1) high /\ is_plate 8 (1 * sin 0) (slab 1 2) low /\ is_plate 8 (1 * sin 0) (slab 2 2) half /\
  quarters high 1 /\ quarters low 1 /\ sin (pl_phase half) = 0 /\
  plate_tilted true high ^ 2 = tilted true 1 0 * tilted true 4 0 /\ plate_tilted true high / plate_tilted true low = 2.
Proof. exact coating_example. Qed.
Example C114_brewster_nonvacuous : wave_angle (1 * sin (PI / 3)) 1 (PI / 3) /\ wave_angle (1 * sin (PI / 3)) (sqrt 3) (PI / 6) /\
  0 < PI / 3 /\ PI / 3 + PI / 6 = PI / 2.
Proof. exact tilted_example. Qed.
Example C114_total_nonvacuous : ideal_stack lossless 8 2 (cos (PI / 3)) (ASequence [ALayer (slab 3 1)]) (Some (slab 1 0)) /\
  layer_n (slab 1 0) 8 = RtoC 1 /\ 0 < 1 /\ 1 < 2 * sin (PI / 3).
Proof. exact total_example. Qed.
