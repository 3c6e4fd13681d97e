(** C99: surfaces with multilayer coatings.  C100: a layer of the medium that surrounds it.
    C101: the transfer matrix of one slab. *)
From Coq Require Import Reals List Bool ZArith Lra Sorting.Sorted.
From Coquelicot Require Import Coquelicot.
From Verif Require Import Vec VecLemmas Num NumLemmas ComplexModel SnellModel SnellSpec RayModel MaterialModel SurfaceModel LayerModel LayerSpec LayerCaseProofs
  CoatingModel CoatingProofs SlabProofs SequenceExamples.
Import ListNotations.
Open Scope R_scope.

(** ** C99 *)
(** A film lets rays straight through and takes from them what the stack does not transmit, on average
    over the two polarizations; [k] is the imaginary part of the index of the medium. *)
Theorem C99_film : forall l sg ap r x d q u i k rs ts rp tp, r_index r <> 0 ->
  r_position r = Some x -> r_direction r = Some d -> is_unit d -> r_intensity r = Some i ->
  sag_intercept sg x d = Some q -> sag_normal sg q = Some u ->
  4 * PI * k = r_attenuation r * r_wavelength r ->
  multilayer_efficiency (r_wavelength r) (RtoC (- dot d u)) (r_index r, k) l None true = (rs, Some ts) ->
  multilayer_efficiency (r_wavelength r) (RtoC (- dot d u)) (r_index r, k) l None false = (rp, Some tp) ->
  let out := surface_propagate (mkSurface sg (film l) ap None None) r in
  r_position out = Some q /\ r_direction out = Some d /\
  r_wavelength out = r_wavelength r /\ r_index out = r_index r /\ r_attenuation out = r_attenuation r /\
  r_intensity out = Some (i * exp (- r_attenuation r * vlen (vsub q x)) * ((ts + tp) / 2)).
Proof. exact film_surface. Qed.
Print Assumptions C99_film.

(** A coated mirror sends them back as a mirror does and leaves them what the stack reflects. *)
Theorem C99_mirror : forall l sub sg ap r x d q u i k rs ts rp tp, r_index r <> 0 ->
  r_position r = Some x -> r_direction r = Some d -> is_unit d -> r_intensity r = Some i ->
  sag_intercept sg x d = Some q -> sag_normal sg q = Some u -> is_unit u ->
  4 * PI * k = r_attenuation r * r_wavelength r ->
  multilayer_efficiency (r_wavelength r) (RtoC (- dot d u)) (r_index r, k) l sub true = (Some rs, ts) ->
  multilayer_efficiency (r_wavelength r) (RtoC (- dot d u)) (r_index r, k) l sub false = (Some rp, tp) ->
  let out := surface_propagate (mkSurface sg (coated l sub) ap None None) r in
  r_position out = Some q /\ r_direction out = Some (mirror_image u d) /\
  r_wavelength out = r_wavelength r /\ r_index out = r_index r /\ r_attenuation out = r_attenuation r /\
  r_intensity out = Some (i * exp (- r_attenuation r * vlen (vsub q x)) * ((rs + rp) / 2)).
Proof. exact coated_surface. Qed.
Print Assumptions C99_mirror.

(** A mirror with a measured reflectivity sends them back as a mirror does and, at a wavelength of the
    measurement, leaves them what was measured. *)
Theorem C99_measured : forall nodes sg ap r x d q u i e, r_index r <> 0 ->
  r_position r = Some x -> r_direction r = Some d -> is_unit d -> r_intensity r = Some i ->
  sag_intercept sg x d = Some q -> sag_normal sg q = Some u -> is_unit u ->
  StronglySorted (fun a b => fst a < fst b) nodes -> In (r_wavelength r, e) nodes ->
  let out := surface_propagate (mkSurface sg (measured_mirror nodes) ap None None) r in
  r_position out = Some q /\ r_direction out = Some (mirror_image u d) /\
  r_wavelength out = r_wavelength r /\ r_index out = r_index r /\ r_attenuation out = r_attenuation r /\
  r_intensity out = Some (i * exp (- r_attenuation r * vlen (vsub q x)) * e).
Proof. exact measured_node. Qed.
Print Assumptions C99_measured.

(** ** C100 *)
(** A layer of the medium that the light already travels in reflects nothing, and takes from light along the
    normal what the medium takes from a ray on the way.  Missing for the full claim: light at an angle. *)
Theorem C100_normal_partial : forall w s n k a l sub sg r x d q i, 0 < w -> 0 < n -> 4 * PI * k = a * w ->
  layer_n l w = (n, k) -> ly_interface l = None -> layer_n sub w = (n, k) -> ly_interface sub = None ->
  exp (a * ly_thickness l / 2) < 10 ^ 10 ->
  r_attenuation r = a -> r_position r = Some x -> r_direction r = Some d -> r_intensity r = Some i ->
  sag_intercept sg x d = Some q -> vlen (vsub q x) = ly_thickness l ->
  exists t, multilayer_efficiency w 1 (n, k) (ALayer l) (Some sub) s = (Some 0, Some t) /\
    r_intensity (sag_propagate sg r) = Some (t * i).
Proof.
  intros w s n k a l sub sg r x d q i W N K L LI S SI O A P D I Q V.
  apply (matched_distance w s 1 n k a l sub sg r x d q i); try assumption; rewrite ?Rmult_1_r; try assumption. lra.
Qed.
Print Assumptions C100_normal_partial.

(** At an angle it still reflects nothing. *)
Theorem C100_mirror : forall w index a k d u l sub, 0 < w -> 0 < index -> 4 * PI * k = a * w ->
  dot d u < 0 ->
  layer_n l w = (index, k) -> ly_interface l = None -> layer_n sub w = (index, k) -> ly_interface sub = None ->
  exp (a * (ly_thickness l * - dot d u) / 2) < 10 ^ 10 ->
  mirror_efficiency (ALayer l) (Some sub) w a index d u = Some 0.
Proof. exact matched_mirror. Qed.
Print Assumptions C100_mirror.

(** At every angle [c = cos] it transmits more than a ray keeps on the way [h / c] through the layer. *)
Theorem C100_oblique : forall w s c n k a l sub, 0 < w -> 0 < n -> 0 < c < 1 -> 4 * PI * k = a * w -> 0 < a ->
  layer_n l w = (n, k) -> ly_interface l = None -> layer_n sub w = (n, k) -> ly_interface sub = None -> 0 < ly_thickness l ->
  exp (a * (ly_thickness l * c) / 2) < 10 ^ 10 ->
  exists t, multilayer_efficiency w (RtoC c) (n, k) (ALayer l) (Some sub) s = (Some 0, Some t) /\
    exp (- a * (ly_thickness l / c)) < t.
Proof. exact matched_oblique. Qed.
Print Assumptions C100_oblique.

Lemma plane_from_above : sag_intercept plane (V3 0 0 (-2)) (V3 0 0 1) = Some (V3 0 0 0).
Proof.
  change (SagModel.flat_intercept (V3 0 0 (-2)) (V3 0 0 1) = Some (V3 0 0 0)). unfold SagModel.flat_intercept. cbn [vz vx vy].
  rewrite odiv_nz by lra. cbn [obind]. f_equal. apply vec_eq; unfold vadd, vscale; cbn; field.
Qed.

Definition smoky (h : R) : layer := Layer (Some (fun _ => (1, / (4 * PI)))) h None.
Lemma smoky_clear : forall h, h <= 2 -> exp (1 * h / 2) < 10 ^ 10.
Proof.
  intros h H. apply (Rle_lt_trans _ (exp 1)).
  - destruct (Rle_lt_or_eq_dec h 2 H) as [L|L]; [left; apply exp_increasing; lra|right; f_equal; lra].
  - assert (X := exp_le_3). lra.
Qed.
Lemma smoky_wavenumber : 4 * PI * / (4 * PI) = 1 * 1.
Proof. assert (P := PI_RGT_0). field. lra. Qed.

Theorem C100_oblique_refuted : exists w s c n k a l t, 0 < w /\ 0 < n /\ 0 < c < 1 /\ 4 * PI * k = a * w /\
  layer_n l w = (n, k) /\ ly_interface l = None /\
  multilayer_efficiency w (RtoC c) (n, k) (ALayer l) (Some l) s = (Some 0, Some t) /\
  exp (- a * (ly_thickness l / c)) < t.
Proof.
  destruct (C100_oblique 1 true (1 / 2) 1 (/ (4 * PI)) 1 (smoky 1) (smoky 1)) as (t & T & L); try lra; try reflexivity.
  - exact smoky_wavenumber.
  - cbn. lra.
  - apply smoky_clear. cbn. lra.
  - exists 1, true, (1 / 2), 1, (/ (4 * PI)), 1, (smoky 1), t.
    split; [lra|]. split; [lra|]. split; [lra|]. split; [exact smoky_wavenumber|]. split; [reflexivity|]. split; [reflexivity|]. split; [exact T|exact L].
Qed.
Print Assumptions C100_oblique_refuted.

Example C100_nonvacuous : layer_n (smoky 2) 1 = (1, / (4 * PI)) /\ 4 * PI * / (4 * PI) = 1 * 1 /\ exp (1 * ly_thickness (smoky 2) / 2) < 10 ^ 10 /\
  sag_intercept plane (V3 0 0 (-2)) (V3 0 0 1) = Some (V3 0 0 0) /\ vlen (vsub (V3 0 0 0) (V3 0 0 (-2))) = ly_thickness (smoky 2).
Proof.
  split; [reflexivity|]. split; [exact smoky_wavenumber|]. split; [apply smoky_clear; cbn; lra|]. split.
  - exact plane_from_above.
  - unfold vlen, norm2, dot, vsub. cbn. replace (_ + _) with (2 * 2) by ring. apply sqrt_square. lra.
Qed.

(** The hypotheses of C99 for a film of the medium itself on a plane. *)
Example C99_nonvacuous : exists ts tp,
  let r := mkRay 1 (Some (V3 0 0 (-2))) (Some (V3 0 0 1)) (Some 3) 0 1 true in
  sag_intercept plane (V3 0 0 (-2)) (V3 0 0 1) = Some (V3 0 0 0) /\ sag_normal plane (V3 0 0 0) = Some (V3 0 0 (-1)) /\
  4 * PI * 0 = r_attenuation r * r_wavelength r /\ is_unit (V3 0 0 1) /\ is_unit (V3 0 0 (-1)) /\
  (forall s : bool, multilayer_efficiency 1 (RtoC (- dot (V3 0 0 1) (V3 0 0 (-1)))) (1, 0) (ALayer (Layer None 5 None)) None s =
     (Some 0, Some (if s then ts else tp))).
Proof.
  exists 1, 1. cbv zeta. split.
  { exact plane_from_above. }
  split; [reflexivity|]. split; [cbn; ring|]. split; [unfold is_unit, norm2, dot; cbn; ring|]. split; [unfold is_unit, norm2, dot; cbn; ring|].
  intros s. replace (- dot (V3 0 0 1) (V3 0 0 (-1))) with 1 by (unfold dot; cbn; ring).
  assert (M := matched_layer 1 s 1 (1, 0) (Layer None 5 None) (Layer None 0 None)).
  change (multilayer_efficiency 1 1 (1, 0) (ALayer (Layer None 5 None)) None s) with
    (multilayer_efficiency 1 1 (1, 0) (ALayer (Layer None 5 None)) (Some (Layer None 0 None)) s).
  rewrite M; try lra; try reflexivity.
  - cbn [Im snd]. replace (- (4 * PI * 0 / 1) * (ly_thickness (Layer None 5 None) * 1)) with 0 by field. rewrite exp_0. destruct s; reflexivity.
  - apply Cneq_pair. left. lra.
  - cbn [Im snd]. replace (2 * PI * ly_thickness (Layer None 5 None) * 0 * 1 / 1) with 0 by field. rewrite exp_0. lra.
Qed.

Example C99_measured_nonvacuous : StronglySorted (fun a b : R * R => fst a < fst b) [(1, 1 / 2); (2, 1 / 4)] /\
  In (1, 1 / 2) [(1, 1 / 2); (2, 1 / 4)].
Proof. split; [repeat constructor; cbn; lra | left; reflexivity]. Qed.

(** ** C101 *)
(** [matrices.transfer] of a slab in vacuum is the matrix that the multilayer code gives to the same layer if
    the slab does not absorb and refracts the light, ... *)
Theorem C101_transparent_partial : forall w s d u n l, w <> 0 -> is_unit d -> is_unit u -> dot d u < 0 -> 0 < n ->
  1 - dot d u * dot d u <= n * n -> layer_n l w = RtoC n -> ly_interface l = None ->
  slab_transfer w d s (ly_thickness l) (RtoC n) u = snd (multilayer_matrix w (RtoC (- dot d u)) 1 (ALayer l) None s).
Proof. exact slab_transparent. Qed.
Print Assumptions C101_transparent_partial.

(** ... or the light comes along the normal.  Missing: the two cases below, for which it is false. *)
Theorem C101_normal_partial : forall w s u n l, w <> 0 -> is_unit u -> 0 < Re n ->
  layer_n l w = n -> ly_interface l = None -> exp (2 * PI * ly_thickness l * Im n / w) < 10 ^ 10 ->
  slab_transfer w (vopp u) s (ly_thickness l) n u = snd (multilayer_matrix w 1 1 (ALayer l) None s).
Proof. exact slab_along. Qed.
Print Assumptions C101_normal_partial.

(** Beyond the critical angle it is never a number, though the layer shares the light as it should. *)
Theorem C101_total : forall w s d u n l, 0 < w -> is_unit d -> is_unit u -> dot d u < 0 -> 0 < n ->
  n * n < 1 - dot d u * dot d u -> layer_n l w = RtoC n -> ly_interface l = None -> 0 <= ly_thickness l ->
  slab_transfer w d s (ly_thickness l) (RtoC n) u = None /\
  (exists r t, multilayer_efficiency w (RtoC (- dot d u)) 1 (ALayer l) None s = (Some r, Some t) /\ 0 <= r /\ 0 <= t /\ r + t = 1) /\
  exists m, snd (multilayer_matrix w (RtoC (- dot d u)) 1 (ALayer l) None s) = Some m.
Proof. exact slab_total. Qed.
Print Assumptions C101_total.

Definition thin_medium : layer := Layer (Some (fun _ => RtoC (1 / 2))) 1 None.
Lemma oblique_unit : is_unit oblique /\ is_unit towards /\ dot oblique towards = - (3 / 5).
Proof. split; [unfold is_unit, norm2, dot, oblique; cbn; field|]. split; [unfold is_unit, norm2, dot, towards; cbn; field|]. unfold dot, oblique, towards; cbn; ring. Qed.

Theorem C101_total_refuted : exists w s d u n l, 0 < w /\ is_unit d /\ is_unit u /\ dot d u < 0 /\ 0 < n /\
  layer_n l w = RtoC n /\ ly_interface l = None /\
  slab_transfer w d s (ly_thickness l) (RtoC n) u <> snd (multilayer_matrix w (RtoC (- dot d u)) 1 (ALayer l) None s).
Proof.
  destruct oblique_unit as (A & B & D).
  exists 1, true, oblique, towards, (1 / 2), thin_medium. split; [lra|]. split; [exact A|]. split; [exact B|]. split; [rewrite D; lra|]. split; [lra|].
  split; [reflexivity|]. split; [reflexivity|].
  destruct (C101_total 1 true oblique towards (1 / 2) thin_medium) as (X & _ & m & M); try assumption; rewrite ?D; try lra; try reflexivity.
  - cbn. lra.
  - rewrite D in M. rewrite X, M. discriminate.
Qed.
Print Assumptions C101_total_refuted.

(** In an absorbing slab the light at an angle is refracted by the real part of the index only. *)
Theorem C101_absorbing_refuted : exists w s d u n l m, 0 < w /\ is_unit d /\ is_unit u /\ dot d u < 0 /\ 0 < Re n /\ 0 < Im n /\
  layer_n l w = n /\ ly_interface l = None /\ 0 < ly_thickness l /\ slab_transfer w d s (ly_thickness l) n u = Some m /\
  slab_transfer w d s (ly_thickness l) n u <> snd (multilayer_matrix w (RtoC (- dot d u)) 1 (ALayer l) None s).
Proof.
  destruct oblique_unit as (A & B & D). assert (P := PI_RGT_0). destruct slab_absorbing as (h & H & (m & M) & N).
  exists (2 * PI), true, oblique, towards, (2, 1), (tinted h), m.
  split; [lra|]. split; [exact A|]. split; [exact B|]. split; [rewrite D; lra|]. split; [cbn; lra|]. split; [cbn; lra|].
  split; [reflexivity|]. split; [reflexivity|]. split; [exact H|]. split; [exact M|exact N].
Qed.
Print Assumptions C101_absorbing_refuted.

Example C101_nonvacuous : is_unit oblique /\ is_unit towards /\ dot oblique towards < 0 /\ 1 - dot oblique towards * dot oblique towards <= 2 * 2 /\
  0 < Re (2, 1) /\ exp (2 * PI * 1 * Im (2, 1) / (2 * PI)) < 10 ^ 10.
Proof.
  destruct oblique_unit as (A & B & D). assert (P := PI_RGT_0). rewrite D. split; [exact A|]. split; [exact B|]. split; [lra|]. split; [lra|]. split; [cbn; lra|].
  replace (2 * PI * 1 * Im (2, 1) / (2 * PI)) with 1 by (cbn; field; lra). assert (X := exp_le_3). lra.
Qed.
