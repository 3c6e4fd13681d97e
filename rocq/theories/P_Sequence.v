(** C12-C18: propagation through sequences of surfaces. *)
From Coq Require Import Reals List Bool Lra.
From Verif Require Import Vec VecLemmas Num NumLemmas RayModel SnellModel SurfaceModel
  MaterialModel SagModel SequenceSpec SequenceProofs SequenceExamples.
Import ListNotations.
Open Scope R_scope.

(** C12.  Propagation to a sag multiplies the intensity by exp(-attenuation * distance). *)
Theorem C12_beer : forall (s : sag) (r : ray) (p q : vec3) (i : R),
  r_position r = Some p -> r_position (sag_propagate s r) = Some q -> r_intensity r = Some i ->
  r_intensity (sag_propagate s r) = Some (exp (- (r_attenuation r * vlen (vsub q p))) * i).
Proof. exact sag_propagate_factor. Qed.
Print Assumptions C12_beer.

Theorem C12_no_gain : forall attenuation distance : R, 0 <= attenuation -> 0 <= distance ->
  0 < exp (- (attenuation * distance)) <= 1.
Proof. exact exp_factor_bounds. Qed.
Print Assumptions C12_no_gain.

(** C12.  Stopping at any number of intermediate surfaces on the way (the points
    [qs] met going forward) gives the factor of the whole straight path. *)
Theorem C12_split : forall (ss : list sag) (r : ray) (p u : vec3) (i : R) (qs : list vec3),
  is_unit u ->
  r_position r = Some p -> r_direction r = Some u -> r_intensity r = Some i ->
  map r_position (accumulate_rays sag_propagate (Sequence ss) r) = map Some qs ->
  forward_chain u p qs ->
  r_intensity (propagate_rays sag_propagate (Sequence ss) r)
  = Some (exp (- (r_attenuation r * vlen (vsub (last qs p) p))) * i).
Proof. exact sag_chain. Qed.
Print Assumptions C12_split.

(** Two planes, at z = 1 and z = 3, and a ray along z. *)
Example C12_nonvacuous :
  let ss := [make_sag no_solver NoSag (Some (shift_z 1)); make_sag no_solver NoSag (Some (shift_z 3))] in
  let qs := [V3 0 0 1; V3 0 0 3] in
  map r_position (accumulate_rays sag_propagate (Sequence ss) ex_ray) = map Some qs /\
  forward_chain (V3 0 0 1) (V3 0 0 0) qs /\
  r_intensity (propagate_rays sag_propagate (Sequence ss) ex_ray)
  = Some (exp (- (2 * 3)) * 1).
Proof.
  intros ss qs.
  assert (H1 : map r_position (accumulate_rays sag_propagate (Sequence ss) ex_ray) = map Some qs).
  { unfold ss. rewrite !accumulate_cons. cbn [map accumulate_rays as_list accumulate_loop].
    unfold sag_propagate. cbn [r_position r_direction ex_ray set_intensity set_position obind].
    rewrite shifted_plane_intercept by (simpl; lra). cbn [obind].
    rewrite shifted_plane_intercept by (simpl; lra).
    unfold qs. cbn [map]. f_equal; [|f_equal]; f_equal; apply vec_eq; cbn [vx vy vz vadd vscale]; field. }
  assert (H2 : forward_chain (V3 0 0 1) (V3 0 0 0) qs).
  { split; [exists 1; split; [lra|vec_ring]|]. split; [exists 2; split; [lra|vec_ring]|exact I]. }
  split; [exact H1|]. split; [exact H2|].
  rewrite (C12_split ss ex_ray (V3 0 0 0) (V3 0 0 1) 1 qs); auto.
  - cbn [last qs r_attenuation ex_ray].
    replace (vlen (vsub (V3 0 0 3) (V3 0 0 0))) with 3; [reflexivity|].
    unfold vlen. replace (norm2 _) with (3 * 3) by (vec_unfold; ring). symmetry; apply sqrt_square; lra.
  - unfold is_unit, norm2, dot; simpl; ring.
Qed.

(** C13.  [step] is the propagation by one propagator, of any kind. *)
Theorem C13_accumulate : forall (P X : Type) (step : P -> X -> X) (l : list P) (x : X),
  length (accumulate_rays step (Sequence l) x) = length l /\
  (forall i, (i < length l)%nat ->
     nth_error (accumulate_rays step (Sequence l) x) i
     = Some (propagate_rays step (Sequence (firstn (S i) l)) x)) /\
  last (accumulate_rays step (Sequence l) x) x = propagate_rays step (Sequence l) x.
Proof. exact @accumulate_spec. Qed.
Print Assumptions C13_accumulate.

Theorem C13_concatenate : forall (P X : Type) (step : P -> X -> X) (l1 l2 : list P) (x : X),
  propagate_rays step (Sequence (l1 ++ l2)) x
    = propagate_rays step (Sequence l2) (propagate_rays step (Sequence l1) x) /\
  accumulate_rays step (Sequence (l1 ++ l2)) x
    = accumulate_rays step (Sequence l1) x
      ++ accumulate_rays step (Sequence l2) (propagate_rays step (Sequence l1) x).
Proof. exact @propagate_concat. Qed.
Print Assumptions C13_concatenate.

Theorem C13_single : forall (P X : Type) (step : P -> X -> X) (p : P) (x : X),
  propagate_rays step (Single p) x = step p x /\
  accumulate_rays step (Single p) x = [step p x].
Proof. exact @single_spec. Qed.
Print Assumptions C13_single.

Example C13_nonvacuous :
  accumulate_rays Nat.add (Sequence [1; 2; 3]%nat) 10%nat = [11; 13; 16]%nat /\
  propagate_rays Nat.add (Sequence [1; 2; 3]%nat) 10%nat = 16%nat /\
  accumulate_rays surface_propagate (Sequence ex_system) ex_ray = [ex_mid; ex_out].
Proof. split; [reflexivity|split; [reflexivity|apply ex_trace]]. Qed.

(** C14.  At the end of the sequence, the ray is unvignetted iff it was at the start
    and it passes the aperture of every surface [s] (at the ray [r'] leaving [s]). *)
Theorem C14_unvignetted : forall ss : list surface, Forall rigid_surface ss -> forall r : ray,
  r_unvignetted (propagate_rays surface_propagate (Sequence ss) r) = true <->
  r_unvignetted r = true /\
  forall i s r', nth_error ss i = Some s ->
    nth_error (accumulate_rays surface_propagate (Sequence ss) r) i = Some r' ->
    passes s r' = true.
Proof. exact trace_unvignetted_iff. Qed.
Print Assumptions C14_unvignetted.

Theorem C14_monotone : forall ss : list surface, Forall rigid_surface ss ->
  forall (r : ray) (i j : nat) (ri rj : ray), (i <= j)%nat ->
  nth_error (accumulate_rays surface_propagate (Sequence ss) r) i = Some ri ->
  nth_error (accumulate_rays surface_propagate (Sequence ss) r) j = Some rj ->
  r_unvignetted ri = false -> r_unvignetted rj = false.
Proof. exact trace_monotone. Qed.
Print Assumptions C14_monotone.

Example C14_nonvacuous :
  Forall rigid_surface ex_system /\
  r_unvignetted (propagate_rays surface_propagate (Sequence ex_system) ex_ray) = true /\
  passes ex_s1 ex_mid = true /\
  passes ex_s1 (set_position (Some (V3 3 0 1)) ex_mid) = false.
Proof.
  split; [exact ex_rigid|]. rewrite (proj1 ex_trace). split; [reflexivity|].
  split.
  - apply (proj2 (proj1 (C14_unvignetted ex_system ex_rigid ex_ray)
             (f_equal r_unvignetted (proj1 ex_trace))) 0%nat); [reflexivity|].
    rewrite (proj2 ex_trace); reflexivity.
  - assert (E : local_point ex_s1 (V3 3 0 1) = V3 3 0 0)
      by (unfold local_point; cbn [sf_transformation ex_s1]; apply vec_eq; cbv [vx vy vz mapply mtrans rg_mat rg_shift shift_z mid vsub dot mr1 mr2 mr3]; ring).
    unfold passes. cbn [sf_aperture ex_s1 circle2 ap_on_position ap_accepts set_position r_position omap].
    rewrite E. cbn [vx vy]. destruct (Rle_dec _ _) as [H|]; auto. exfalso. lra.
Qed.

(** C15.  The final intensity is the initial one times the product over the
    surfaces of path transmission, material efficiency and ruling efficiency. *)
Theorem C15_throughput : forall ss : list surface, Forall rigid_surface ss ->
  forall (r : ray) (j : R),
  r_intensity (propagate_rays surface_propagate (Sequence ss) r) = Some j ->
  exists i k, r_intensity r = Some i /\
    kept_product ss r (accumulate_rays surface_propagate (Sequence ss) r) = Some k /\ j = i * k.
Proof. exact trace_intensity. Qed.
Print Assumptions C15_throughput.

Theorem C15_bounded : forall ss : list surface, Forall rigid_surface ss -> Forall passive ss ->
  forall (r : ray) (i j : R),
  0 <= r_attenuation r -> r_intensity r = Some i -> 0 <= i ->
  r_intensity (propagate_rays surface_propagate (Sequence ss) r) = Some j ->
  0 <= j <= i.
Proof. exact trace_bounded. Qed.
Print Assumptions C15_bounded.

Example C15_nonvacuous :
  Forall rigid_surface ex_system /\ Forall passive ex_system /\ 0 <= r_attenuation ex_ray /\
  r_intensity (propagate_rays surface_propagate (Sequence ex_system) ex_ray) = Some (exp (- 2)).
Proof.
  split; [exact ex_rigid|]. split; [exact ex_passive|]. split; [simpl; lra|].
  rewrite (proj1 ex_trace); reflexivity.
Qed.

(** C16. *)
Theorem C16_unit_directions : forall ss : list surface,
  Forall rigid_surface ss -> Forall unit_normals ss ->
  forall r : ray, (forall d, r_direction r = Some d -> is_unit d) ->
  forall d, r_direction (propagate_rays surface_propagate (Sequence ss) r) = Some d -> is_unit d.
Proof. exact trace_direction_unit. Qed.
Print Assumptions C16_unit_directions.

Example C16_nonvacuous :
  Forall rigid_surface ex_system /\ Forall unit_normals ex_system /\
  r_direction (propagate_rays surface_propagate (Sequence ex_system) ex_ray)
  = Some (V3 0 (24/25) (-7/25)) /\ is_unit (V3 0 (24/25) (-7/25)).
Proof.
  split; [exact ex_rigid|]. split; [exact ex_unit|].
  rewrite (proj1 ex_trace). split; [reflexivity|].
  apply (C16_unit_directions ex_system ex_rigid ex_unit ex_ray).
  - intros d E; inversion E; unfold is_unit, norm2, dot; simpl; ring.
  - rewrite (proj1 ex_trace); reflexivity.
Qed.

(** C17 is false: a plane of glass changes the wavelength of the ray. *)
Theorem C17_wavelength_refuted : exists (s : surface) (r : ray),
  rigid_surface s /\ unit_normals s /\ passive s /\
  r_wavelength (surface_propagate s r) <> r_wavelength r.
Proof. exact wavelength_refuted. Qed.
Print Assumptions C17_wavelength_refuted.

(** C17.  Consequence: behind a glass the next material looks up its index at a
    wavelength which is not the vacuum wavelength of the light. *)
Theorem C17_dispersion_refuted : exists (s1 s2 : surface) (r : ray),
  r_index r = 1 /\
  r_index (propagate_rays surface_propagate (Sequence [s1; s2]) r)
  <> mat_index (sf_material s2) r.
Proof. exact dispersion_refuted. Qed.
Print Assumptions C17_dispersion_refuted.

(** C17.  What is conserved is wavelength / index, for any sequence; missing: the
    wavelength itself. *)
Theorem C17_wavelength_partial : forall (ss : list surface) (r : ray),
  0 < r_index r ->
  Forall (fun r' => 0 < r_index r') (accumulate_rays surface_propagate (Sequence ss) r) ->
  r_wavelength (propagate_rays surface_propagate (Sequence ss) r)
    / r_index (propagate_rays surface_propagate (Sequence ss) r)
  = r_wavelength r / r_index r.
Proof. exact trace_wavelength. Qed.
Print Assumptions C17_wavelength_partial.

(** C17.  Hence the wavelength is preserved by every sequence which starts and ends
    in the same index (all mirrors, or back in vacuum). *)
Theorem C17_same_index_partial : forall (ss : list surface) (r : ray),
  0 < r_index r ->
  Forall (fun r' => 0 < r_index r') (accumulate_rays surface_propagate (Sequence ss) r) ->
  r_index (propagate_rays surface_propagate (Sequence ss) r) = r_index r ->
  r_wavelength (propagate_rays surface_propagate (Sequence ss) r) = r_wavelength r.
Proof. exact trace_wavelength_same. Qed.
Print Assumptions C17_same_index_partial.

Example C17_nonvacuous :
  0 < r_index ex_ray /\
  Forall (fun r' => 0 < r_index r') (accumulate_rays surface_propagate (Sequence ex_system) ex_ray) /\
  r_wavelength (propagate_rays surface_propagate (Sequence ex_system) ex_ray) = 3/2 /\
  r_wavelength ex_ray = 1.
Proof.
  rewrite (proj1 ex_trace), (proj2 ex_trace). simpl.
  split; [lra|split; [repeat constructor; simpl; lra|split; reflexivity]].
Qed.

(** C18. *)
Theorem C18_rigid_motion : forall (t : rigid) (ss : list surface),
  is_rigid t -> Forall rigid_surface ss -> forall r : ray,
  propagate_rays surface_propagate (Sequence (map (move_surface t) ss)) (ray_transform t r)
    = ray_transform t (propagate_rays surface_propagate (Sequence ss) r) /\
  accumulate_rays surface_propagate (Sequence (map (move_surface t) ss)) (ray_transform t r)
    = map (ray_transform t) (accumulate_rays surface_propagate (Sequence ss) r).
Proof. exact trace_move. Qed.
Print Assumptions C18_rigid_motion.

(** [ray_transform] moves position and direction and nothing else. *)
Theorem C18_moved_ray : forall (t : rigid) (r : ray) (x d : vec3),
  r_position r = Some x -> r_direction r = Some d ->
  let r' := ray_transform t r in
  r_position r' = Some (vadd (mapply (rg_mat t) x) (rg_shift t)) /\
  r_direction r' = Some (mapply (rg_mat t) d) /\
  r_wavelength r' = r_wavelength r /\ r_intensity r' = r_intensity r /\
  r_index r' = r_index r /\ r_attenuation r' = r_attenuation r /\
  r_unvignetted r' = r_unvignetted r.
Proof. exact ray_transform_fields. Qed.
Print Assumptions C18_moved_ray.

Example C18_nonvacuous :
  is_rigid (mkRigid tilt (V3 1 2 3)) /\ Forall rigid_surface ex_system /\
  r_direction (propagate_rays surface_propagate
     (Sequence (map (move_surface (mkRigid tilt (V3 1 2 3))) ex_system))
     (ray_transform (mkRigid tilt (V3 1 2 3)) ex_ray))
  = Some (mapply tilt (V3 0 (24/25) (-7/25))).
Proof.
  split; [exact ex_tilt|]. split; [exact ex_rigid|].
  rewrite (proj1 (C18_rigid_motion (mkRigid tilt (V3 1 2 3)) ex_system ex_tilt ex_rigid ex_ray)).
  rewrite (proj1 ex_trace). reflexivity.
Qed.
