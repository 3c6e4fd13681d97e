(** C88: the simple materials. *)
From Coq Require Import Reals List Lra.
From Verif Require Import Vec RayModel SnellSpec SurfaceModel MaterialModel MaterialSpec MaterialProofs.
Import ListNotations.
Open Scope R_scope.

(** In vacuum a surface of [Vacuum] without rulings only carries the ray to it and clips it. *)
Theorem C88_nothing : forall s r p d i q u, sf_rulings s = None -> sf_material s = vacuum -> sf_transformation s = None ->
  r_position r = Some p -> r_direction r = Some d -> is_unit d -> r_intensity r = Some i -> r_index r = 1 -> r_attenuation r = 0 ->
  sag_intercept (sf_sag s) p d = Some q -> sag_normal (sf_sag s) q = Some u ->
  surface_propagate s r = mkRay (r_wavelength r) (Some q) (Some d) (Some i) 0 1
    (match sf_aperture s with None => r_unvignetted r | Some a => andb (r_unvignetted r) (ap_accepts a (Some (if ap_on_position a then q else d))) end).
Proof. exact nothing_step. Qed.
Print Assumptions C88_nothing.

(** A mirror reflects, and leaves the ray in the medium it came from. *)
Theorem C88_mirror : forall s r p d i q u, sf_rulings s = None -> sf_material s = mirror -> sf_transformation s = None ->
  r_position r = Some p -> r_direction r = Some d -> is_unit d -> r_intensity r = Some i -> r_index r <> 0 ->
  sag_intercept (sf_sag s) p d = Some q -> sag_normal (sf_sag s) q = Some u -> is_unit u ->
  let r' := surface_propagate s r in
  r_position r' = Some q /\ r_direction r' = Some (mirror_image u d) /\ r_intensity r' = Some (i * exp (- r_attenuation r * vlen (vsub q p))) /\
  r_wavelength r' = r_wavelength r /\ r_index r' = r_index r /\ r_attenuation r' = r_attenuation r.
Proof. exact mirror_step. Qed.
Print Assumptions C88_mirror.

(** Through any number of such surfaces, wherever they are, a ray that starts in vacuum keeps its
    wavelength and its medium, and its intensity unless it misses a surface. *)
Theorem C88_systems : forall ss r, Forall plain ss -> r_index r = 1 -> r_attenuation r = 0 ->
  let r' := propagate_list surface_propagate ss r in
  r_index r' = 1 /\ r_attenuation r' = 0 /\ r_wavelength r' = r_wavelength r /\ (r_intensity r' = None \/ r_intensity r' = r_intensity r).
Proof. exact plain_systems. Qed.
Print Assumptions C88_systems.

(** The index of a glass is the positive root of the documented equation, off its resonances. *)
Theorem C88_glass : forall b1 b2 b3 c1 c2 c3 w n, glass_index b1 b2 b3 c1 c2 c3 w = Some n <->
  w ^ 2 <> c1 /\ w ^ 2 <> c2 /\ w ^ 2 <> c3 /\ sellmeier b1 b2 b3 c1 c2 c3 w n.
Proof. exact glass_value. Qed.
Print Assumptions C88_glass.

(** Between resonances it decreases with the wavelength. *)
Theorem C88_dispersion : forall b1 b2 b3 c1 c2 c3 w w' n n', 0 < b1 -> 0 <= b2 -> 0 <= b3 -> 0 < c1 -> 0 <= c2 -> 0 <= c3 ->
  0 < w < w' -> same_band c1 w w' -> same_band c2 w w' -> same_band c3 w w' ->
  glass_index b1 b2 b3 c1 c2 c3 w = Some n -> glass_index b1 b2 b3 c1 c2 c3 w' = Some n' -> n' < n.
Proof. exact normal_dispersion. Qed.
Print Assumptions C88_dispersion.

(** N-BK7 and F2 have the documented index and Abbe number, to all the given digits. *)
Theorem C88_documented :
  (exists d F C, n_bk7 line_d = Some d /\ n_bk7 line_F = Some F /\ n_bk7 line_C = Some C /\
     about (5 / 100000) d (15168 / 10000) /\ about (5 / 100) (abbe_number d F C) (642 / 10)) /\
  (exists d F C, f2 line_d = Some d /\ f2 line_F = Some F /\ f2 line_C = Some C /\
     about (5 / 100000) d (16200 / 10000) /\ about (5 / 100) (abbe_number d F C) (364 / 10)).
Proof. exact documented_glasses. Qed.
Print Assumptions C88_documented.

(** At every visible wavelength the flint glass has the larger index. *)
Theorem C88_visible : forall w, 38 / 100 <= w <= 75 / 100 -> exists crown flint, n_bk7 w = Some crown /\ f2 w = Some flint /\
  151 / 100 < crown < 154 / 100 /\ 161 / 100 < flint < 166 / 100.
Proof. exact crown_and_flint. Qed.
Print Assumptions C88_visible.

Definition flat_sag : sag := mkSag (fun p d => Some (V3 (vx p) (vy p) 0)) (fun _ => Some (V3 0 0 1)).
Example C88_nonvacuous :
  Forall plain [mkSurface flat_sag vacuum None None None; mkSurface flat_sag mirror None None (Some rigid_id)] /\
  sag_intercept flat_sag (V3 1 2 (-3)) (V3 0 0 1) = Some (V3 1 2 0) /\ is_unit (V3 0 0 1) /\
  same_band (1 / 100) (4 / 10) (6 / 10) /\ same_band 100 (4 / 10) (6 / 10) /\
  exists n n', glass_index 1 0 0 (1 / 100) 0 100 (4 / 10) = Some n /\ glass_index 1 0 0 (1 / 100) 0 100 (6 / 10) = Some n' /\ n' < n.
Proof.
  split; [repeat (apply Forall_cons; [split; auto|]); apply Forall_nil|]. split; [reflexivity|].
  split; [unfold is_unit, norm2, dot; cbn; lra|]. unfold same_band. split; [lra|]. split; [lra|].
  destruct (glass_bounds 1 0 0 (1 / 100) 0 100 (4 / 10) 0 2) as (n & N & _); try lra.
  destruct (glass_bounds 1 0 0 (1 / 100) 0 100 (6 / 10) 0 2) as (n' & N' & _); try lra.
  exists n, n'. repeat split; auto. eapply (normal_dispersion 1 0 0 (1 / 100) 0 100); eauto; unfold same_band; lra.
Qed.
