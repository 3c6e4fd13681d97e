(** Flags of apertures. *)
From Coq Require Import Reals Lra List Bool.
From Verif Require Import Vec VecLemmas Num RayModel SurfaceModel ApertureModel ApertureSpec ApertureProofs.
Open Scope R_scope.

Lemma inverted_flag pip s t len p :
  aperture_call pip (mkApertureObj s true true t len) p = true <->
  aperture_call pip (mkApertureObj s true false t len) p = false.
Proof.
  unfold aperture_call; cbn. destruct (match match t with Some _ => _ | None => _ end with Some _ => _ | None => _ end);
    cbn; split; congruence.
Qed.
Lemma inactive_flag pip s inv t len p : aperture_call pip (mkApertureObj s false inv t len) p = true.
Proof. reflexivity. Qed.

Lemma clip_only pip a r :
  let r' := clip_rays (as_aperture pip a) r in
  r_wavelength r' = r_wavelength r /\ r_position r' = r_position r /\ r_direction r' = r_direction r /\
  r_intensity r' = r_intensity r /\ r_attenuation r' = r_attenuation r /\ r_index r' = r_index r /\
  (r_unvignetted r' = true <-> r_unvignetted r = true /\
     aperture_call pip a (if ao_is_length a then r_position r else r_direction r) = true).
Proof. cbn. repeat split; auto; rewrite andb_true_iff in *; tauto. Qed.

Lemma nan_clipped pip a r : ao_active a = true -> ao_inverted a = false ->
  (if ao_is_length a then r_position r else r_direction r) = None ->
  r_unvignetted (clip_rays (as_aperture pip a) r) = false.
Proof.
  intros H1 H2 H3. cbn. rewrite H3. unfold aperture_call. rewrite H1, H2.
  destruct (ao_transformation a); cbn; apply andb_false_r.
Qed.
Lemma nan_kept pip : exists a r, ao_active a = true /\ ao_is_length a = true /\ r_position r = None /\
  r_unvignetted (clip_rays (as_aperture pip a) r) = true.
Proof.
  exists (mkApertureObj (Circular 1) true true None true), (mkRay 1 None None None 0 1 true). repeat split.
Qed.
Lemma documented_inverted pip : exists s p,
  shape_mask pip s p = true /\ aperture_call pip (mkApertureObj s true true None true) (Some p) = false.
Proof.
  exists (Circular 2), (V3 1 0 0).
  assert (H : shape_mask pip (Circular 2) (V3 1 0 0) = true).
  { cbn. apply rle_true. unfold xy_length; cbn. replace (1 * 1 + 0 * 0) with 1 by ring. rewrite sqrt_1. lra. }
  split; auto. rewrite call_local. cbn [ao_active ao_inverted ao_shape ao_transformation negb ap_local].
  rewrite H. reflexivity.
Qed.

Lemma opposite_of_documented : forall pip s inv t len p,
  aperture_call pip (mkApertureObj s true inv t len) (Some p) = true <->
  ~ documented_pass inv (shape_mask pip s (ap_local t p) = true).
Proof.
  intros pip s inv t len p. rewrite call_local. cbn [ao_active ao_inverted ao_shape ao_transformation negb].
  destruct inv, (shape_mask pip s (ap_local t p)); cbn; intuition congruence.
Qed.
