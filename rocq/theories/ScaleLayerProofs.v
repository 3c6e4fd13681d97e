(** Coatings in another unit of length. *)
From Coq Require Import Reals List Bool ZArith Lra.
From Coquelicot Require Import Coquelicot.
From Verif Require Import Vec Num NumLemmas ComplexModel ComplexLemmas ProfileModel LayerModel LayerProofs RayModel SurfaceModel MaterialModel CoatingModel ScaleSpec ScaleLayerSpec ScaleClassProofs ScalePartProofs.
Import ListNotations.
Open Scope R_scope.
Open Scope opt_scope.

Lemma cdiv_scale : forall k (a : C) w, k <> 0 -> cdiv a (RtoC (k * w)) = omap (Cmult (RtoC (/ k))) (cdiv a (RtoC w)).
Proof.
  intros k a w K. destruct (Req_dec w 0) as [Z|Z].
  - rewrite Z, Rmult_0_r, !cdiv_z. reflexivity.
  - assert (Zc : RtoC w <> 0%C) by (intros X; apply RtoC_inj in X; contradiction).
    assert (Kc : RtoC k <> 0%C) by (intros X; apply RtoC_inj in X; contradiction).
    assert (Zk : RtoC (k * w) <> 0%C) by (rewrite RtoC_mult; apply Cmult_neq_0; assumption).
    rewrite !cdiv_nz by assumption. cbn. f_equal. rewrite RtoC_mult, RtoC_inv by exact K. field. split; assumption.
Qed.
Lemma profile_dft_scale : forall k p s, 0 < k -> profile_dft (scale_interface k p) (/ k * s) = profile_dft p s.
Proof.
  intros k p s K. assert (Kn : k <> 0) by lra. destruct p as [w|w|w|w]; cbn [scale_interface profile_dft].
  - replace (/ k * s * (k * w)) with (s * w) by (field; exact Kn). reflexivity.
  - replace (/ k * s * (k * w)) with (s * w) by (field; exact Kn). reflexivity.
  - replace (sqrt 3 * (k * w) * (/ k * s)) with (sqrt 3 * w * s) by (field; exact Kn). reflexivity.
  - replace (sinus_a * (k * w) * (/ k * s)) with (sinus_a * w * s) by (field; exact Kn). reflexivity.
Qed.
Lemma profile_reflectivity_scale : forall k p w d n, 0 < k ->
  profile_reflectivity (scale_interface k p) (k * w) d n = profile_reflectivity p w d n.
Proof.
  intros k p w d n K. unfold profile_reflectivity. rewrite cdiv_scale by lra.
  destruct (cdiv _ _) as [q|]; [|reflexivity]. cbn [omap obind].
  replace (Re (RtoC (-2) * (RtoC (/ k) * q))%C) with (/ k * Re (RtoC (-2) * q)%C) by (destruct q; cbn; ring).
  apply profile_dft_scale. exact K.
Qed.
Lemma refraction_scale : forall k w dl dr s nl nr i, 0 < k ->
  refraction (k * w) dl dr s nl nr (omap (scale_interface k) i) = refraction w dl dr s nl nr i.
Proof.
  intros k w dl dr s nl nr i K. unfold refraction. destruct i as [p|]; cbn [omap]; [rewrite profile_reflectivity_scale by exact K|]; reflexivity.
Qed.
Lemma propagation_scale : forall k w d t n, 0 < k -> propagation (k * w) d (k * t) n = propagation w d t n.
Proof.
  intros k w d t n K. unfold propagation. rewrite cdiv_scale by lra.
  replace (RtoC (2 * PI) * RtoC (k * t) * n * d)%C with (RtoC k * (RtoC (2 * PI) * RtoC t * n * d))%C by (rewrite (RtoC_mult k t); ring).
  destruct (Req_dec w 0) as [Z|Z]; [rewrite Z, !cdiv_z; reflexivity|].
  assert (Zc : RtoC w <> 0%C) by (intros X; apply RtoC_inj in X; contradiction).
  assert (Kc : RtoC k <> 0%C) by (intros X; apply RtoC_inj in X; lra).
  rewrite !cdiv_nz by exact Zc. cbn [omap obind].
  replace (RtoC (/ k) * (RtoC k * (RtoC (2 * PI) * RtoC t * n * d) / RtoC w))%C with (RtoC (2 * PI) * RtoC t * n * d / RtoC w)%C; [reflexivity|].
  rewrite RtoC_inv by lra. field. split; assumption.
Qed.
Lemma layer_n_scale : forall k l w, k <> 0 -> layer_n (scale_layer k l) (k * w) = layer_n l w.
Proof.
  intros k l w K. unfold layer_n, scale_layer. cbn. destruct (ly_chemical l) as [f|]; [|reflexivity]. cbn. f_equal. field. exact K.
Qed.
Lemma layer_transfer_scale : forall k w s l st, 0 < k -> layer_transfer (k * w) s (scale_layer k l) st = layer_transfer w s l st.
Proof.
  intros k w s l st K. unfold layer_transfer. rewrite layer_n_scale by lra.
  destruct (let* d := st_direction st in snells_law_scalar d (st_n st) (layer_n l w)) as [d'|]; cbn [obind].
  - unfold scale_layer. cbn [ly_thickness ly_interface]. rewrite propagation_scale by exact K.
    destruct (st_direction st) as [d|]; cbn [obind]; rewrite ?refraction_scale by exact K; reflexivity.
  - reflexivity.
Qed.
Lemma transfer_scale : forall k w s l, 0 < k -> forall st, transfer (k * w) s (scale_alayer k l) st = transfer w s l st.
Proof.
  intros k w s l K. 
  assert (Seq : forall ls, List.Forall (fun l => forall st, transfer (k * w) s (scale_alayer k l) st = transfer w s l st) ls ->
    forall st m, seq_transfer (k * w) s (map (scale_alayer k) ls) st m = seq_transfer w s ls st m).
  { intros ls F. induction F as [|l' ls H F IH]; intros st m; [reflexivity|]. cbn [map seq_transfer]. cbv zeta. rewrite H. apply IH. }
  induction l as [l|ls IH|ls n IH] using alayer_induction; intros st; cbn [scale_alayer].
  - apply layer_transfer_scale. exact K.
  - rewrite !transfer_sequence. apply Seq. exact IH.
  - rewrite !transfer_periodic. cbv zeta. rewrite !transfer_sequence, !Seq by exact IH. reflexivity.
Qed.
Lemma substrate_scale : forall k sub, substrate_layer (omap (scale_layer k) sub) = scale_layer k (substrate_layer sub).
Proof. intros k [l|]; unfold substrate_layer, scale_layer; cbn; rewrite Rmult_0_r; reflexivity. Qed.
Lemma coefficients_scale : forall k w d n l sub s, 0 < k ->
  multilayer_coefficients (k * w) d n (scale_alayer k l) (omap (scale_layer k) sub) s = multilayer_coefficients w d n l sub s.
Proof.
  intros k w d n l sub s K. unfold multilayer_coefficients, multilayer_matrix. rewrite transfer_scale, substrate_scale, layer_transfer_scale by exact K. reflexivity.
Qed.
Lemma efficiency_scale : forall k w d n l sub s, 0 < k ->
  multilayer_efficiency (k * w) d n (scale_alayer k l) (omap (scale_layer k) sub) s = multilayer_efficiency w d n l sub s.
Proof.
  intros k w d n l sub s K. unfold multilayer_efficiency. rewrite substrate_scale.
  replace (Some (scale_layer k (substrate_layer sub))) with (omap (scale_layer k) (Some (substrate_layer sub))) by reflexivity.
  rewrite coefficients_scale, layer_n_scale by lra. reflexivity.
Qed.
Lemma ambient_scale : forall k w a n, k <> 0 -> ambient_n (k * w) (a / k) n = ambient_n w a n.
Proof. intros k w a n K. unfold ambient_n. f_equal. field. split; [apply PI_neq0|exact K]. Qed.
Lemma film_scale : forall k l, 0 < k -> same_material k (film l) (film (scale_alayer k l)).
Proof.
  intros k l K. repeat split. intros r n. cbn. destruct (r_direction r) as [d|]; [|reflexivity]. destruct n as [u|]; [|reflexivity]. cbn [obind].
  unfold film_efficiency. rewrite ambient_scale by lra.
  assert (E := fun s => efficiency_scale k (r_wavelength r) (ambient_direction d u) (ambient_n (r_wavelength r) (r_attenuation r) (r_index r)) l None s K).
  cbn [omap] in E. rewrite !E. reflexivity.
Qed.
Lemma coated_scale : forall k l sub, 0 < k -> same_material k (coated l sub) (coated (scale_alayer k l) (omap (scale_layer k) sub)).
Proof.
  intros k l sub K. repeat split. intros r n. cbn. destruct (r_direction r) as [d|]; [|reflexivity]. destruct n as [u|]; [|reflexivity]. cbn [obind].
  unfold mirror_efficiency. rewrite ambient_scale, !efficiency_scale by lra. reflexivity.
Qed.
Lemma every_material_scale : forall k, 0 < k ->
  same_material k vacuum vacuum /\ same_material k mirror mirror /\
  (forall l, same_material k (measured_mirror l) (measured_mirror (map (fun n => (k * fst n, snd n)) l))) /\
  (forall b1 b2 b3 c1 c2 c3, same_material k (glass b1 b2 b3 c1 c2 c3) (glass b1 b2 b3 (k * k * c1) (k * k * c2) (k * k * c3))) /\
  (forall l, same_material k (film l) (film (scale_alayer k l))) /\
  (forall l sub, same_material k (coated l sub) (coated (scale_alayer k l) (omap (scale_layer k) sub))).
Proof.
  intros k K. split; [apply vacuum_scale|]. split; [apply mirror_scale|]. split; [intros; apply measured_mirror_scale; exact K|].
  split; [intros; apply glass_scale; exact K|]. split; [intros; apply film_scale; exact K|intros; apply coated_scale; exact K].
Qed.
