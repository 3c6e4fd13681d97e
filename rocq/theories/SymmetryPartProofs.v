(** The symmetries of apertures, rulings and materials. *)
From Coq Require Import Reals List Bool ZArith Lra.
From Coquelicot Require Import Coquelicot.
From Verif Require Import Vec VecLemmas Num NumLemmas ComplexModel LayerModel RayModel SnellModel SurfaceModel SagModel ApertureModel RulingModel MaterialModel
  CoatingModel SymmetrySpec SymmetryProofs SymmetryClassProofs.
Import ListNotations.
Open Scope R_scope.
Open Scope opt_scope.

Lemma aperture_symmetric : forall q pip s active inverted t on, for_option (symmetric_rigid q) t ->
  (forall p, shape_mask pip s (mapply q p) = shape_mask pip s p) ->
  symmetric_aperture q (as_aperture pip (mkApertureObj s active inverted t on)).
Proof.
  intros q pip s active inverted t on T H p. unfold as_aperture, aperture_call. cbn [ap_accepts ao_transformation ao_shape ao_inverted ao_active].
  destruct t as [t|]; (destruct p as [p|]; [|reflexivity]); cbn [omap].
  - rewrite image_point by (apply symmetric_inv, T; reflexivity). rewrite H. reflexivity.
  - rewrite H. reflexivity.
Qed.
Lemma circle_symmetric : forall q pip r active inverted t on, axial q -> for_option (symmetric_rigid q) t ->
  symmetric_aperture q (as_aperture pip (mkApertureObj (Circular r) active inverted t on)).
Proof.
  intros q pip r active inverted t on A T. apply aperture_symmetric; [exact T|]. intros p. cbn [shape_mask].
  unfold xy_length. change (vx (mapply q p) * vx (mapply q p) + vy (mapply q p) * vy (mapply q p)) with (xy (mapply q p) (mapply q p)).
  rewrite axial_xy by exact A. reflexivity.
Qed.
Definition box (s : ap_shape) : Prop :=
  match s with Circular _ | Elliptical _ _ | Rectangular _ _ => True | _ => False end.
Lemma rle_opp : forall a b, rle a (-1 * b) = rle b (- a).
Proof. intros a b. unfold rle. destruct (Rle_dec a (-1 * b)), (Rle_dec b (- a)); try reflexivity; exfalso; lra. Qed.
Lemma rle_opp' : forall a b, rle (-1 * b) a = rle (- a) b.
Proof. intros a b. unfold rle. destruct (Rle_dec (-1 * b) a), (Rle_dec (- a) b); try reflexivity; exfalso; lra. Qed.
Lemma box_symmetric : forall q pip s active inverted t on, flips q -> box s -> for_option (symmetric_rigid q) t ->
  symmetric_aperture q (as_aperture pip (mkApertureObj s active inverted t on)).
Proof.
  intros q pip s active inverted t on F B T. destruct s; cbn in B; try contradiction.
  - apply circle_symmetric; [apply flips_axial; exact F|exact T].
  - apply aperture_symmetric; [exact T|]. intros p. cbn [shape_mask]. destruct F as (a & b & Ha & Hb & ->).
    set (q := M3 (V3 a 0 0) (V3 0 b 0) (V3 0 0 1)).
    assert (Vx : vx (mapply q p) = a * vx p) by (cbn; unfold dot; cbn; ring). assert (Vy : vy (mapply q p) = b * vy p) by (cbn; unfold dot; cbn; ring).
    rewrite Vx, Vy. assert (Ea : a * a = 1) by (destruct Ha as [-> | ->]; ring). assert (Eb : b * b = 1) by (destruct Hb as [-> | ->]; ring).
    match goal with |- match odiv _ ?rx with Some _ => match odiv _ ?ry with _ => _ end | None => _ end = _ =>
      destruct (Req_dec rx 0) as [Z|Z]; [rewrite Z, !odiv_0; reflexivity|];
      destruct (Req_dec ry 0) as [Z'|Z']; [rewrite Z', !odiv_0; rewrite !odiv_nz by exact Z; reflexivity|];
      rewrite !odiv_nz by assumption;
      replace (a * vx p / rx * (a * vx p / rx)) with (a * a * (vx p / rx * (vx p / rx))) by (unfold Rdiv; ring);
      replace (b * vy p / ry * (b * vy p / ry)) with (b * b * (vy p / ry * (vy p / ry))) by (unfold Rdiv; ring)
    end. rewrite Ea, Eb, !Rmult_1_l. reflexivity.
  - apply aperture_symmetric; [exact T|]. intros p. cbn [shape_mask]. destruct F as (a & b & Ha & Hb & ->).
    set (q := M3 (V3 a 0 0) (V3 0 b 0) (V3 0 0 1)).
    assert (Vx : vx (mapply q p) = a * vx p) by (cbn; unfold dot; cbn; ring). assert (Vy : vy (mapply q p) = b * vy p) by (cbn; unfold dot; cbn; ring).
    rewrite Vx, Vy. f_equal.
    + destruct Ha as [-> | ->]; [rewrite Rmult_1_l; reflexivity|]. rewrite rle_opp, rle_opp', Ropp_involutive, andb_comm. reflexivity.
    + destruct Hb as [-> | ->]; [rewrite Rmult_1_l; reflexivity|]. rewrite rle_opp, rle_opp', Ropp_involutive, andb_comm. reflexivity.
Qed.

(** ** Rulings *)
Lemma image_double_cross : forall q n d, orthogonal q ->
  cross (cross (mapply q n) (mapply q d)) (mapply q n) = mapply q (cross (cross n d) n).
Proof.
  intros q n d Q.
  assert (T : forall n d, cross (cross n d) n = vsub (vscale (dot n n) d) (vscale (dot n d) n)) by (intros; apply vec_eq; cbn; unfold dot; ring).
  rewrite !T, mapply_vsub, !mapply_vsc, !orthogonal_dot by exact Q. reflexivity.
Qed.
Lemma image_cross_vlen : forall q n d, orthogonal q -> vlen (cross (mapply q n) (mapply q d)) = vlen (cross n d).
Proof.
  intros q n d Q.
  assert (T : forall n d, norm2 (cross n d) = dot n n * dot d d - dot n d * dot n d) by (intros; unfold norm2, dot; cbn; ring).
  unfold vlen. rewrite !T, !orthogonal_dot by exact Q. reflexivity.
Qed.
Lemma image_normalized : forall q v, orthogonal q -> normalized (mapply q v) = omap (mapply q) (normalized v).
Proof.
  intros q v Q. unfold normalized. rewrite orthogonal_vlen by exact Q. destruct (odiv 1 (vlen v)) as [k|]; [|reflexivity].
  cbn [obind omap]. rewrite mapply_vsc. reflexivity.
Qed.
Lemma spacings_symmetric : forall q p i, orthogonal q ->
  (forall c g, mapply q g = g -> symmetric_grooves q (make_rulings p i (constant_spacing c g))) /\
  (forall l g t, mapply q g = g -> for_option (symmetric_rigid q) t -> symmetric_grooves q (make_rulings p i (polynomial_spacing l g t))) /\
  (forall x1 x2 w d1 d2 t, mapply q x1 = x1 -> mapply q x2 = x2 -> symmetric_grooves q (make_rulings p i (holographic_spacing x1 x2 w d1 d2 t))).
Proof.
  intros q p i Q. split; [|split].
  - intros c g G x n. unfold make_rulings, constant_spacing. cbn [rul_spacing omap]. rewrite mapply_vsc, G. reflexivity.
  - intros l g t G T x n. unfold make_rulings, polynomial_spacing. cbn [rul_spacing omap].
    assert (E : forall v, Some (vscale (polynomial l (dot (mapply q v) g)) g) = omap (mapply q) (Some (vscale (polynomial l (dot v g)) g))).
    { intros v. cbn [omap]. rewrite mapply_vsc, G. rewrite <- G at 1. rewrite orthogonal_dot by exact Q. reflexivity. }
    destruct t as [t|]; [rewrite image_point by (apply T; reflexivity)|]; apply E.
  - intros x1 x2 w d1 d2 t E1 E2 x n. unfold make_rulings, holographic_spacing. cbn [rul_spacing]. cbv zeta.
    replace (vsub (mapply q x) x1) with (mapply q (vsub x x1)) by (rewrite mapply_vsub, E1; reflexivity).
    replace (vsub (mapply q x) x2) with (mapply q (vsub x x2)) by (rewrite mapply_vsub, E2; reflexivity). rewrite !image_normalized by exact Q.
    destruct (normalized (vsub x x1)) as [r1|]; [|reflexivity]. cbn [obind omap].
    destruct (normalized (vsub x x2)) as [r2|]; [|reflexivity]. cbn [obind omap].
    rewrite <- !mapply_vsc, <- mapply_vsub, image_cross_vlen by exact Q. set (dr := vsub _ _).
    destruct (odiv 1 _) as [k|]; [|reflexivity]. cbn [obind omap]. f_equal. rewrite mapply_vsc. f_equal.
    assert (L : forall a b, cross (vscale k a) b = vscale k (cross a b)) by (intros; apply vec_eq; cbn; ring).
    rewrite !L, mapply_vsc, image_double_cross by exact Q. reflexivity.
Qed.
(** Ideal and measured rulings *)
Lemma efficiencies_symmetric : forall q p i spacing, uses_angle p = false ->
  symmetric_grooves q (make_rulings p i spacing) -> symmetric_rulings q (make_rulings p i spacing).
Proof.
  intros q p i spacing U G. split; [exact G|]. intros r n. unfold make_rulings, rulings_efficiency. cbn [rul_efficiency]. rewrite U. reflexivity.
Qed.

(** ** Materials *)
Lemma ambient_image : forall q d n, orthogonal q -> ambient_direction (mapply q d) (mapply q n) = ambient_direction d n.
Proof.
  intros q d n Q. unfold ambient_direction. f_equal. replace (vopp (mapply q d)) with (mapply q (vopp d)) by (apply vec_eq; cbn; unfold dot; cbn; ring).
  apply orthogonal_dot. exact Q.
Qed.
Lemma materials_symmetric : forall q, orthogonal q ->
  symmetric_material q vacuum /\ symmetric_material q mirror /\
  (forall l, symmetric_material q (measured_mirror l)) /\
  (forall b1 b2 b3 c1 c2 c3, symmetric_material q (glass b1 b2 b3 c1 c2 c3)) /\
  (forall l, symmetric_material q (film l)) /\
  (forall l sub, symmetric_material q (coated l sub)).
Proof.
  intros q Q. split; [repeat split|]. split; [repeat split|]. split; [repeat split|]. split; [repeat split|]. split.
  - intros l. split; [reflexivity|]. split; [reflexivity|]. intros r n. unfold film. cbn [mat_efficiency image_ray r_direction r_wavelength r_attenuation r_index].
    destruct (r_direction r) as [d|]; [|reflexivity]. destruct n as [u|]; [|reflexivity]. cbn [omap obind]. unfold film_efficiency. rewrite ambient_image by exact Q. reflexivity.
  - intros l sub. split; [reflexivity|]. split; [reflexivity|]. intros r n. unfold coated. cbn [mat_efficiency image_ray r_direction r_wavelength r_attenuation r_index].
    destruct (r_direction r) as [d|]; [|reflexivity]. destruct n as [u|]; [|reflexivity]. cbn [omap obind]. unfold mirror_efficiency. rewrite ambient_image by exact Q. reflexivity.
Qed.
