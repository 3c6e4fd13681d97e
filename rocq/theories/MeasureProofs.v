(** Superposition of images. *)
From Coq Require Import Reals List Bool Lra Lia Arith.
From Coquelicot Require Import Coquelicot.
From Verif Require Import Vec Num NumLemmas RayModel ComplexModel ComplexLemmas LayerModel LayerProofs SnellModel SurfaceModel SequenceSpec SequenceProofs
  SystemModel SystemSpec SystemProofs SystemTraceProofs CellModel CellProofs RamanathanModel DistSpec DistProofs SensorModel SensorSpec SensorCollectProofs
  SensorProofs SensorStatProofs ImageModel ImageSpec ImageProofs MeasureModel MeasureSpec.
Import ListNotations.
Open Scope R_scope.
Open Scope opt_scope.

(** ** Convexity of the mean collection efficiency *)
Lemma phi_integral : forall x, 0 < x -> is_RInt (fun t => exp (- (x * t))) 0 1 (phi x).
Proof.
  intros x X.
  replace (phi x) with (minus (- exp (- (x * 1)) / x) (- exp (- (x * 0)) / x)).
  - apply (is_RInt_derive (fun t => - exp (- (x * t)) / x)).
    + intros t _. auto_derive; [exact I|]. field. lra.
    + intros t _. apply (ex_derive_continuous (fun t => exp (- (x * t)))). auto_derive. exact I.
  - unfold phi, minus, plus, opp. cbn. rewrite Rmult_0_r, Ropp_0, exp_0, Rmult_1_r. field. lra.
Qed.
Lemma exp_tangent : forall u v, exp v * (1 + (u - v)) <= exp u /\ (u <> v -> exp v * (1 + (u - v)) < exp u).
Proof.
  intros u v. replace (exp u) with (exp v * exp (u - v)) by (rewrite <- exp_plus; f_equal; ring). assert (P := exp_pos v). split.
  - apply Rmult_le_compat_l; [lra|]. apply exp_ineq1_le.
  - intros N. apply Rmult_lt_compat_l; [exact P|]. apply exp_ineq1. lra.
Qed.
Lemma phi_convex : forall p r x y, 0 < p -> 0 < r -> 0 < x -> 0 < y -> x <> y ->
  (p + r) * phi ((p * x + r * y) / (p + r)) < p * phi x + r * phi y.
Proof.
  intros p r x y P Q X Y N. set (z := (p * x + r * y) / (p + r)).
  assert (Z : 0 < z) by (unfold z; apply Rdiv_lt_0_compat; nra).
  assert (E : (p + r) * z = p * x + r * y) by (unfold z; field; lra).
  assert (A := is_RInt_scal _ _ _ (p + r) _ (phi_integral z Z)).
  assert (B := is_RInt_plus _ _ _ _ _ _ (is_RInt_scal _ _ _ p _ (phi_integral x X)) (is_RInt_scal _ _ _ r _ (phi_integral y Y))).
  unfold scal, plus in A, B. cbn in A, B. unfold mult in A, B. cbn in A, B.
  rewrite <- (is_RInt_unique _ _ _ _ A), <- (is_RInt_unique _ _ _ _ B).
  apply RInt_lt; [lra| | |].
  - intros t _. apply (ex_derive_continuous (fun t => p * exp (- (x * t)) + r * exp (- (y * t)))). auto_derive. exact I.
  - intros t _. apply (ex_derive_continuous (fun t => (p + r) * exp (- (z * t)))). auto_derive. exact I.
  - intros t [T0 T1].
    assert (NX : x <> z). { intros H. apply N. rewrite <- H in E. assert (r * (x - y) = 0) by lra. apply Rmult_integral in H0. lra. }
    assert (U := proj2 (exp_tangent (- (x * t)) (- (z * t))) ltac:(intros H; apply NX; apply Rmult_eq_reg_r with t; lra)).
    assert (V := proj1 (exp_tangent (- (y * t)) (- (z * t)))).
    assert (S : exp (- (z * t)) * (p * (1 + (- (x * t) - - (z * t))) + r * (1 + (- (y * t) - - (z * t)))) = (p + r) * exp (- (z * t))).
    { replace (p * (1 + (- (x * t) - - (z * t))) + r * (1 + (- (y * t) - - (z * t)))) with (p + r + t * ((p + r) * z - (p * x + r * y))) by ring.
      rewrite E. ring. }
    apply (Rmult_lt_compat_l p) in U; [|exact P]. apply (Rmult_le_compat_l r) in V; [|lra]. lra.
Qed.

(** ** Rays keep their paths when they are dimmed *)
Definition dim (f : R) (r : ray) : ray := set_intensity (omap (Rmult f) (r_intensity r)) r.
Lemma dim_transformation : forall t f r, apply_transformation t (dim f r) = dim f (apply_transformation t r).
Proof. intros [t|] f r; reflexivity. Qed.
Lemma dim_inverse : forall t f r, apply_inverse t (dim f r) = dim f (apply_inverse t r).
Proof. intros [t|] f r; reflexivity. Qed.
Lemma dim_sag : forall s f r, sag_propagate s (dim f r) = dim f (sag_propagate s r).
Proof.
  intros s f [w p d i a n u]. unfold sag_propagate, dim, set_intensity, set_position.
  cbn [r_wavelength r_position r_direction r_intensity r_attenuation r_index r_unvignetted]. f_equal.
  destruct (let* x := p in let* d := d in sag_intercept s x d) as [q|]; [|reflexivity]. cbn [obind].
  destruct p as [x|]; [|reflexivity]. cbn [obind]. destruct i as [i|]; [|reflexivity]. cbn [obind omap]. f_equal. ring.
Qed.
Lemma dim_incident : forall s f r, surface_incident s (dim f r) = dim f (surface_incident s r).
Proof.
  intros s f r. unfold surface_incident. rewrite dim_sag. destruct (sf_rulings s) as [g|]; [|reflexivity].
  unfold rulings_effective, surface_normal, dim, set_direction, set_intensity. reflexivity.
Qed.
Lemma dim_local : forall s, linear_surface s -> forall f r, surface_local s (dim f r) = dim f (surface_local s r).
Proof.
  intros s (Mi & Ma & Me & Re) f r. unfold surface_local. rewrite dim_incident. set (r1 := surface_incident s r).
  assert (N : surface_normal s (dim f r1) = surface_normal s r1) by reflexivity. rewrite N. set (u := surface_normal s r1).
  assert (E : surface_efficiency s (dim f r1) u = surface_efficiency s r1 u).
  { unfold surface_efficiency, dim. rewrite Me. destruct (mat_efficiency (sf_material s) r1 u) as [e|]; [|reflexivity]. cbn [obind].
    destruct (sf_rulings s) as [g|]; [|reflexivity]. rewrite (Re g eq_refl). reflexivity. }
  assert (Mi' : mat_index (sf_material s) (dim f r1) = mat_index (sf_material s) r1) by apply Mi.
  assert (Ma' : mat_attenuation (sf_material s) (dim f r1) = mat_attenuation (sf_material s) r1) by apply Ma.
  rewrite E, Mi', Ma'. clear E Mi' Ma' N.
  change (r_wavelength (dim f r1)) with (r_wavelength r1). change (r_position (dim f r1)) with (r_position r1).
  change (r_direction (dim f r1)) with (r_direction r1). change (r_index (dim f r1)) with (r_index r1).
  change (r_unvignetted (dim f r1)) with (r_unvignetted r1). change (r_intensity (dim f r1)) with (omap (Rmult f) (r_intensity r1)).
  assert (I : (let* i1 := omap (Rmult f) (r_intensity r1) in let* e := surface_efficiency s r1 u in Some (i1 * e))
     = omap (Rmult f) (let* i1 := r_intensity r1 in let* e := surface_efficiency s r1 u in Some (i1 * e))).
  { destruct (r_intensity r1) as [i|]; [|reflexivity]. cbn [omap obind]. destruct (surface_efficiency s r1 u); [|reflexivity]. cbn. f_equal. ring. }
  rewrite I. destruct (sf_aperture s) as [ap|]; reflexivity.
Qed.
Lemma dim_surface : forall s, linear_surface s -> forall f r, surface_propagate s (dim f r) = dim f (surface_propagate s r).
Proof. intros s L f r. unfold surface_propagate. rewrite dim_inverse, dim_local, dim_transformation by exact L. reflexivity. Qed.
Lemma dim_list : forall l, List.Forall linear_surface l -> forall f r,
  propagate_list surface_propagate l (dim f r) = dim f (propagate_list surface_propagate l r).
Proof.
  intros l H. induction H as [|s l S H IH]; intros f r; [reflexivity|]. cbn [propagate_list]. rewrite dim_surface by exact S. apply IH.
Qed.

(** ** Sums that are linear in the brightness *)
Definition bright_sum {X} (v : X -> option R) (l : list X) (f : X -> R) : option R :=
  osum (map (fun c => omap (Rmult (f c)) (v c)) l).
Definition val (x : option R) : R := match x with Some x => x | None => 0 end.
Lemma bright_some : forall X (v : X -> option R) l f x, bright_sum v l f = Some x -> forall c, In c l -> v c = Some (val (v c)).
Proof.
  intros X v l f x H c I. destruct (v c) as [y|] eqn:E; [reflexivity|].
  unfold bright_sum in H. rewrite (osum_none (fun c => omap (Rmult (f c)) (v c)) l c I) in H; [discriminate|]. rewrite E. reflexivity.
Qed.
Lemma bright_value : forall X (v : X -> option R) l, (forall c, In c l -> v c = Some (val (v c))) -> forall f,
  bright_sum v l f = Some (rsum (map (fun c => f c * val (v c)) l)).
Proof. intros X v l H f. unfold bright_sum. apply osum_some. intros c I. rewrite (H c I) at 1. reflexivity. Qed.
Lemma bright_blend : forall X (v : X -> option R) l f1 f2 a b x1 x2, bright_sum v l f1 = Some x1 -> bright_sum v l f2 = Some x2 ->
  bright_sum v l (fun c => a * f1 c + b * f2 c) = Some (a * x1 + b * x2).
Proof.
  intros X v l f1 f2 a b x1 x2 H1 H2. assert (S := bright_some _ _ _ _ _ H1). rewrite bright_value in * by exact S.
  injection H1 as <-. injection H2 as <-. f_equal. rewrite <- !rsum_map_scale, <- rsum_map_plus. apply rsum_map_ext. intros; ring.
Qed.

(** ** Beams: rays of fixed paths with any brightness *)
Section beam.
Context {X : Type}.
Variable s : imaging_sensor.
Variable wl : list R.
Variable path : X -> ray.
Variable l : list X.
Definition beam (f : X -> R) : list (ray * bool) := map (fun c => (dim (f c) (path c), true)) l.
Definition within (pixel : cell) : list X := filter (fun c => in_cell s wl pixel (path c, true)) l.
Definition flux1 (c : X) : option R := ray_flux (path c, true).
Definition moment1 (part : C -> R) (c : X) : option R := weighted part s (path c, true).

Lemma dim_flux : forall f c, ray_flux (dim f (path c), true) = omap (Rmult f) (flux1 c).
Proof.
  intros f c. unfold flux1, ray_flux, dim, ray_where. destruct (path c) as [w p d i a n u]. cbn.
  destruct i as [i|]; cbn; [f_equal; ring|reflexivity].
Qed.
Lemma dim_weighted : forall part f c, weighted part s (dim f (path c), true) = omap (Rmult f) (moment1 part c).
Proof.
  intros part f c. unfold moment1, weighted. rewrite dim_flux. unfold flux1.
  assert (E : ray_cosine s (dim f (path c), true) = ray_cosine s (path c, true)) by reflexivity. rewrite E.
  destruct (ray_flux (path c, true)) as [x|]; [|reflexivity]. cbn [omap obind]. destruct (ray_cosine s (path c, true)); [|reflexivity].
  cbn. f_equal. ring.
Qed.
Lemma beam_histogram : forall f pixel (w : ray * bool -> option R) (v : X -> option R),
  (forall c, w (dim (f c) (path c), true) = omap (Rmult (f c)) (v c)) ->
  histogram (fun rw => ray_cell s wl (fst rw)) w (beam f) pixel = bright_sum v (within pixel) f.
Proof.
  intros f pixel w v H. unfold histogram, beam, bright_sum, within. rewrite SensorCollectProofs.filter_map, map_map. f_equal.
  erewrite filter_ext; [apply map_ext; intros c; apply H|]. intros c. reflexivity.
Qed.
Lemma beam_image : forall f pixel, collect_image s wl (beam f) pixel = bright_sum flux1 (within pixel) f.
Proof. intros f pixel. apply beam_histogram. intros c. apply dim_flux. Qed.
Lemma beam_moment : forall part f pixel,
  histogram (fun rw => ray_cell s wl (fst rw)) (weighted part s) (beam f) pixel = bright_sum (moment1 part) (within pixel) f.
Proof. intros part f pixel. apply beam_histogram. intros c. apply dim_weighted. Qed.

(** The cosine of a pixel. *)
Lemma beam_direction : forall f pixel p, collect_image s wl (beam f) pixel = Some p ->
  collect_direction s wl (beam f) pixel =
  if Rlt_dec 0 p then
    let* re := bright_sum (moment1 Re) (within pixel) f in
    let* im := bright_sum (moment1 Im) (within pixel) f in Some (re / p, im / p)
  else Some (RtoC 1).
Proof.
  intros f pixel p H. unfold collect_direction. rewrite H, !beam_moment. destruct (Rlt_dec 0 p) as [P|P]; [|reflexivity].
  destruct (bright_sum (moment1 Re) (within pixel) f) as [re|]; [|reflexivity]. cbn [obind]. rewrite odiv_nz by lra. cbn [obind].
  destruct (bright_sum (moment1 Im) (within pixel) f) as [im|]; [|reflexivity]. cbn [obind]. rewrite odiv_nz by lra. reflexivity.
Qed.

Lemma zero_terms : forall (h : X -> R) k, (forall c, In c k -> 0 <= h c) -> rsum (map h k) = 0 -> forall c, In c k -> h c = 0.
Proof.
  intros h k. induction k as [|a k IH]; intros P Z c I; [contradiction|].
  cbn [map rsum fold_right] in Z. fold (rsum (map h k)) in Z.
  assert (A := P a (or_introl eq_refl)). assert (B := rsum_map_nonneg h k (fun x J => P x (or_intror J))).
  destruct I as [->|I]; [lra|]. apply IH; auto; [intros x J; apply P; right; exact J|lra].
Qed.

(** A dark beam adds nothing to the moments of another one. *)
Lemma dark_moment : forall part f1 f2 pixel m2, collect_image s wl (beam f1) pixel = Some 0 ->
  (forall c x, In c l -> omap (Rmult (f1 c)) (flux1 c) = Some x -> 0 <= x) ->
  bright_sum (moment1 part) (within pixel) f2 = Some m2 ->
  bright_sum (moment1 part) (within pixel) (fun c => f1 c + f2 c) = Some m2.
Proof.
  intros part f1 f2 pixel m2 Z P M. rewrite beam_image in Z. assert (S := bright_some _ _ _ _ _ Z). rewrite bright_value in Z by exact S.
  injection Z as Z. assert (T := bright_some _ _ _ _ _ M). rewrite bright_value in * by exact T. rewrite <- M. f_equal.
  apply rsum_map_ext. intros c I. rewrite Rmult_plus_distr_r.
  assert (Q : f1 c * val (flux1 c) = 0).
  { apply (zero_terms (fun c => f1 c * val (flux1 c)) (within pixel)); [|exact Z|exact I].
    intros e J. apply (P e). - apply filter_In in J. apply J. - rewrite (S e J). reflexivity. }
  assert (E : exists k, val (moment1 part c) = val (flux1 c) * k).
  { specialize (T c I). specialize (S c I). revert T. unfold moment1, weighted. fold (flux1 c). rewrite S. cbn [obind].
    destruct (ray_cosine s (path c, true)) as [d|]; [|discriminate]. intros _. cbn. exists (part d). reflexivity. }
  destruct E as (k & ->). rewrite <- Rmult_assoc, Q. ring.
Qed.
End beam.

Lemma bright_ext : forall X (v : X -> option R) l f f', (forall c, In c l -> f c = f' c) -> bright_sum v l f = bright_sum v l f'.
Proof. intros X v l f f' H. unfold bright_sum. f_equal. apply map_ext_in. intros c I. rewrite (H c I). reflexivity. Qed.

(** ** Electrons *)
Definition depth (m : silicon) (w : R) (d : C) : R := 4 * PI * steepness m w d / w * si_implant m.
Lemma working_depth : forall tb m w d, working tb (Silicon m) w d -> 0 < depth m w d.
Proof.
  intros tb m w d (W & _ & A & P & _). unfold depth, steepness. apply Rmult_lt_0_compat; [|exact P].
  apply Rdiv_lt_0_compat; [|exact W]. apply Rmult_lt_0_compat; [|exact A]. assert (H := PI_RGT_0). lra.
Qed.
Lemma expose_silicon : forall tb s m t flux w d q, sn_material s = Silicon m -> working tb (Silicon m) w d ->
  quantum_yield_ideal tb w (si_temperature m) = Some q ->
  expose tb s t flux w d = Some (q * match t with Some t => t | None => sn_exposure s end * (cce (depth m w d) (si_eta0 m) * flux)).
Proof.
  intros tb s m t flux w d q M K Q. assert (X := working_depth _ _ _ _ K). destruct K as (W & RD & A & P & E & _).
  unfold expose. rewrite M. cbn [material_signal]. unfold signal_expected. rewrite snell_identity by (first [exact RD | exact (index_nonzero _ _ A)]). cbn [obind].
  unfold absorption_effective. rewrite odiv_nz by lra. cbn [obind]. rewrite Q. cbn [obind].
  change (4 * PI * Im (si_n m w * d)%C / w * si_implant m) with (depth m w d) in *. rewrite cce_value.
  - cbn [obind]. f_equal. unfold depth, steepness. ring.
  - change (depth m w d <> 0). lra.
Qed.

Lemma steepness_mean : forall m w p1 p2 (d1 d2 d : C), 0 < p1 + p2 ->
  d = ((p1 * Re d1 + p2 * Re d2) / (p1 + p2), (p1 * Im d1 + p2 * Im d2) / (p1 + p2)) ->
  steepness m w d = (p1 * steepness m w d1 + p2 * steepness m w d2) / (p1 + p2).
Proof. intros m w p1 p2 [a1 b1] [a2 b2] d P ->. unfold steepness, Re, Im, Cmult. cbn. field. lra. Qed.

Section exposure.
Context {X : Type}.
Variable tb : pair_table.
Variable s : imaging_sensor.
Variable wl : list R.
Variable path : X -> ray.
Variable l : list X.
Variable pixel : cell.
Let w := bin_center wl (fst (fst pixel)).

Lemma beam_blend : forall f1 f2 a b p1 p2, collect_image s wl (beam path l f1) pixel = Some p1 -> collect_image s wl (beam path l f2) pixel = Some p2 ->
  collect_image s wl (beam path l (fun c => a * f1 c + b * f2 c)) pixel = Some (a * p1 + b * p2).
Proof. intros. rewrite beam_image in *. apply bright_blend; assumption. Qed.
Lemma beam_sum : forall f1 f2 p1 p2, collect_image s wl (beam path l f1) pixel = Some p1 -> collect_image s wl (beam path l f2) pixel = Some p2 ->
  collect_image s wl (beam path l (fun c => f1 c + f2 c)) pixel = Some (p1 + p2).
Proof.
  intros f1 f2 p1 p2 H1 H2. assert (H := beam_blend f1 f2 1 1 p1 p2 H1 H2). rewrite beam_image in *.
  rewrite (bright_ext _ _ _ _ (fun c => 1 * f1 c + 1 * f2 c)) by (intros; ring). rewrite H. f_equal. ring.
Qed.

Lemma beam_cosine : forall f1 f2 p1 p2 d1 d2,
  collect_image s wl (beam path l f1) pixel = Some p1 -> collect_image s wl (beam path l f2) pixel = Some p2 ->
  collect_direction s wl (beam path l f1) pixel = Some d1 -> collect_direction s wl (beam path l f2) pixel = Some d2 ->
  (forall c x, In c l -> omap (Rmult (f1 c)) (flux1 path c) = Some x -> 0 <= x) ->
  (forall c x, In c l -> omap (Rmult (f2 c)) (flux1 path c) = Some x -> 0 <= x) ->
  0 <= p1 /\ 0 <= p2 /\
  exists d, collect_direction s wl (beam path l (fun c => f1 c + f2 c)) pixel = Some d /\
    (0 < p1 + p2 -> d = ((p1 * Re d1 + p2 * Re d2) / (p1 + p2), (p1 * Im d1 + p2 * Im d2) / (p1 + p2))) /\
    (p1 + p2 = 0 -> d = d1).
Proof.
  intros f1 f2 p1 p2 d1 d2 I1 I2 D1 D2 P1 P2.
  assert (NN : forall f p, collect_image s wl (beam path l f) pixel = Some p ->
     (forall c x, In c l -> omap (Rmult (f c)) (flux1 path c) = Some x -> 0 <= x) -> 0 <= p).
  { intros f p H P. rewrite beam_image in H. assert (S := bright_some _ _ _ _ _ H). rewrite bright_value in H by exact S. injection H as <-.
    apply rsum_map_nonneg. intros c J. apply (P c); [apply filter_In in J; apply J|]. rewrite (S c J). reflexivity. }
  assert (Z1 := NN f1 p1 I1 P1). assert (Z2 := NN f2 p2 I2 P2). split; [exact Z1|]. split; [exact Z2|].
  assert (I := beam_sum f1 f2 p1 p2 I1 I2).
  rewrite (beam_direction s wl path l _ pixel _ I). rewrite (beam_direction s wl path l _ pixel _ I1) in D1. rewrite (beam_direction s wl path l _ pixel _ I2) in D2.
  assert (SM : forall part m1 m2, bright_sum (moment1 s path part) (within s wl path l pixel) f1 = Some m1 ->
     bright_sum (moment1 s path part) (within s wl path l pixel) f2 = Some m2 ->
     bright_sum (moment1 s path part) (within s wl path l pixel) (fun c => f1 c + f2 c) = Some (m1 + m2)).
  { intros part m1 m2 M1 M2. rewrite (bright_ext _ _ _ _ (fun c => 1 * f1 c + 1 * f2 c)) by (intros; ring).
    rewrite (bright_blend _ _ _ _ _ 1 1 _ _ M1 M2). f_equal. ring. }
  assert (UN : forall x m, obind x (fun re => obind m (fun im : R => Some (re : R, im))) <> None -> exists a b, x = Some a /\ m = Some b).
  { intros [a|] [b|]; cbn; try congruence. eauto. }
  destruct (Rlt_dec 0 p1) as [Q1|Q1], (Rlt_dec 0 p2) as [Q2|Q2].
  - destruct (Rlt_dec 0 (p1 + p2)) as [Q|Q]; [|lra].
    destruct (bright_sum (moment1 s path Re) (within s wl path l pixel) f1) as [r1|] eqn:R1; [|discriminate].
    destruct (bright_sum (moment1 s path Im) (within s wl path l pixel) f1) as [i1|] eqn:J1; [|discriminate]. injection D1 as <-.
    destruct (bright_sum (moment1 s path Re) (within s wl path l pixel) f2) as [r2|] eqn:R2; [|discriminate].
    destruct (bright_sum (moment1 s path Im) (within s wl path l pixel) f2) as [i2|] eqn:J2; [|discriminate]. injection D2 as <-.
    rewrite (SM Re r1 r2 R1 R2), (SM Im i1 i2 J1 J2). cbn [obind]. eexists. split; [reflexivity|]. split; [|intros; lra].
    intros _. cbn [Re Im fst snd]. f_equal; field; lra.
  - assert (p2 = 0) by lra. subst p2. destruct (Rlt_dec 0 (p1 + 0)) as [Q|Q]; [|lra].
    destruct (bright_sum (moment1 s path Re) (within s wl path l pixel) f1) as [r1|] eqn:R1; [|discriminate].
    destruct (bright_sum (moment1 s path Im) (within s wl path l pixel) f1) as [i1|] eqn:J1; [|discriminate]. injection D1 as <-. injection D2 as <-.
    rewrite !(bright_ext _ _ _ (fun c => f1 c + f2 c) (fun c => f2 c + f1 c)) by (intros; ring).
    rewrite (dark_moment s wl path l Re f2 f1 pixel r1 I2 P2 R1), (dark_moment s wl path l Im f2 f1 pixel i1 I2 P2 J1).
    cbn [obind]. eexists. split; [reflexivity|]. split; [|intros; lra]. intros _. cbn [Re Im fst snd]. f_equal; field; lra.
  - assert (p1 = 0) by lra. subst p1. destruct (Rlt_dec 0 (0 + p2)) as [Q|Q]; [|lra].
    destruct (bright_sum (moment1 s path Re) (within s wl path l pixel) f2) as [r2|] eqn:R2; [|discriminate].
    destruct (bright_sum (moment1 s path Im) (within s wl path l pixel) f2) as [i2|] eqn:J2; [|discriminate]. injection D2 as <-. injection D1 as <-.
    rewrite (dark_moment s wl path l Re f1 f2 pixel r2 I1 P1 R2), (dark_moment s wl path l Im f1 f2 pixel i2 I1 P1 J2).
    cbn [obind]. eexists. split; [reflexivity|]. split; [|intros; lra]. intros _. cbn [Re Im fst snd]. f_equal; field; lra.
  - destruct (Rlt_dec 0 (p1 + p2)) as [Q|Q]; [lra|]. eexists. split; [reflexivity|]. split; [intros; lra|]. intros _. congruence.
Qed.

Lemma beam_electrons : forall m f1 f2 p1 p2 d1 d2 e1 e2, sn_material s = Silicon m -> 0 < sn_exposure s ->
  collect_image s wl (beam path l f1) pixel = Some p1 -> collect_image s wl (beam path l f2) pixel = Some p2 ->
  collect_direction s wl (beam path l f1) pixel = Some d1 -> collect_direction s wl (beam path l f2) pixel = Some d2 ->
  working tb (Silicon m) w d1 -> working tb (Silicon m) w d2 ->
  (forall c x, In c l -> omap (Rmult (f1 c)) (flux1 path c) = Some x -> 0 <= x) ->
  (forall c x, In c l -> omap (Rmult (f2 c)) (flux1 path c) = Some x -> 0 <= x) ->
  measure tb s None wl (beam path l f1) pixel = Some e1 -> measure tb s None wl (beam path l f2) pixel = Some e2 ->
  exists e, measure tb s None wl (beam path l (fun c => f1 c + f2 c)) pixel = Some e /\ e <= e1 + e2 /\
    (e = e1 + e2 <-> si_eta0 m = 1 \/ p1 = 0 \/ p2 = 0 \/ steepness m w d1 = steepness m w d2).
Proof.
  intros m f1 f2 p1 p2 d1 d2 e1 e2 M T I1 I2 D1 D2 K1 K2 P1 P2 E1 E2.
  destruct (beam_cosine f1 f2 p1 p2 d1 d2 I1 I2 D1 D2 P1 P2) as (Z1 & Z2 & d & D & DP & D0).
  assert (I := beam_sum f1 f2 p1 p2 I1 I2).
  destruct K1 as (W & R1 & A1 & Im' & Et & q & Q & QP).
  assert (K1 : working tb (Silicon m) w d1) by (cbn [working]; eauto 10). assert (K2' := K2). destruct K2' as (_ & R2 & A2 & _).
  assert (K : working tb (Silicon m) w d).
  { destruct (Rle_lt_dec (p1 + p2) 0) as [Z|Z]; [rewrite D0 by lra; exact K1|].
    specialize (DP Z). assert (St := steepness_mean m w p1 p2 d1 d2 d Z DP). cbn [working]. split; [exact W|].
    split; [|split; [|eauto 10]].
    - rewrite DP. cbn [Re fst]. apply Rdiv_lt_0_compat; [|exact Z]. destruct (Req_dec p1 0); [subst; nra|]. nra.
    - unfold steepness in St. rewrite St. apply Rdiv_lt_0_compat; [|exact Z]. destruct (Req_dec p1 0); [subst; nra|]. nra. }
  unfold measure in *. rewrite I1 in E1. rewrite I2 in E2. rewrite I. cbn [obind] in *. rewrite M in *.
  rewrite D1 in E1. rewrite D2 in E2. rewrite D. cbn [obind] in *. fold w in E1, E2 |- *.
  rewrite (expose_silicon tb s m None _ w _ q M) in E1 by assumption.
  rewrite (expose_silicon tb s m None _ w _ q M) in E2 by assumption.
  rewrite (expose_silicon tb s m None _ w _ q M) by assumption.
  injection E1 as <-. injection E2 as <-. eexists. split; [reflexivity|].
  set (x1 := depth m w d1). set (x2 := depth m w d2). set (x := depth m w d). set (eta := si_eta0 m) in *.
  assert (X1 : 0 < x1) by (eapply working_depth; eauto). assert (X2 : 0 < x2) by (eapply working_depth; eauto).
  assert (G : 0 < q * sn_exposure s) by nra.
  assert (SX : x1 = x2 <-> steepness m w d1 = steepness m w d2).
  { unfold x1, x2, depth. split; intros H; [|rewrite H; reflexivity].
    assert (PP := PI_RGT_0). apply Rmult_eq_reg_r in H; [|lra]. unfold Rdiv in H. apply Rmult_eq_reg_r in H; [|apply Rinv_neq_0_compat; lra].
    apply Rmult_eq_reg_l in H; [exact H|lra]. }
  assert (XM : 0 < p1 + p2 -> x = (p1 * x1 + p2 * x2) / (p1 + p2)).
  { intros Z. unfold x, x1, x2, depth. rewrite (steepness_mean m w p1 p2 d1 d2 d Z (DP Z)). field. lra. }
  unfold cce.
  assert (GOAL : (eta + (1 - eta) * phi x) * (p1 + p2) <= (eta + (1 - eta) * phi x1) * p1 + (eta + (1 - eta) * phi x2) * p2 /\
    ((eta + (1 - eta) * phi x) * (p1 + p2) = (eta + (1 - eta) * phi x1) * p1 + (eta + (1 - eta) * phi x2) * p2 <->
     eta = 1 \/ p1 = 0 \/ p2 = 0 \/ x1 = x2)).
  { destruct (Req_dec p1 0) as [N1|N1].
    { assert (H : (eta + (1 - eta) * phi x) * (p1 + p2) = (eta + (1 - eta) * phi x1) * p1 + (eta + (1 - eta) * phi x2) * p2).
      { destruct (Req_dec p2 0) as [N2|N2]; [rewrite N1, N2; ring|].
        assert (x = x2) as ->; [|rewrite N1; ring]. rewrite XM by lra. rewrite N1. field. lra. }
      split; [lra|]. split; [auto|intros _; exact H]. }
    destruct (Req_dec p2 0) as [N2|N2].
    { assert (H : (eta + (1 - eta) * phi x) * (p1 + p2) = (eta + (1 - eta) * phi x1) * p1 + (eta + (1 - eta) * phi x2) * p2).
      { assert (x = x1) as ->; [|rewrite N2; ring]. rewrite XM by lra. rewrite N2. field. lra. }
      split; [lra|]. split; [auto|intros _; exact H]. }
    assert (Y : 0 < p1 + p2) by lra. specialize (XM Y).
    destruct (Req_dec x1 x2) as [XX|XX].
    { assert (H : x = x1) by (rewrite XM, <- XX; field; lra). rewrite H, <- XX. split; [lra|]. split; [auto|intros _; ring]. }
    assert (C := phi_convex p1 p2 x1 x2 ltac:(lra) ltac:(lra) X1 X2 XX). rewrite <- XM in C.
    destruct (Req_dec eta 1) as [EE|EE]; [rewrite EE; split; [lra|]; split; [auto|intros _; ring]|].
    assert (S : (1 - eta) * ((p1 + p2) * phi x) < (1 - eta) * (p1 * phi x1 + p2 * phi x2)) by (apply Rmult_lt_compat_l; lra).
    split; [lra|]. split; [intros; exfalso; lra|intros [|[|[|]]]; contradiction]. }
  destruct GOAL as [GL GE]. rewrite <- SX, <- GE. split.
  - replace (q * sn_exposure s * ((eta + (1 - eta) * phi x1) * p1) + q * sn_exposure s * ((eta + (1 - eta) * phi x2) * p2))
      with (q * sn_exposure s * ((eta + (1 - eta) * phi x1) * p1 + (eta + (1 - eta) * phi x2) * p2)) by ring.
    apply Rmult_le_compat_l; lra.
  - rewrite <- Rmult_plus_distr_l. split; [intros H; apply Rmult_eq_reg_l in H; [exact H|lra]|intros ->; reflexivity].
Qed.
End exposure.

(** ** Images of a system *)
Section system.
Variable sys : system.
Hypothesis Lin : List.Forall linear_surface (map st_surface (surfaces_all sys)).
Variables area_field area_pupil : point2 -> point2 -> point2 -> point2 -> R.
Variable g : object_grid.
Variable center : cell5 -> SystemModel.grid_point.
Let flux := cell_flux area_field area_pupil g.
Definition cell_path (s0 : stop_surface) (c : cell5) : ray := final_of sys s0 (start_ray sys 1 (center c)).

Lemma cell_path_dim : forall s0 f c, final_of sys s0 (start_ray sys f (center c)) = dim f (cell_path s0 c).
Proof.
  intros s0 f c. unfold cell_path, final_of.
  replace (start_ray sys f (center c)) with (dim f (start_ray sys 1 (center c))).
  - rewrite dim_inverse. unfold propagate_rays. cbn [as_list]. rewrite dim_list by exact Lin. rewrite dim_inverse. reflexivity.
  - unfold start_ray, dim, set_intensity. cbn [r_intensity omap]. rewrite Rmult_1_r. reflexivity.
Qed.
Lemma image_rays_beam : forall s0 radiance nw n1 n2 m1 m2, sys_sensor sys = Some s0 ->
  image_rays sys area_field area_pupil g radiance center nw n1 n2 m1 m2 = Some (beam (cell_path s0) (cells5 nw n1 n2 m1 m2) (flux radiance)).
Proof.
  intros s0 radiance nw n1 n2 m1 m2 S. unfold image_rays. rewrite (all_rays sys s0 S). cbn [obind]. rewrite map_map. unfold beam. f_equal.
  apply map_ext. intros c. rewrite cell_path_dim. reflexivity.
Qed.
Lemma photon_rays : forall sensor radiance nw n1 n2 m1 m2 integrate pixel,
  photon_image sys sensor area_field area_pupil g radiance center nw n1 n2 m1 m2 integrate pixel =
  let* rays := image_rays sys area_field area_pupil g radiance center nw n1 n2 m1 m2 in
  let* edges := image_edges integrate (map (CellModel.g_wavelength g) (seq 0 (nw + 1))) in
  collect_image sensor edges rays pixel.
Proof. intros. unfold photon_image, image_rays. destruct (all_some _); reflexivity. Qed.

Lemma flux_blend : forall a b l1 l2 c, flux (blend a b l1 l2) c = a * flux l1 c + b * flux l2 c.
Proof. intros. unfold flux, cell_flux, blend. ring. Qed.
Lemma beam_ext : forall X (path : X -> ray) l f f', (forall c, f c = f' c) -> beam path l f = beam path l f'.
Proof. intros X path l f f' H. unfold beam. apply map_ext. intros c. rewrite H. reflexivity. Qed.

Lemma photons_superpose : forall sensor l1 l2 nw n1 n2 m1 m2 integrate pixel a b p1 p2, sys_sensor sys <> None ->
  photon_image sys sensor area_field area_pupil g l1 center nw n1 n2 m1 m2 integrate pixel = Some p1 ->
  photon_image sys sensor area_field area_pupil g l2 center nw n1 n2 m1 m2 integrate pixel = Some p2 ->
  photon_image sys sensor area_field area_pupil g (blend a b l1 l2) center nw n1 n2 m1 m2 integrate pixel = Some (a * p1 + b * p2).
Proof.
  intros sensor l1 l2 nw n1 n2 m1 m2 integrate pixel a b p1 p2 HS H1 H2. rewrite photon_rays in *.
  destruct (sys_sensor sys) as [s0|] eqn:S; [clear HS|congruence]. rewrite (image_rays_beam s0) in * by exact S. cbn [obind] in *.
  destruct (image_edges _ _) as [edges|]; [|discriminate]. cbn [obind] in *.
  rewrite (beam_ext _ _ _ _ _ (flux_blend a b l1 l2)). apply beam_blend; assumption.
Qed.

Lemma ideal_electrons : forall tb sensor radiance nw n1 n2 m1 m2 integrate pixel, sn_material sensor = Ideal ->
  electron_image tb sys sensor area_field area_pupil g radiance center nw n1 n2 m1 m2 integrate pixel =
  omap (fun p => p * sn_exposure sensor) (photon_image sys sensor area_field area_pupil g radiance center nw n1 n2 m1 m2 integrate pixel).
Proof.
  intros tb sensor radiance nw n1 n2 m1 m2 integrate pixel M. rewrite photon_rays. unfold electron_image.
  destruct (image_rays _ _ _ _ _ _ _ _ _ _ _) as [rays|]; [|reflexivity]. cbn [obind].
  destruct (image_edges _ _) as [edges|]; [|reflexivity]. cbn [obind]. unfold measure. destruct (collect_image _ _ _ _) as [p|]; [|reflexivity].
  cbn [obind omap]. unfold expose. rewrite M. reflexivity.
Qed.
Lemma ideal_superpose : forall tb sensor l1 l2 nw n1 n2 m1 m2 integrate pixel a b e1 e2, sys_sensor sys <> None -> sn_material sensor = Ideal ->
  electron_image tb sys sensor area_field area_pupil g l1 center nw n1 n2 m1 m2 integrate pixel = Some e1 ->
  electron_image tb sys sensor area_field area_pupil g l2 center nw n1 n2 m1 m2 integrate pixel = Some e2 ->
  electron_image tb sys sensor area_field area_pupil g (blend a b l1 l2) center nw n1 n2 m1 m2 integrate pixel = Some (a * e1 + b * e2).
Proof.
  intros tb sensor l1 l2 nw n1 n2 m1 m2 integrate pixel a b e1 e2 HS M H1 H2. rewrite ideal_electrons in * by exact M.
  destruct (photon_image sys sensor area_field area_pupil g l1 _ _ _ _ _ _ _ _) as [p1|] eqn:P1; [|discriminate].
  destruct (photon_image sys sensor area_field area_pupil g l2 _ _ _ _ _ _ _ _) as [p2|] eqn:P2; [|discriminate].
  rewrite (photons_superpose sensor l1 l2 nw n1 n2 m1 m2 integrate pixel a b p1 p2 HS P1 P2). cbn in *. injection H1 as <-. injection H2 as <-.
  f_equal. ring.
Qed.

Lemma expose_scale : forall tb s t k flux w d, expose tb s t (k * flux) w d = omap (Rmult k) (expose tb s t flux w d).
Proof.
  intros tb s t k f w d. unfold expose. destruct (sn_material s) as [|m]; cbn [material_signal omap]; [f_equal; ring|].
  unfold signal_expected. destruct (snells_law_scalar _ _ _); [|reflexivity]. cbn [obind]. destruct (absorption_effective _ _ _); [|reflexivity]. cbn [obind].
  destruct (quantum_yield_ideal _ _ _); [|reflexivity]. cbn [obind]. destruct (charge_collection_efficiency _ _ _); [|reflexivity]. cbn. f_equal. ring.
Qed.
Lemma electrons_scale : forall tb sensor radiance nw n1 n2 m1 m2 integrate pixel k, sys_sensor sys <> None -> 0 < k ->
  electron_image tb sys sensor area_field area_pupil g (fun c => k * radiance c) center nw n1 n2 m1 m2 integrate pixel =
  omap (Rmult k) (electron_image tb sys sensor area_field area_pupil g radiance center nw n1 n2 m1 m2 integrate pixel).
Proof.
  intros tb sensor radiance nw n1 n2 m1 m2 integrate pixel k HS K. unfold electron_image.
  destruct (sys_sensor sys) as [s0|] eqn:S; [clear HS|congruence]. rewrite !(image_rays_beam s0) by exact S. cbn [obind].
  destruct (image_edges _ _) as [edges|]; [|reflexivity]. cbn [obind].
  set (b := beam _ _ (flux radiance)).
  assert (E : beam (cell_path s0) (cells5 nw n1 n2 m1 m2) (flux (fun c => k * radiance c)) = map (scale_intensity k) b).
  { unfold b, beam. rewrite map_map. apply map_ext. intros c. unfold scale_intensity, dim, flux, cell_flux. cbn [fst snd].
    destruct (cell_path s0 c) as [w p d i a n u]. unfold set_intensity. cbn. destruct i; cbn; [|reflexivity]. do 3 f_equal. ring. }
  rewrite E. unfold measure. unfold collect_image. rewrite (histogram_scale k sensor edges ray_flux) by apply scale_flux.
  rewrite direction_scale by exact K. fold (collect_image sensor edges b pixel). destruct (collect_image sensor edges b pixel) as [p|]; [|reflexivity].
  cbn [obind omap]. destruct (match sn_material sensor with Ideal => _ | Silicon _ => _ end) as [d|]; [|reflexivity]. cbn [obind]. apply expose_scale.
Qed.

Lemma edges_center : forall nw integrate pixel edges w, (forall w, (w < nw)%nat -> CellModel.g_wavelength g w < CellModel.g_wavelength g (S w)) ->
  image_edges integrate (map (CellModel.g_wavelength g) (seq 0 (nw + 1))) = Some edges ->
  exposed_at g nw integrate pixel w -> bin_center edges (fst (fst pixel)) = w.
Proof.
  intros nw integrate pixel edges w Inc E X. unfold exposed_at in X. destruct integrate.
  - rewrite edges_integrated in E by exact Inc. injection E as <-. destruct X as [K ->]. rewrite K. reflexivity.
  - cbn in E. injection E as <-. destruct X as [K ->]. unfold bin_center. rewrite !nth_map_seq by lia. reflexivity.
Qed.

Lemma silicon_superpose : forall tb sensor m l1 l2 nw n1 n2 m1 m2 integrate pixel w p1 p2 d1 d2 e1 e2, sys_sensor sys <> None ->
  List.Forall rigid_surface (map st_surface (surfaces_all sys)) ->
  List.Forall passive (map st_surface (surfaces_all sys)) ->
  (forall w, (w < nw)%nat -> CellModel.g_wavelength g w < CellModel.g_wavelength g (S w)) ->
  sn_material sensor = Silicon m -> 0 < sn_exposure sensor ->
  (forall c, 0 <= l1 c /\ 0 <= l2 c) -> exposed_at g nw integrate pixel w ->
  photon_image sys sensor area_field area_pupil g l1 center nw n1 n2 m1 m2 integrate pixel = Some p1 ->
  photon_image sys sensor area_field area_pupil g l2 center nw n1 n2 m1 m2 integrate pixel = Some p2 ->
  cosine_image sys sensor area_field area_pupil g l1 center nw n1 n2 m1 m2 integrate pixel = Some d1 ->
  cosine_image sys sensor area_field area_pupil g l2 center nw n1 n2 m1 m2 integrate pixel = Some d2 ->
  working tb (Silicon m) w d1 -> working tb (Silicon m) w d2 ->
  electron_image tb sys sensor area_field area_pupil g l1 center nw n1 n2 m1 m2 integrate pixel = Some e1 ->
  electron_image tb sys sensor area_field area_pupil g l2 center nw n1 n2 m1 m2 integrate pixel = Some e2 ->
  exists e, electron_image tb sys sensor area_field area_pupil g (fun c => l1 c + l2 c) center nw n1 n2 m1 m2 integrate pixel = Some e /\
    e <= e1 + e2 /\ (e = e1 + e2 <-> si_eta0 m = 1 \/ p1 = 0 \/ p2 = 0 \/ steepness m w d1 = steepness m w d2).
Proof.
  intros tb sensor m l1 l2 nw n1 n2 m1 m2 integrate pixel w p1 p2 d1 d2 e1 e2 HS Rg Pa Inc M T NN XA P1 P2 D1 D2 K1 K2 E1 E2.
  rewrite photon_rays in P1, P2. unfold cosine_image in D1, D2. unfold electron_image in *.
  destruct (sys_sensor sys) as [s0|] eqn:S; [clear HS|congruence]. rewrite !(image_rays_beam s0) in * by exact S. cbn [obind] in *.
  destruct (image_edges integrate _) as [edges|] eqn:EE; [|discriminate]. cbn [obind] in *.
  assert (BC := edges_center nw integrate pixel edges w Inc EE XA). subst w.
  assert (POS : forall lr c x, (forall c, 0 <= lr c) -> In c (cells5 nw n1 n2 m1 m2) ->
     omap (Rmult (flux lr c)) (flux1 (cell_path s0) c) = Some x -> 0 <= x).
  { intros lr c x L I H. rewrite <- dim_flux in H. unfold ray_flux in H. cbn [fst] in H.
    destruct (r_intensity (dim (flux lr c) (cell_path s0 c))) as [j|] eqn:J; [|discriminate]. cbn [obind] in H. injection H as <-.
    assert (FN : 0 <= flux lr c).
    { unfold flux, cell_flux. apply Rmult_le_pos; [apply L|]. apply cell_area_nonneg. destruct (in_cells5 _ _ _ _ _ _ I) as (W & _). specialize (Inc _ W). lra. }
    rewrite <- (cell_path_dim s0) in J.
    destruct (final_bounded sys s0 area_field area_pupil g lr center c j Rg Pa FN J) as [Q _].
    apply Rmult_le_pos; [exact Q|]. destruct (ray_where _); cbn; lra. }
  assert (FL : forall c, flux (fun c => l1 c + l2 c) c = flux l1 c + flux l2 c) by (intros; unfold flux, cell_flux; ring).
  rewrite (beam_ext _ _ _ _ _ FL).
  apply (beam_electrons tb sensor edges (cell_path s0) (cells5 nw n1 n2 m1 m2) pixel m _ _ p1 p2 d1 d2 e1 e2); try assumption.
  - intros c x I H. apply (POS l1 c x); [intros; apply NN|exact I|exact H].
  - intros c x I H. apply (POS l2 c x); [intros; apply NN|exact I|exact H].
Qed.
End system.
