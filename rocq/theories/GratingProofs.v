(** Optical lengths over gratings. *)
From Coq Require Import Reals Lra Psatz List.
From Coquelicot Require Import Coquelicot.
From Verif Require Import Vec VecLemmas Num NumLemmas RayModel SnellModel SnellSpec SnellProofs SurfaceModel RulingModel RulingSpec RulingProofs
  SagModel SagSpec SagNormalProofs SagInterceptProofs CurvedSagProofs SequenceSpec SequenceProofs FocusSpec FocusProofs
  InvariantSpec InvariantProofs FermatSpec FermatProofs GratingSpec.
Import ListNotations.
Open Scope R_scope.

(** ** One surface *)
Lemma ruled_local_step s r b : r_direction (surface_local s r) = Some b ->
  exists u q n e, r_direction r = Some u /\ r_position (surface_local s r) = Some q /\ sag_normal (sf_sag s) q = Some n /\
    snells_law e (r_index r) (r_index (surface_local s r)) (mat_is_mirror (sf_material s)) n = Some b /\
    match sf_rulings s with
    | None => e = u
    | Some g => exists kappa, rul_spacing g q n = Some kappa /\ vlen kappa <> 0 /\ r_index r <> 0 /\
        vscale (r_index r) e = vadd (vscale (r_index r) u)
          (vscale (rsign (dot u n) * rul_order g * r_wavelength r / vlen kappa) (vscale (1 / vlen kappa) kappa))
    end.
Proof.
  unfold surface_local.
  assert (E : forall x, r_direction (match sf_aperture s with None => x | Some ap => clip_rays ap x end) = r_direction x)
    by (intros; destruct (sf_aperture s); reflexivity).
  assert (E' : forall x, r_position (match sf_aperture s with None => x | Some ap => clip_rays ap x end) = r_position x)
    by (intros; destruct (sf_aperture s); reflexivity).
  assert (E2 : forall x, r_index (match sf_aperture s with None => x | Some ap => clip_rays ap x end) = r_index x)
    by (intros; destruct (sf_aperture s); reflexivity).
  cbv zeta. rewrite E, E', E2. cbn [r_direction r_position r_index]. clear E E' E2.
  set (r1 := surface_incident s r). intros H.
  assert (P : r_position r1 = r_position (sag_propagate (sf_sag s) r)) by (unfold r1, surface_incident; destruct (sf_rulings s); reflexivity).
  assert (I : r_index r1 = r_index r) by (unfold r1, surface_incident; destruct (sf_rulings s); reflexivity).
  rewrite I in H. unfold surface_normal in H.
  destruct (r_direction r1) as [e|] eqn:Ee; [cbn [obind] in H|discriminate].
  destruct (r_position r1) as [q|] eqn:Eq; [cbn [obind] in H|discriminate].
  destruct (sag_normal (sf_sag s) q) as [n|] eqn:En; [cbn [obind] in H|discriminate].
  unfold r1, surface_incident in Ee. destruct (sf_rulings s) as [g|].
  - unfold rulings_effective in Ee. cbn [r_direction set_direction] in Ee. rewrite <- P in Ee. cbn [obind] in Ee.
    change (r_direction (sag_propagate (sf_sag s) r)) with (r_direction r) in Ee.
    change (r_index (sag_propagate (sf_sag s) r)) with (r_index r) in Ee.
    change (r_wavelength (sag_propagate (sf_sag s) r)) with (r_wavelength r) in Ee.
    destruct (r_direction r) as [u|]; [cbn [obind] in Ee|discriminate].
    unfold surface_normal in Ee. rewrite <- P in Ee. cbn [obind] in Ee. rewrite En in Ee. cbn [obind] in Ee.
    destruct (rul_spacing g q n) as [kappa|] eqn:Ek; [cbn [obind] in Ee|discriminate].
    destruct (odiv 1 (vlen kappa)) as [w|] eqn:Ew; [cbn [obind] in Ee|discriminate].
    apply odiv_some in Ew as (Hw & -> & _).
    unfold incident_effective in Ee.
    destruct (odiv 1 (r_index r * vlen kappa)) as [w|] eqn:Ew; [cbn [obind] in Ee|discriminate].
    apply odiv_some in Ew as (Hw' & -> & _). injection Ee as Ee.
    assert (Hi : r_index r <> 0) by (intros Z; apply Hw'; rewrite Z; ring).
    exists u, q, n, e. repeat split; auto. exists kappa. repeat split; auto.
    rewrite <- Ee. set (L := vlen kappa) in *. clearbody L. apply vec_eq; cbn; field; auto.
  - exists e, q, n, e. repeat split; auto.
Qed.

Lemma step_grating solver u r b x v c w : ruled_shaped solver u -> r_direction (surface_propagate (ru_surface u) r) = Some b ->
  r_position (surface_propagate (ru_surface u) r) = Some x -> moves c x v -> stays_on (ru_class u) (ru_surface u) c ->
  interior (ru_class u) (vx (local_point (ru_surface u) x)) (vy (local_point (ru_surface u) x)) ->
  groove_length u r (surface_propagate (ru_surface u) r) w ->
  (sf_rulings (ru_surface u) <> None -> forall d x n, r_direction r = Some d ->
     r_position (surface_propagate (ru_surface u) r) = Some x ->
     class_normal (ru_class u) (local_point (ru_surface u) x) = Some n -> dot (local_vector (ru_surface u) d) n <> 0) ->
  exists d N', r_direction r = Some d /\ is_unit b /\
    is_derive (fun t => w * ru_number u (local_point (ru_surface u) (c t))) 0 N' /\
    r_index (surface_propagate (ru_surface u) r) * dot b v = r_index r * dot d v + N'.
Proof.
  destruct u as [k s N]; cbn [ru_class ru_surface ru_number]. unfold ruled_shaped, groove_length; cbn [ru_class ru_surface ru_number].
  intros (Hs & Hrig & HN) Hb Hx Hm Hst Hi Hw Hg. destruct (surface_index s r) as [I1 I2].
  destruct (surface_frames s r x b Hrig Hx Hb) as [Hx' Hb'].
  destruct (ruled_local_step s _ _ Hb') as (u & q & n & e & Hu & Hq & Hn & Hsn & He).
  rewrite Hx' in Hq. injection Hq as <-. rewrite Hs in Hn. change (class_normal k (local_point s x) = Some n) in Hn.
  assert (Hun := class_unit _ _ _ Hn). rewrite I1, I2 in Hsn.
  assert (U := snells_law_unit _ _ _ _ _ _ Hun Hsn).
  assert (Ub : is_unit b) by (unfold is_unit, norm2 in *; rewrite local_dot in U by auto; exact U).
  assert (ML := moves_local s c x v Hm). assert (T := class_tangent k _ _ _ n Hi ML Hst Hn).
  destruct (snell_kick _ _ _ _ _ _ Hun Hsn) as [j Hj].
  assert (K := dot_kick _ _ _ j _ _ n Hj T). rewrite local_dot in K by auto.
  assert (Hd : exists d, r_direction r = Some d /\ u = local_vector s d).
  { unfold local_vector. destruct (sf_transformation s) as [t|]; cbn [apply_inverse] in Hu; [|eauto].
    unfold ray_transform in Hu; cbn [r_direction] in Hu. destruct (r_direction r) as [d|]; [|discriminate].
    cbn [omap] in Hu. injection Hu as <-. exists d. split; reflexivity. }
  destruct Hd as (d & Hd & ->). exists d.
  destruct (sf_rulings s) as [g|] eqn:Eg.
  - destruct He as (kappa & Hk & Hk0 & _ & He). rewrite I2 in He.
    destruct Hw as (d' & x' & n' & Hd' & Hx2 & Hn' & Hw). rewrite Hd in Hd'. injection Hd' as <-. rewrite Hx in Hx2. injection Hx2 as <-.
    rewrite Hn in Hn'. injection Hn' as <-.
    assert (D := HN _ _ _ n kappa ML Hn T Hk Hk0). cbv beta in D.
    exists (w * (dot (vscale (1 / vlen kappa) kappa) (local_vector s v) / vlen kappa)). split; [auto|]. split; [auto|].
    split; [apply (is_derive_scal (fun t => N (local_point s (c t)))); exact D|].
    assert (Hsg : rsign (dot (local_vector s d) n) = if Rlt_dec (dot (local_vector s d) n) 0 then -1 else 1).
    { assert (G := Hg ltac:(discriminate) d x n Hd Hx Hn). destruct (Rlt_dec _ 0) as [L|L]; [apply rsign_neg; auto|apply rsign_pos; lra]. }
    rewrite K, <- (dot_scale_l (r_index r) e), He, dot_add_l, !dot_scale_l, local_dot by auto.
    replace (r_wavelength (apply_inverse (sf_transformation s) r)) with (r_wavelength r) by (destruct (sf_transformation s); reflexivity).
    rewrite Hsg, Hw. set (L := vlen kappa) in *. clearbody L. field. auto.
  - exists 0. split; [auto|]. split; [auto|]. split.
    + rewrite Hw. apply (is_derive_ext (fun _ => 0)); [intros; symmetry; apply Rmult_0_l|apply (is_derive_const (V := R_NormedModule))].
    + rewrite K, He, local_dot by auto. ring.
Qed.

(** ** The whole path *)
Lemma derive_as (f g : R -> R) (d d' : R) : is_derive f 0 d -> (forall t : R, f t = g t) -> d = d' -> is_derive g 0 d'.
Proof. intros F E <-. exact (is_derive_ext f g 0 d E F). Qed.

Lemma derive_add3 n (f g h : R -> R) (df dg dh : R) : is_derive f 0 df -> is_derive g 0 dg -> is_derive h 0 dh ->
  is_derive (fun t => n * f t + g t + h t) 0 (n * df + dg + dh).
Proof. intros F G H. auto_derive; [repeat split; auto; eexists; eassumption|derivatives; ring]. Qed.

Lemma grating_variation solver : forall l r x d c0 v0 cs e ce ve b ws,
  List.Forall (ruled_shaped solver) l ->
  r_position r = Some x -> r_direction r = Some d -> is_unit d ->
  let ss := map ru_surface l in
  let rays := accumulate_rays surface_propagate (Sequence ss) r in
  forward r rays e -> varied (combine (map ru_class l) ss) rays cs ->
  groove_lengths l r rays ws -> not_grazing l r rays ->
  moves c0 x v0 -> moves ce e ve ->
  r_direction (propagate_rays surface_propagate (Sequence ss) r) = Some b ->
  is_derive (fun t => optical_length (r_index r) (c0 t) (combine (map r_index rays) (map (fun c => c t) cs)) (ce t)
                      + groove_sum l ws (map (fun c => c t) cs)) 0
    (r_index (propagate_rays surface_propagate (Sequence ss) r) * dot b ve - r_index r * dot d v0).
Proof.
  induction l as [|u l IH]; intros r x d c0 v0 cs e ce ve b ws Hl Hx Hd Hu ss rays Hf Hv Hw Hg H0 He Hb; unfold rays, ss in *; clear rays ss.
  - cbn in Hf, Hv, Hb |- *. destruct cs; [|contradiction]. cbn.
    destruct Hf as (x1 & d1 & T & Hx1 & Hd1 & HT & E). rewrite Hx in Hx1. injection Hx1 as <-.
    rewrite Hd in Hd1, Hb. injection Hd1 as <-. injection Hb as <-.
    assert (S := segment_derive c0 ce x e v0 ve d T H0 He Hu HT E).
    eapply is_derive_eq; [apply (is_derive_ext (fun t => r_index r * vlen (vsub (ce t) (c0 t)))); [intros; symmetry; apply Rplus_0_r|];
      apply (is_derive_scal (fun t => vlen (vsub (ce t) (c0 t)))); exact S|].
    rewrite dot_sub_r. ring.
  - cbn [map combine] in *. rewrite accumulate_cons in *. set (r' := surface_propagate (ru_surface u) r) in *.
    change (propagate_rays surface_propagate (Sequence (ru_surface u :: map ru_surface l)) r)
      with (propagate_rays surface_propagate (Sequence (map ru_surface l)) r') in *.
    apply Forall_cons_iff in Hl. destruct Hl as [Hs Hl].
    cbn [forward] in Hf. destruct Hf as [(p & Hp & x1 & d1 & T & Hx1 & Hd1 & HT & E) Hf].
    rewrite Hx in Hx1. injection Hx1 as <-. rewrite Hd in Hd1. injection Hd1 as <-.
    destruct cs as [|c cs]; [contradiction|]. cbn [varied] in Hv. destruct Hv as [(p' & v & Hp' & Hm & Hst & Hi) Hv].
    rewrite Hp in Hp'. injection Hp' as <-.
    destruct ws as [|w ws]; [contradiction|]. cbn [groove_lengths] in Hw. destruct Hw as [Hw Hws].
    cbn [not_grazing] in Hg. destruct Hg as [Hg Hgs].
    destruct (forward_direction _ _ _ Hf) as (p2 & d' & Hp2 & Hd'). clear p2 Hp2.
    destruct (step_grating solver u r d' p v c w Hs Hd' Hp Hm Hst Hi Hw Hg) as (d2 & N' & Hd2 & Hu' & DN & K).
    rewrite Hd in Hd2. injection Hd2 as <-. fold r' in K.
    assert (IHr := IH r' p d' c v cs e ce ve b ws Hl Hp Hd' Hu' Hf Hv Hws Hgs Hm He Hb). cbv zeta in IHr.
    assert (S := segment_derive c0 c x p v0 v d T H0 Hm Hu HT E).
    cbn [map combine optical_length groove_sum].
    eapply derive_as; [exact (derive_add3 (r_index r) _ _ _ _ _ _ S DN IHr)|intros t; cbv beta; ring|rewrite dot_sub_r; lra].
Qed.

Lemma grating_fermat solver l r d cs e ws :
  List.Forall (ruled_shaped solver) l -> r_direction r = Some d -> is_unit d ->
  let ss := map ru_surface l in
  let rays := accumulate_rays surface_propagate (Sequence ss) r in
  forward r rays e -> varied (combine (map ru_class l) ss) rays cs ->
  groove_lengths l r rays ws -> not_grazing l r rays ->
  exists x, r_position r = Some x /\
    is_derive (fun t => optical_length (r_index r) x (combine (map r_index rays) (map (fun c => c t) cs)) e
                        + groove_sum l ws (map (fun c => c t) cs)) 0 0.
Proof.
  intros Hl Hd Hu ss rays Hf Hv Hw Hg. destruct (forward_direction _ _ _ Hf) as (x & d' & Hx & _). exists x. split; [auto|].
  destruct (forward_last _ _ _ Hf) as [b Hb].
  assert (V := grating_variation solver l r x d (fun _ => x) vzero cs e (fun _ => e) vzero b ws Hl Hx Hd Hu Hf Hv Hw Hg
    (moves_still x) (moves_still e) Hb).
  eapply is_derive_eq; [exact V|]. unfold dot, vzero; cbn [vx vy vz]. ring.
Qed.

Lemma grating_malus solver l r x d c0 v0 cs e ce ve b ws L :
  List.Forall (ruled_shaped solver) l ->
  r_position r = Some x -> r_direction r = Some d -> is_unit d ->
  let ss := map ru_surface l in
  let rays := accumulate_rays surface_propagate (Sequence ss) r in
  forward r rays e -> varied (combine (map ru_class l) ss) rays cs ->
  groove_lengths l r rays ws -> not_grazing l r rays ->
  moves c0 x v0 -> moves ce e ve ->
  r_direction (propagate_rays surface_propagate (Sequence ss) r) = Some b ->
  r_index (propagate_rays surface_propagate (Sequence ss) r) <> 0 -> dot d v0 = 0 ->
  locally 0 (fun t => optical_length (r_index r) (c0 t) (combine (map r_index rays) (map (fun c => c t) cs)) (ce t)
                      + groove_sum l ws (map (fun c => c t) cs) = L) ->
  dot b ve = 0.
Proof.
  intros Hl Hx Hd Hu ss rays Hf Hv Hw Hg H0 He Hb Hn Ho HL.
  assert (V := grating_variation solver l r x d c0 v0 cs e ce ve b ws Hl Hx Hd Hu Hf Hv Hw Hg H0 He Hb).
  assert (E := same_derivative _ (fun _ => L) _ 0 HL V ltac:(apply (is_derive_const (V := R_NormedModule)))).
  rewrite Ho in E. apply (Rmult_eq_reg_l (r_index (propagate_rays surface_propagate (Sequence ss) r))); [|exact Hn].
  fold ss in E. lra.
Qed.

(** ** Groove numbers *)
Lemma derive_dot c x v g : moves c x v -> is_derive (fun t => dot (c t) g) 0 (dot v g).
Proof.
  intros (_ & A & B & Z).
  eapply derive_as; [exact (derive_row _ _ _ _ _ _ (vx g) (vy g) (vz g) 0 0 0 A B Z)|intros t; cbv beta|]; unfold dot; ring.
Qed.

Lemma scaled_direction c g v : is_unit g -> c <> 0 ->
  dot (vscale (1 / vlen (vscale c g)) (vscale c g)) v / vlen (vscale c g) = dot v g / c.
Proof.
  intros Hg Hc. assert (N : vlen (vscale c g) * vlen (vscale c g) = c * c).
  { unfold vlen. rewrite sqrt_def by apply norm2_nonneg. rewrite norm2_scale, Hg. ring. }
  assert (Z : vlen (vscale c g) <> 0) by (intros Z; rewrite Z in N; assert (P := sq_pos c Hc); lra).
  set (L := vlen (vscale c g)) in *. clearbody L. rewrite !dot_scale_l, (dot_comm g v).
  transitivity (c * dot v g / (L * L)); [field; auto|]. rewrite N. field. auto.
Qed.

Lemma constant_numbers k c g : c <> 0 -> is_unit g -> numbers k (constant_spacing c g) (fun p => dot p g / c).
Proof.
  intros Hc Hg a x v n kappa Hm _ _ Hk _. unfold constant_spacing in Hk. injection Hk as <-.
  rewrite scaled_direction by auto.
  eapply is_derive_eq; [apply (is_derive_ext (fun t => / c * dot (a t) g)); [intros; unfold Rdiv; apply Rmult_comm|];
    apply (is_derive_scal (fun t => dot (a t) g)); exact (derive_dot a x v g Hm)|]. unfold Rdiv. apply Rmult_comm.
Qed.

Lemma moves_rigid t c x v : moves c x v -> moves (fun u => rigid_point t (c u)) (rigid_point t x) (rigid_vector t v).
Proof.
  unfold moves, rigid_point, rigid_vector. intros (H0 & A & B & Z). split; [rewrite H0; reflexivity|].
  set (m := rg_mat t). set (h := rg_shift t). clearbody m h.
  destruct m as [[a1 a2 a3] [b1 b2 b3] [c1 c2 c3]]. unfold mapply, dot, vadd; cbn [vx vy vz mr1 mr2 mr3].
  split; [|split].
  - eapply derive_as; [exact (derive_add3 1 _ (fun _ => vx h) (fun _ => 0) _ 0 0 (derive_row _ _ _ _ _ _ a1 a2 a3 0 0 0 A B Z)
      ltac:(apply (is_derive_const (V := R_NormedModule))) ltac:(apply (is_derive_const (V := R_NormedModule))))|intros u; cbv beta|]; ring.
  - eapply derive_as; [exact (derive_add3 1 _ (fun _ => vy h) (fun _ => 0) _ 0 0 (derive_row _ _ _ _ _ _ b1 b2 b3 0 0 0 A B Z)
      ltac:(apply (is_derive_const (V := R_NormedModule))) ltac:(apply (is_derive_const (V := R_NormedModule))))|intros u; cbv beta|]; ring.
  - eapply derive_as; [exact (derive_add3 1 _ (fun _ => vz h) (fun _ => 0) _ 0 0 (derive_row _ _ _ _ _ _ c1 c2 c3 0 0 0 A B Z)
      ltac:(apply (is_derive_const (V := R_NormedModule))) ltac:(apply (is_derive_const (V := R_NormedModule))))|intros u; cbv beta|]; ring.
Qed.

Lemma polynomial_numbers k l g t P : is_unit g ->
  match t with None => True | Some t => is_rigid t /\ rigid_vector t g = g end ->
  (forall x, polynomial l x <> 0 -> is_derive P x (1 / polynomial l x)) ->
  numbers k (polynomial_spacing l g t) (fun p => P (dot (match t with None => p | Some t => rigid_point t p end) g)).
Proof.
  intros Hg Ht HP a x v n kappa Hm _ _ Hk Hk0. unfold polynomial_spacing in Hk.
  set (T := fun p => match t with None => p | Some t => rigid_point t p end).
  change (match t with None => x | Some t => rigid_point t x end) with (T x) in Hk. injection Hk as <-.
  assert (Z : polynomial l (dot (T x) g) <> 0).
  { intros Z. apply Hk0. rewrite Z. unfold vlen. rewrite norm2_scale, !Rmult_0_l. apply sqrt_0. }
  rewrite scaled_direction by auto.
  assert (M : exists v', moves (fun u => T (a u)) (T x) v' /\ dot v' g = dot v g).
  { unfold T. destruct t as [t|]; [|exists v; auto]. exists (rigid_vector t v). split; [apply moves_rigid; auto|].
    destruct Ht as [Ht Hv]. rewrite <- Hv at 1. apply orthogonal_dot. exact Ht. }
  destruct M as (v' & M & Ev). assert (E := proj1 M). cbv beta in E.
  assert (D := HP _ Z). rewrite <- E in D.
  eapply is_derive_eq; [apply (is_derive_comp P (fun u => dot (T (a u)) g)); [exact D|exact (derive_dot _ _ v' g M)]|].
  rewrite E, Ev. unfold scal, mult; simpl; unfold mult; simpl. field. auto.
Qed.

(** No function numbers the grooves if the transformation turns the polynomial away from them. *)
Definition turned : rigid := mkRigid (M3 (V3 0 1 0) (V3 (-1) 0 0) (V3 0 0 1)) vzero.
Lemma turned_rigid : is_rigid turned.
Proof. unfold is_rigid, orthogonal, turned; cbn [rg_mat]. apply mat_eq; apply vec_eq; vec_unfold; ring. Qed.
Lemma turned_spacing x n : polynomial_spacing [(0%nat, 2); (1%nat, 1)] (V3 1 0 0) (Some turned) x n = Some (vscale (2 + vy x) (V3 1 0 0)).
Proof.
  unfold polynomial_spacing. do 2 f_equal. unfold polynomial; cbn [fold_left fst snd]. rewrite pow_O, pow_1.
  unfold rigid_point, turned; cbn [rg_mat rg_shift]. vec_unfold. ring.
Qed.
Lemma derive_line (a b : R) : is_derive (fun t => a + t * b) 0 b.
Proof. auto_derive; [auto|ring]. Qed.
Lemma turned_derive N p v : numbers NoSag (polynomial_spacing [(0%nat, 2); (1%nat, 1)] (V3 1 0 0) (Some turned)) N ->
  vz v = 0 -> 0 < 2 + vy p -> is_derive (fun t => N (vadd p (vscale t v))) 0 (vx v / (2 + vy p)).
Proof.
  intros H Hv Hp. assert (U : is_unit (V3 1 0 0)) by (unfold is_unit; vec_unfold; ring).
  assert (M : moves (fun t => vadd p (vscale t v)) p v).
  { split; [vec_ring|]. unfold vadd, vscale; cbn [vx vy vz]. split; [apply derive_line|split; apply derive_line]. }
  assert (Z : vlen (vscale (2 + vy p) (V3 1 0 0)) <> 0).
  { unfold vlen. rewrite norm2_scale, U, Rmult_1_r, sqrt_square; lra. }
  assert (T : dot (V3 0 0 (-1)) v = 0) by (unfold dot; cbn [vx vy vz]; rewrite Hv; ring).
  assert (D := H _ p v (V3 0 0 (-1)) _ M eq_refl T (turned_spacing p _) Z).
  eapply is_derive_eq; [exact D|]. rewrite scaled_direction by (auto; lra). unfold dot; cbn [vx vy vz]. field. lra.
Qed.
Lemma turned_line N p v l : numbers NoSag (polynomial_spacing [(0%nat, 2); (1%nat, 1)] (V3 1 0 0) (Some turned)) N ->
  vz v = 0 -> (forall t, 0 <= t <= 1 -> 0 < 2 + vy p + t * vy v /\ vx v / (2 + vy p + t * vy v) = l) ->
  N (vadd p v) - N p = l.
Proof.
  intros H Hv Hl. set (f := fun t => N (vadd p (vscale t v))).
  assert (D : forall t, 0 <= t <= 1 -> is_derive f t l).
  { intros t Ht. destruct (Hl t Ht) as [H1 H2].
    assert (D := turned_derive N (vadd p (vscale t v)) v H Hv ltac:(cbn [vy vadd vscale]; lra)).
    replace (vx v / (2 + vy (vadd p (vscale t v)))) with l in D by (rewrite <- H2; cbn [vy vadd vscale]; f_equal; ring).
    assert (S : is_derive (fun u : R => u - t) t 1) by (auto_derive; [auto|ring]).
    assert (D' : is_derive (fun u => N (vadd (vadd p (vscale t v)) (vscale u v))) (t - t) l) by (rewrite Rminus_eq_0; exact D).
    assert (C := is_derive_comp (fun u => N (vadd (vadd p (vscale t v)) (vscale u v))) (fun u => u - t) t l 1 D' S).
    eapply is_derive_eq; [eapply is_derive_ext; [|exact C]|unfold scal; simpl; unfold mult; simpl; ring].
    intros u. cbv beta. unfold f. f_equal. vec_ring. }
  destruct (MVT_gen f 0 1 (fun _ => l)) as (c & _ & E).
  - intros t. rewrite Rmin_left, Rmax_right by lra. intros Ht. apply D. lra.
  - intros t. rewrite Rmin_left, Rmax_right by lra. intros Ht. apply continuity_pt_filterlim, (ex_derive_continuous f). exists l. apply D; auto.
  - unfold f in E. replace (vadd p (vscale 1 v)) with (vadd p v) in E by vec_ring. replace (vadd p (vscale 0 v)) with p in E by vec_ring. lra.
Qed.
Lemma turned_refuted : exists l g t, is_unit g /\ is_rigid t /\ (forall x, 0 <= x -> 0 < polynomial l x) /\
  forall N, ~ numbers NoSag (polynomial_spacing l g (Some t)) N.
Proof.
  exists [(0%nat, 2); (1%nat, 1)], (V3 1 0 0), turned. split; [unfold is_unit; vec_unfold; ring|]. split; [exact turned_rigid|]. split.
  - intros x Hx. unfold polynomial; cbn [fold_left fst snd]. rewrite pow_O, pow_1. lra.
  - intros N H.
    assert (A := turned_line N (V3 0 0 0) (V3 1 0 0) (1/2) H eq_refl ltac:(intros t Ht; cbn [vx vy]; split; [lra|field; lra])).
    assert (B := turned_line N (V3 0 1 0) (V3 1 0 0) (1/3) H eq_refl ltac:(intros t Ht; cbn [vx vy]; split; [lra|field; lra])).
    assert (C := turned_line N (V3 0 0 0) (V3 0 1 0) 0 H eq_refl ltac:(intros t Ht; cbn [vx vy]; split; [lra|field; lra])).
    assert (D := turned_line N (V3 1 0 0) (V3 0 1 0) 0 H eq_refl ltac:(intros t Ht; cbn [vx vy]; split; [lra|field; lra])).
    replace (vadd (V3 0 0 0) (V3 1 0 0)) with (V3 1 0 0) in A by vec_ring.
    replace (vadd (V3 0 1 0) (V3 1 0 0)) with (V3 1 1 0) in B by vec_ring.
    replace (vadd (V3 0 0 0) (V3 0 1 0)) with (V3 0 1 0) in C by vec_ring.
    replace (vadd (V3 1 0 0) (V3 0 1 0)) with (V3 1 1 0) in D by vec_ring. lra.
Qed.

Lemma distance_derive c x v y : moves c x v -> vlen (vsub x y) <> 0 ->
  is_derive (fun t => vlen (vsub (c t) y)) 0 (dot (vscale (1 / vlen (vsub x y)) (vsub x y)) v).
Proof.
  intros Hm Hz. set (L := vlen (vsub x y)) in *.
  assert (HL : 0 < L) by (assert (0 <= L) by apply sqrt_pos; lra).
  assert (N : L * L = norm2 (vsub x y)) by (apply sqrt_def, norm2_nonneg).
  eapply is_derive_eq.
  - apply (segment_derive (fun _ => y) c y x vzero v (vscale (1 / L) (vsub x y)) L (moves_still y) Hm); auto.
    + unfold is_unit. rewrite norm2_scale, <- N. field. lra.
    + clearbody L. apply vec_eq; cbn; field; lra.
  - rewrite dot_sub_r. unfold dot at 2; cbn. ring.
Qed.

Lemma holographic_numbers k x1 x2 w d1 d2 t : w <> 0 ->
  numbers k (holographic_spacing x1 x2 w d1 d2 t) (fun p => (beam_length d1 x1 p - beam_length d2 x2 p) / w).
Proof.
  intros Hw a x v n kappa Hm Hn Hv Hk Hk0. assert (Hun := class_unit _ _ _ Hn). unfold holographic_spacing in Hk.
  set (s1 := 2 * (if d1 then 1 else 0) - 1) in *. set (s2 := 2 * (if d2 then 1 else 0) - 1) in *.
  unfold normalized in Hk.
  destruct (odiv 1 (vlen (vsub x x1))) as [q1|] eqn:E1; [cbn [obind] in Hk|discriminate].
  destruct (odiv 1 (vlen (vsub x x2))) as [q2|] eqn:E2; [cbn [obind] in Hk|discriminate].
  apply odiv_some in E1 as (Z1 & -> & _). apply odiv_some in E2 as (Z2 & -> & _).
  assert (D1 := distance_derive a x v x1 Hm Z1). assert (D2 := distance_derive a x v x2 Hm Z2).
  set (r1 := vscale (1 / vlen (vsub x x1)) (vsub x x1)) in *. set (r2 := vscale (1 / vlen (vsub x x2)) (vsub x x2)) in *.
  set (dr := vsub (vscale s1 r1) (vscale s2 r2)) in *.
  assert (B1 : forall p, beam_length d1 x1 p = s1 * vlen (vsub p x1)) by (intros p; unfold beam_length, s1; destruct d1; ring).
  assert (B2 : forall p, beam_length d2 x2 p = s2 * vlen (vsub p x2)) by (intros p; unfold beam_length, s2; destruct d2; ring).
  assert (DN : is_derive (fun t => (beam_length d1 x1 (a t) - beam_length d2 x2 (a t)) / w) 0 (dot dr v / w)).
  { eapply derive_as; [exact (derive_row _ _ (fun _ => 0) _ _ 0 (s1 / w) (- s2 / w) 0 0 0 0 D1 D2
        ltac:(apply (is_derive_const (V := R_NormedModule))))| |].
    - intros u; cbv beta. rewrite B1, B2. field. auto.
    - unfold dr. rewrite dot_sub_l, !dot_scale_l. field. auto. }
  eapply is_derive_eq; [exact DN|].
  set (A := vlen (cross n dr)) in *. destruct (odiv 1 A) as [q|] eqn:Eq; [cbn [obind] in Hk|discriminate].
  apply odiv_some in Eq as (HA & -> & _). injection Hk as Hk.
  assert (NA : A * A = norm2 (tangential n dr)) by (unfold A, vlen; rewrite sqrt_def by apply norm2_nonneg; apply cross_norm; auto).
  assert (EK : kappa = vscale (w / (A * A)) (tangential n dr)).
  { rewrite <- Hk, <- (cross_cross n dr Hun). clearbody A. set (X := cross n dr). clearbody X. apply vec_eq; vec_unfold; field; auto. }
  assert (NK : vlen kappa * vlen kappa = w * w / (A * A)).
  { unfold vlen. rewrite sqrt_def by apply norm2_nonneg. rewrite EK, norm2_scale, <- NA. field. auto. }
  set (L := vlen kappa) in *. clearbody L. rewrite dot_scale_l.
  assert (DK : dot kappa v = w / (A * A) * dot dr v).
  { rewrite EK, dot_scale_l. f_equal. unfold tangential. rewrite dot_sub_l, dot_scale_l, Hv. ring. }
  transitivity (dot kappa v / (L * L)); [|field; auto]. rewrite NK, DK. field. auto.
Qed.
