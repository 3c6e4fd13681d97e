(** A ray for the theorems about optical lengths over gratings. *)
From Coq Require Import Reals Lra List Psatz.
From Coquelicot Require Import Coquelicot.
From Verif Require Import Vec VecLemmas Num NumLemmas RayModel SurfaceModel MaterialModel SnellModel SnellSpec SnellProofs RulingModel
  SagModel SagSpec SequenceSpec SequenceProofs FocusSpec FocusProofs FocusExamples InvariantSpec InvariantProofs InvariantExamples
  FermatSpec FermatProofs GratingSpec GratingProofs.
Import ListNotations.
Open Scope R_scope.

(** A concave grating on a paraboloid, order 1, 5/3 wavelengths per groove, and a flat mirror. *)
Definition lines : rulings := mkRulings 1 (constant_spacing (5/3) (V3 1 0 0)) (fun _ _ => Some 1).
Definition concave : surface := mkSurface (make_sag no_solver (ParabolicSag 1) None) mirror None (Some lines) None.
Definition flat_back : surface := bare mirror NoSag (Some (mkRigid mid (V3 0 0 (-4)))).
Definition incidence : ray := light 1 (V3 0 0 (-3)) (V3 0 0 1).
Definition spectrograph : list ruled :=
  [mkRuled (ParabolicSag 1) concave (fun p => dot p (V3 1 0 0) / (5/3)); mkRuled NoSag flat_back (fun _ => 0)].
Definition bend (t : R) : vec3 := V3 t 0 (t * t / 4).
Definition drift (t : R) : vec3 := V3 (-3 + t) t (-4).

Lemma concave_normal : class_normal (ParabolicSag 1) (V3 0 0 0) = Some (V3 0 0 (-1)).
Proof.
  cbn [class_normal]. unfold parabola_normal; cbn [vx vy vz]. rewrite !odiv_nz by lra. cbn [obind].
  replace (0 / (2 * 1) * (0 / (2 * 1)) + 0 / (2 * 1) * (0 / (2 * 1)) + 1) with 1 by field. rewrite sqrt_1, odiv_nz by lra. cbn [obind].
  f_equal. apply vec_eq; vnum.
Qed.
Lemma concave_hit : parabola_intercept 1 (V3 0 0 (-3)) (V3 0 0 1) = Some (V3 0 0 0).
Proof.
  unfold parabola_intercept; cbn [vx vy vz]. destruct (Rlt_dec _ _) as [H|_].
  - exfalso. assert (0 < 1 / 10 ^ 10) by (apply Rdiv_lt_0_compat; [lra|apply pow_lt; lra]). lra.
  - rewrite odiv_nz by lra. cbn [obind]. f_equal. apply vec_eq; vnum.
Qed.
Lemma after_concave : r_position (surface_propagate concave incidence) = Some (V3 0 0 0) /\
  r_direction (surface_propagate concave incidence) = Some (V3 (-3/5) 0 (-4/5)) /\ r_index (surface_propagate concave incidence) = 1.
Proof.
  assert (P : r_position (sag_propagate (sf_sag concave) incidence) = Some (V3 0 0 0)) by exact concave_hit.
  assert (N : sag_normal (sf_sag concave) (V3 0 0 0) = Some (V3 0 0 (-1))) by exact concave_normal.
  assert (P' : r_position (surface_incident concave incidence) = Some (V3 0 0 0)) by exact P.
  assert (D : r_direction (surface_incident concave incidence) = Some (V3 (-3/5) 0 1)).
  { unfold surface_incident. change (sf_rulings concave) with (Some lines). cbv iota. unfold rulings_effective. cbn [r_direction set_direction].
    unfold surface_normal. rewrite P. cbn [obind]. rewrite N. cbn [obind].
    change (r_direction (sag_propagate (sf_sag concave) incidence)) with (Some (V3 0 0 1)). cbn [obind].
    change (rul_spacing lines (V3 0 0 0) (V3 0 0 (-1))) with (Some (vscale (5/3) (V3 1 0 0))). cbn [obind].
    replace (vlen (vscale (5/3) (V3 1 0 0))) with (5/3).
    2: { unfold vlen. replace (norm2 (vscale (5/3) (V3 1 0 0))) with (5/3 * (5/3)) by (vec_unfold; field). rewrite sqrt_square; lra. }
    rewrite odiv_nz by lra. cbn [obind]. unfold incident_effective.
    change (r_index (sag_propagate (sf_sag concave) incidence)) with 1.
    change (r_wavelength (sag_propagate (sf_sag concave) incidence)) with 1.
    change (rul_order lines) with 1. rewrite odiv_nz by lra. cbn [obind].
    rewrite rsign_neg by (vec_unfold; lra). f_equal. apply vec_eq; vnum. }
  split; [exact P'|]. split; [|reflexivity].
  unfold surface_propagate; cbn [sf_transformation concave apply_transformation apply_inverse].
  unfold surface_local; cbn [sf_aperture concave r_direction]. fold concave. rewrite D. cbn [obind].
  unfold surface_normal. rewrite P'. cbn [obind]. rewrite N. cbn [obind].
  change (snells_law (V3 (-3/5) 0 1) 1 1 true (V3 0 0 (-1)) = Some (V3 (-3/5) 0 (-4/5))).
  apply snells_law_complete; try lra; [unfold is_unit; vnum| |unfold is_unit; vnum|unfold tangential; apply vec_eq; vnum|vnum]; vnum.
Qed.
Lemma after_back r : r_position r = Some (V3 0 0 0) -> r_direction r = Some (V3 (-3/5) 0 (-4/5)) -> r_index r = 1 ->
  r_position (surface_propagate flat_back r) = Some (V3 (-3) 0 (-4)) /\
  r_direction (surface_propagate flat_back r) = Some (V3 (-3/5) 0 (4/5)) /\ r_index (surface_propagate flat_back r) = 1.
Proof.
  intros Hp Hd Hi.
  assert (L1 : local_point flat_back (V3 0 0 0) = V3 0 0 4) by (unfold local_point, flat_back, mid, mtrans, mapply; cbn; apply vec_eq; vnum).
  assert (L2 : local_vector flat_back (V3 (-3/5) 0 (-4/5)) = V3 (-3/5) 0 (-4/5))
    by (unfold local_vector, flat_back, mid, mtrans, mapply; cbn; apply vec_eq; vnum).
  destruct (bare_out mirror NoSag (Some (mkRigid mid (V3 0 0 (-4)))) r (V3 0 0 0) (V3 (-3/5) 0 (-4/5)) (V3 (-3) 0 0) (V3 0 0 (-1)) 1
    (V3 (-3/5) 0 (4/5)) Hp Hd) as (E1 & E2 & E3).
  - fold flat_back. rewrite L1, L2. cbn. unfold flat_intercept; cbn [vx vy vz]. rewrite odiv_nz by lra. cbn [obind]. f_equal. apply vec_eq; vnum.
  - reflexivity.
  - intros r' E. cbn. rewrite E; exact Hi.
  - fold flat_back. rewrite L2, Hi. change (mat_is_mirror mirror) with true. refracted.
  - fold flat_back in *. split; [|split; [|exact E3]].
    + rewrite E1. unfold place, flat_back, rigid_point, mid, mapply; cbn. f_equal. apply vec_eq; vnum.
    + rewrite E2. unfold place_vector, flat_back, rigid_vector, mid, mapply; cbn. f_equal. apply vec_eq; vnum.
Qed.

Lemma ex_grating : let rays := accumulate_rays surface_propagate (Sequence (map ru_surface spectrograph)) incidence in
  List.Forall (ruled_shaped no_solver) spectrograph /\ is_unit (V3 0 0 1) /\ forward incidence rays (V3 (-6) 0 0) /\
  varied (combine (map ru_class spectrograph) (map ru_surface spectrograph)) rays [bend; drift] /\
  groove_lengths spectrograph incidence rays [-1; 0] /\ not_grazing spectrograph incidence rays /\
  r_direction (propagate_rays surface_propagate (Sequence (map ru_surface spectrograph)) incidence) = Some (V3 (-3/5) 0 (4/5)).
Proof.
  intros rays. destruct after_concave as (P1 & D1 & I1). destruct (after_back _ P1 D1 I1) as (P2 & D2 & I2).
  unfold rays, spectrograph; cbn [map ru_surface ru_class combine]. rewrite !accumulate_cons. cbn [accumulate_rays accumulate_loop as_list].
  split; [|split; [unfold is_unit; vnum|split; [|split; [|split; [|split; [|exact D2]]]]]].
  - constructor; [|constructor; [|constructor]].
    + split; [reflexivity|]. split; [exact I|]. cbn. apply constant_numbers; [lra|unfold is_unit; vnum].
    + split; [reflexivity|]. split; [cbn; apply mid_rigid|exact I].
  - cbn [forward]. split; [exists (V3 0 0 0); split; [exact P1|]; exists (V3 0 0 (-3)), (V3 0 0 1), 3|].
    { repeat split; [lra|apply vec_eq; vnum]. }
    split; [exists (V3 (-3) 0 (-4)); split; [exact P2|]; exists (V3 0 0 0), (V3 (-3/5) 0 (-4/5)), 5|].
    { split; [exact P1|]. split; [exact D1|]. split; [lra|apply vec_eq; vnum]. }
    exists (V3 (-3) 0 (-4)), (V3 (-3/5) 0 (4/5)), 5. split; [exact P2|]. split; [exact D2|]. split; [lra|apply vec_eq; vnum].
  - cbn [varied]. split; [|split; [|exact I]].
    + exists (V3 0 0 0), (V3 1 0 0). split; [exact P1|]. split; [|split; [|cbn; lra]].
      * split; [unfold bend; apply vec_eq; cbn; field|]. cbn [vx vy vz bend]. split; [|split]; auto_derive; auto; field.
      * unfold stays_on; apply filter_forall; intros t. change (local_point concave (bend t)) with (bend t).
        unfold on_graph, bend; cbn [class_z vx vy vz]. unfold parabola_z, conic_z. rewrite odiv_nz by lra. cbn [obind].
        match goal with |- context [osqrt ?x] => replace x with (1 * 1) by field end.
        rewrite osqrt_sq by lra. cbn [obind]. rewrite odiv_nz by lra. f_equal. field.
    + exists (V3 (-3) 0 (-4)), (V3 1 1 0). split; [exact P2|]. split; [|split; [|exact I]].
      * split; [unfold drift; apply vec_eq; cbn; ring|]. cbn [vx vy vz drift]. split; [|split]; auto_derive; auto; ring.
      * unfold stays_on; apply filter_forall; intros t. unfold on_graph, class_z, flat_z. f_equal.
        unfold local_point, flat_back, drift, mid, mtrans, mapply; cbn. vnum.
  - cbn [groove_lengths]. split; [|split; [reflexivity|exact I]].
    unfold groove_length; cbn. exists (V3 0 0 1), (V3 0 0 0), (V3 0 0 (-1)). split; [reflexivity|]. split; [exact P1|].
    split; [exact concave_normal|]. destruct (Rlt_dec _ _) as [_|H]; [lra|exfalso; apply H; vec_unfold; lra].
  - cbn [not_grazing]. split; [|split; [intros H; exfalso; apply H; reflexivity|exact I]].
    intros _ d x n Hd Hx Hn. cbn [ru_surface ru_class] in *. rewrite P1 in Hx. injection Hx as <-.
    change (Some (V3 0 0 1) = Some d) in Hd. injection Hd as <-.
    change (class_normal (ParabolicSag 1) (V3 0 0 0) = Some n) in Hn. rewrite concave_normal in Hn. injection Hn as <-.
    change (local_vector concave (V3 0 0 1)) with (V3 0 0 1). vec_unfold. lra.
Qed.

(** ** A plane wave on a flat grating *)
Definition flat_lines : surface := mkSurface (make_sag no_solver NoSag None) mirror None (Some lines) None.
Lemma flat_lines_normal : class_normal NoSag (V3 0 0 0) = Some (V3 0 0 (-1)).
Proof. reflexivity. Qed.
Lemma flat_lines_hit : flat_intercept (V3 0 0 (-3)) (V3 0 0 1) = Some (V3 0 0 0).
Proof. unfold flat_intercept; cbn [vx vy vz]. rewrite odiv_nz by lra. cbn [obind]. f_equal. apply vec_eq; vnum. Qed.
Lemma after_flat_lines : r_position (surface_propagate flat_lines incidence) = Some (V3 0 0 0) /\
  r_direction (surface_propagate flat_lines incidence) = Some (V3 (-3/5) 0 (-4/5)) /\ r_index (surface_propagate flat_lines incidence) = 1.
Proof.
  assert (P : r_position (sag_propagate (sf_sag flat_lines) incidence) = Some (V3 0 0 0)) by exact flat_lines_hit.
  assert (N : sag_normal (sf_sag flat_lines) (V3 0 0 0) = Some (V3 0 0 (-1))) by exact flat_lines_normal.
  assert (P' : r_position (surface_incident flat_lines incidence) = Some (V3 0 0 0)) by exact P.
  assert (D : r_direction (surface_incident flat_lines incidence) = Some (V3 (-3/5) 0 1)).
  { unfold surface_incident. change (sf_rulings flat_lines) with (Some lines). cbv iota. unfold rulings_effective. cbn [r_direction set_direction].
    unfold surface_normal. rewrite P. cbn [obind]. rewrite N. cbn [obind].
    change (r_direction (sag_propagate (sf_sag flat_lines) incidence)) with (Some (V3 0 0 1)). cbn [obind].
    change (rul_spacing lines (V3 0 0 0) (V3 0 0 (-1))) with (Some (vscale (5/3) (V3 1 0 0))). cbn [obind].
    replace (vlen (vscale (5/3) (V3 1 0 0))) with (5/3).
    2: { unfold vlen. replace (norm2 (vscale (5/3) (V3 1 0 0))) with (5/3 * (5/3)) by (vec_unfold; field). rewrite sqrt_square; lra. }
    rewrite odiv_nz by lra. cbn [obind]. unfold incident_effective.
    change (r_index (sag_propagate (sf_sag flat_lines) incidence)) with 1.
    change (r_wavelength (sag_propagate (sf_sag flat_lines) incidence)) with 1.
    change (rul_order lines) with 1. rewrite odiv_nz by lra. cbn [obind].
    rewrite rsign_neg by (vec_unfold; lra). f_equal. apply vec_eq; vnum. }
  split; [exact P'|]. split; [|reflexivity].
  unfold surface_propagate; cbn [sf_transformation flat_lines apply_transformation apply_inverse].
  unfold surface_local; cbn [sf_aperture flat_lines r_direction]. fold flat_lines. rewrite D. cbn [obind].
  unfold surface_normal. rewrite P'. cbn [obind]. rewrite N. cbn [obind].
  change (snells_law (V3 (-3/5) 0 1) 1 1 true (V3 0 0 (-1)) = Some (V3 (-3/5) 0 (-4/5))).
  apply snells_law_complete; try lra; [unfold is_unit; vnum| |unfold is_unit; vnum|unfold tangential; apply vec_eq; vnum|vnum]; vnum.
Qed.

Definition wave_start (t : R) : vec3 := V3 t 0 (-3).
Definition wave_foot (t : R) : vec3 := V3 t 0 0.
Definition wave_end (t : R) : vec3 := V3 (-3 + 16/25 * t) 0 (-4 - 12/25 * t).
Lemma ex_wave : let l := [mkRuled NoSag flat_lines (fun p => dot p (V3 1 0 0) / (5/3))] in
  let rays := accumulate_rays surface_propagate (Sequence (map ru_surface l)) incidence in
  List.Forall (ruled_shaped no_solver) l /\ is_unit (V3 0 0 1) /\ forward incidence rays (V3 (-3) 0 (-4)) /\
  varied (combine (map ru_class l) (map ru_surface l)) rays [wave_foot] /\
  groove_lengths l incidence rays [-1] /\ not_grazing l incidence rays /\
  moves wave_start (V3 0 0 (-3)) (V3 1 0 0) /\ moves wave_end (V3 (-3) 0 (-4)) (V3 (16/25) 0 (-12/25)) /\
  r_direction (propagate_rays surface_propagate (Sequence (map ru_surface l)) incidence) = Some (V3 (-3/5) 0 (-4/5)) /\
  r_index (propagate_rays surface_propagate (Sequence (map ru_surface l)) incidence) <> 0 /\ dot (V3 0 0 1) (V3 1 0 0) = 0 /\
  locally 0 (fun t => optical_length (r_index incidence) (wave_start t) (combine (map r_index rays) (map (fun c => c t) [wave_foot])) (wave_end t)
                      + groove_sum l [-1] (map (fun c => c t) [wave_foot]) = 8).
Proof.
  intros l rays. destruct after_flat_lines as (P1 & D1 & I1).
  unfold rays, l; cbn [map ru_surface ru_class combine]. rewrite !accumulate_cons. cbn [accumulate_rays accumulate_loop as_list].
  split; [|split; [unfold is_unit; vnum|split; [|split; [|split; [|split; [|split; [|split; [|split; [exact D1|split; [|split; [vnum|]]]]]]]]]]].
  - constructor; [|constructor]. split; [reflexivity|]. split; [exact I|]. cbn. apply constant_numbers; [lra|unfold is_unit; vnum].
  - cbn [forward]. split; [exists (V3 0 0 0); split; [exact P1|]; exists (V3 0 0 (-3)), (V3 0 0 1), 3|].
    { repeat split; [lra|apply vec_eq; vnum]. }
    exists (V3 0 0 0), (V3 (-3/5) 0 (-4/5)), 5. split; [exact P1|]. split; [exact D1|]. split; [lra|apply vec_eq; vnum].
  - cbn [varied]. split; [|exact I]. exists (V3 0 0 0), (V3 1 0 0). split; [exact P1|]. split; [|split; [|exact I]].
    + split; [reflexivity|]. cbn [vx vy vz wave_foot]. split; [|split]; auto_derive; auto; ring.
    + unfold stays_on; apply filter_forall; intros t. reflexivity.
  - cbn [groove_lengths]. split; [|exact I].
    unfold groove_length; cbn. exists (V3 0 0 1), (V3 0 0 0), (V3 0 0 (-1)). split; [reflexivity|]. split; [exact P1|].
    split; [reflexivity|]. destruct (Rlt_dec _ _) as [_|H]; [lra|exfalso; apply H; vec_unfold; lra].
  - cbn [not_grazing]. split; [|exact I].
    intros _ d x n Hd Hx Hn. cbn [ru_surface ru_class] in *.
    change (Some (V3 0 0 1) = Some d) in Hd. injection Hd as <-. cbn [class_normal] in Hn. injection Hn as <-.
    change (local_vector flat_lines (V3 0 0 1)) with (V3 0 0 1). vec_unfold. lra.
  - split; [reflexivity|]. cbn [vx vy vz wave_start]. split; [|split]; auto_derive; auto; ring.
  - split; [unfold wave_end; apply vec_eq; cbn; field|]. cbn [vx vy vz wave_end]. split; [|split]; auto_derive; auto; field.
  - change (r_index (surface_propagate flat_lines incidence) <> 0). rewrite I1. lra.
  - exists (mkposreal 1 Rlt_0_1). intros t Ht. change (Rabs (t + - 0) < 1) in Ht. apply Rabs_def2 in Ht.
    assert (U : forall a w, 0 < w -> norm2 a = w * w -> vlen a = w).
    { intros a w H E. unfold vlen. rewrite E. apply sqrt_square; lra. }
    cbn [map combine optical_length groove_sum ru_number ru_surface]. rewrite I1. change (r_index incidence) with 1.
    change (local_point flat_lines (wave_foot t)) with (wave_foot t).
    rewrite (U (vsub (wave_foot t) (wave_start t)) 3) by (try lra; unfold wave_foot, wave_start; vec_unfold; field).
    rewrite (U (vsub (wave_end t) (wave_foot t)) (5 + 3/5 * t)) by (try lra; unfold wave_foot, wave_end; vec_unfold; field).
    unfold wave_foot. vec_unfold. field.
Qed.

(** Spacings with grooves on a plane. *)
Lemma ex_polynomial : (forall x, polynomial [(0%nat, 2); (1%nat, 1)] x <> 0 ->
    is_derive (fun x => ln (Rabs (2 + x))) x (1 / polynomial [(0%nat, 2); (1%nat, 1)] x)).
Proof.
  intros x. unfold polynomial; cbn [fold_left fst snd]. rewrite Rplus_0_l, pow_O, pow_1, Rmult_1_l, Rmult_1_r. intros H.
  destruct (Rlt_dec 0 (2 + x)) as [L|L].
  - apply (is_derive_ext_loc (fun x => ln (2 + x))).
    + exists (mkposreal _ L). intros y Hy. change (Rabs (y + - x) < 2 + x) in Hy. apply Rabs_def2 in Hy.
      rewrite Rabs_pos_eq by lra. reflexivity.
    + auto_derive; [lra|field; auto].
  - apply (is_derive_ext_loc (fun x => ln (- (2 + x)))).
    + assert (L' : 0 < - (2 + x)) by lra. exists (mkposreal _ L'). intros y Hy. change (Rabs (y + - x) < - (2 + x)) in Hy.
      apply Rabs_def2 in Hy. rewrite Rabs_left by lra. reflexivity.
    + auto_derive; [lra|field; auto].
Qed.
Lemma ex_holographic : exists kappa, class_normal NoSag (V3 0 0 0) = Some (V3 0 0 (-1)) /\
  holographic_spacing (V3 0 0 (-1)) (V3 3 0 (-4)) 1 true false None (V3 0 0 0) (V3 0 0 (-1)) = Some kappa /\ vlen kappa <> 0.
Proof.
  exists (V3 (-5/3) 0 0). split; [reflexivity|].
  assert (U : forall a w, 0 < w -> norm2 a = w * w -> vlen a = w).
  { intros a w H E. unfold vlen. rewrite E. apply sqrt_square; lra. }
  split.
  - unfold holographic_spacing, normalized.
    rewrite (U (vsub (V3 0 0 0) (V3 0 0 (-1))) 1) by (try lra; vec_unfold; field).
    rewrite (U (vsub (V3 0 0 0) (V3 3 0 (-4))) 5) by (try lra; vec_unfold; field).
    rewrite !odiv_nz by lra. cbn [obind].
    match goal with |- context [vlen ?a] => replace (vlen a) with (3/5) by (symmetry; apply U; [lra|vec_unfold; field]) end.
    rewrite odiv_nz by lra. cbn [obind]. f_equal. apply vec_eq; vec_unfold; field.
  - rewrite (U _ (5/3)); [lra|lra|vec_unfold; field].
Qed.
