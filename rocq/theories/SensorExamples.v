(** Concrete sensors, rays and tables; witnesses of the refuted properties. *)
From Coq Require Import Reals List Bool Sorted Lra Lia.
From Coquelicot Require Import Coquelicot.
From Verif Require Import Vec Num NumLemmas ExtNum RayModel ComplexModel ComplexLemmas LayerModel LayerProofs RamanathanModel SensorModel
  SensorSpec SensorCollectProofs DistSpec DistProofs SensorProofs SensorStatProofs.
Import ListNotations.
Open Scope R_scope.

(** Six pixels of 2 by 1 and two wavelength bins. *)
Definition sensor_a : imaging_sensor := mkSensor 2 1 2 3 5 4 Ideal.
Definition bins_a : list R := [1; 2; 4].
Definition ray_a : ray := mkRay 3 (Some (V3 (-1) 1 0)) (Some (V3 0 (3/5) (4/5))) (Some 7) 0 1 true.
(** On the edge between two pixels and two bins. *)
Definition ray_b : ray := mkRay 2 (Some (V3 0 (1/2) 0)) (Some (V3 0 0 1)) (Some 2) 0 1 true.
(** Outside the grid. *)
Definition ray_c : ray := mkRay 2 (Some (V3 9 0 0)) (Some (V3 0 0 1)) (Some 2) 0 1 true.

Lemma grid_a : good_grid sensor_a bins_a.
Proof.
  unfold good_grid. cbn. repeat split; try lra; try lia. repeat constructor; lra.
Qed.
Lemma inside_a : inside sensor_a bins_a ray_a.
Proof.
  split; [cbn; lra|]. eexists. split; [reflexivity|]. cbn. split; apply Rabs_le; lra.
Qed.
Lemma inside_b : inside sensor_a bins_a ray_b.
Proof.
  split; [cbn; lra|]. eexists. split; [reflexivity|]. cbn. split; apply Rabs_le; lra.
Qed.
Lemma outside_c : ~ inside sensor_a bins_a ray_c.
Proof. intros [_ (p & E & H & _)]. injection E as <-. cbn in H. rewrite Rabs_pos_eq in H by lra. lra. Qed.

(** A masked ray without a number for its intensity. *)
Definition lost (r : ray) : ray * bool := (set_intensity None r, false).
Lemma masked_flux : forall s wl r i, good_grid s wl -> r_intensity r = Some i -> r_unvignetted r = true -> inside s wl r ->
  exists c, In c (grid_cells s wl) /\ collect_image s wl [(r, true)] c = Some i /\
    collect_image s wl [(r, true); lost r] c = None.
Proof.
  intros s wl r i G I U X. destruct (one_ray s wl r i G I U X) as (c & C1 & _ & C3 & _).
  destruct (cell_exists s wl r G X) as [c0 E].
  destruct (cell_some _ _ _ _ G E) as (D1 & _).
  exists c0. split; [exact D1|].
  assert (V : collect_image s wl [(r, true)] c0 = Some i).
  { rewrite image_value by (intros rw [<-|[]] _; cbn; congruence). unfold sum_flux. cbn [filter].
    rewrite (proj2 (in_cell_iff s wl c0 (r, true)) E). cbn. unfold intensity_of, ray_where. rewrite I. cbn. rewrite U. cbn. f_equal. ring. }
  split; [exact V|]. unfold collect_image, histogram. apply (osum_none _ _ (lost r)).
  - apply filter_In. split; [right; left; reflexivity|].
    change (ray_cell s wl (fst (lost r))) with (ray_cell s wl r). rewrite E. apply cell_eqb_eq. reflexivity.
  - reflexivity.
Qed.
(** A masked ray without a direction. *)
Definition blind (r : ray) : ray * bool :=
  (mkRay (r_wavelength r) (r_position r) None (r_intensity r) (r_attenuation r) (r_index r) (r_unvignetted r), false).
Lemma masked_cosine : forall s wl r i, good_grid s wl -> r_intensity r = Some i -> 0 < i -> r_unvignetted r = true ->
  inside s wl r -> ray_cosine s (r, true) <> None ->
  exists c, In c (grid_cells s wl) /\ collect_direction s wl [(r, true)] c = ray_cosine s (r, true) /\
    collect_image s wl [(r, true); blind r] c = Some i /\
    collect_direction s wl [(r, true); blind r] c = None.
Proof.
  intros s wl r i G I P U X N. destruct (cell_exists s wl r G X) as [c E]. destruct (cell_some _ _ _ _ G E) as (D1 & _).
  exists c. split; [exact D1|].
  assert (HI : in_cell s wl c (r, true) = true) by (apply in_cell_iff, E).
  assert (HB : in_cell s wl c (blind r) = true) by (apply in_cell_iff; exact E).
  assert (W : ray_where (r, true) = true) by (unfold ray_where; cbn; exact U).
  assert (V : collect_image s wl [(r, true); blind r] c = Some i).
  { rewrite image_value by (intros rw [<-|[<-|[]]] _; cbn; congruence). unfold sum_flux. cbn [filter]. rewrite HI, HB.
    cbn [map rsum fold_right fst]. rewrite W. unfold intensity_of. cbn. rewrite I. f_equal. ring. }
  split; [|split; [exact V|]].
  - rewrite direction_value by (intros rw [<-|[]] _; split; [cbn; congruence | exact N]).
    unfold sum_flux. cbn [filter]. rewrite HI. cbn [map rsum fold_right fst]. rewrite W. unfold flux_of, intensity_of, cosine_of. cbn [fst obool].
    rewrite W, I. cbn [obool]. destruct (Rlt_dec 0 (i * 1 + 0)) as [Q|Q]; [|lra].
    destruct (ray_cosine s (r, true)) as [[re im]|]; [|congruence]. f_equal. cbn [Re Im fst snd]. f_equal; field; lra.
  - unfold collect_direction. rewrite V. destruct (Rlt_dec 0 i); [|contradiction].
    assert (M : histogram (fun rw => ray_cell s wl (fst rw)) (weighted Re s) [(r, true); blind r] c = None).
    { unfold histogram. apply (osum_none _ _ (blind r)).
      - apply filter_In. split; [right; left; reflexivity|]. change (ray_cell s wl (fst (blind r))) with (ray_cell s wl r). rewrite E. apply cell_eqb_eq. reflexivity.
      - unfold weighted, ray_flux, ray_cosine. cbn. rewrite I. reflexivity. }
    rewrite M. reflexivity.
Qed.

(** ** A silicon sensor *)
Definition n_a : C := (1, / (4 * PI)).
(** A table with one energy: two pairs on average at every temperature, more scattered at 0 K. *)
Definition table_a : pair_table := [mkRow hc [1/2; 0; 1/2] [1/2; 0; 1/2] [0; 1; 0]].
Definition silicon_a (W : R) : silicon := mkSilicon (fun _ => n_a) W 0 0.
Definition sensor_si (W : R) : imaging_sensor := mkSensor 1 1 1 1 5 4 (Silicon (silicon_a W)).

Lemma hc_pos : 0 < hc. Proof. unfold hc. lra. Qed.
Lemma energy_1 : photon_energy 1 = hc. Proof. unfold photon_energy. field. Qed.
Lemma einterp_first : forall right x y rest, einterp right x ((x, y) :: rest) = y.
Proof. intros. cbn. destruct (Rlt_dec x x); [lra|]. destruct rest; cbn; destruct (Req_EM_T x x); congruence. Qed.
Lemma temperature_0 : forall a b c, along_temperature 0 a b c = a.
Proof. intros. apply einterp_first. Qed.
Lemma temperature_300 : forall a b c, along_temperature 300 a b c = c.
Proof.
  intros. unfold along_temperature. cbn. destruct (Rlt_dec 300 0); [lra|]. destruct (Req_EM_T 300 0); [lra|].
  destruct (Rlt_dec 300 100); [lra|]. destruct (Req_EM_T 300 100); [lra|]. destruct (Rlt_dec 300 300); [lra|].
  destruct (Req_EM_T 300 300); congruence.
Qed.
Lemma yield_a : quantum_yield_ideal table_a 1 0 = Some 2.
Proof.
  unfold quantum_yield_ideal, energy_pair, table_a. rewrite energy_1. cbn [map]. unfold row_energy_pair. cbn [row_energy row_0K row_100K row_300K].
  rewrite einterp_first, temperature_0. unfold pair_cost, ediv_pos.
  replace (moment1 [1/2; 0; 1/2]) with 2 by (unfold moment1; cbn; lra).
  assert (H := hc_pos). destruct (Req_EM_T 2 0); [lra|]. cbn [ediv]. destruct (Req_EM_T (hc / 2) 0); [lra|]. cbn. f_equal. field. lra.
Qed.
Lemma fano_row : forall get, fano_at get 0 hc table_a = table_fano (get (mkRow hc [1/2; 0; 1/2] [1/2; 0; 1/2] [0; 1; 0])).
Proof. intros get. unfold fano_at, table_a. cbn [map row_energy]. apply einterp_first. Qed.
Lemma fano_0 : fano_factor table_a 1 0 = Some (1 / 2).
Proof.
  unfold fano_factor. rewrite energy_1, temperature_0, fano_row. cbn [row_0K]. unfold table_fano.
  replace (moment1 [1/2; 0; 1/2]) with 2 by (unfold moment1; cbn; lra).
  replace (moment2 [1/2; 0; 1/2]) with 5 by (unfold moment2; cbn; lra).
  cbn. destruct (Req_EM_T 2 0); [lra|]. cbn. f_equal. lra.
Qed.
Lemma fano_300 : fano_factor table_a 1 300 = Some 0.
Proof.
  unfold fano_factor. rewrite energy_1, temperature_300. unfold fano_at, table_a. cbn [map row_energy]. rewrite einterp_first.
  cbn [row_300K]. unfold table_fano.
  replace (moment1 [0; 1; 0]) with 2 by (unfold moment1; cbn; lra).
  replace (moment2 [0; 1; 0]) with 4 by (unfold moment2; cbn; lra).
  cbn. destruct (Req_EM_T 2 0); [lra|]. cbn. f_equal. lra.
Qed.
Lemma n_a_im : Im (n_a * RtoC 1)%C = / (4 * PI).
Proof. unfold n_a, Im. cbn. ring. Qed.
Lemma n_a_pos : 0 < / (4 * PI). Proof. apply Rinv_0_lt_compat. assert (H := PI_RGT_0). lra. Qed.
Lemma absorption_a : absorption_effective 1 n_a 1 = Some 1.
Proof. rewrite absorption_value by lra. rewrite n_a_im. f_equal. assert (H := PI_RGT_0). field. lra. Qed.
Lemma working_a : working table_a (Silicon (silicon_a 1)) 1 1.
Proof.
  cbn [working silicon_a si_n si_implant si_eta0 si_temperature]. repeat split; try lra.
  - cbn. lra.
  - rewrite n_a_im. apply n_a_pos.
  - exists 2. split; [apply yield_a | lra].
Qed.
Lemma n_a_nonzero : n_a <> RtoC 0.
Proof. apply (index_nonzero n_a 1). rewrite n_a_im. apply n_a_pos. Qed.
Lemma snell_a : snells_law_scalar 1 n_a n_a = Some (RtoC 1).
Proof. apply snell_identity; [apply n_a_nonzero | cbn; lra]. Qed.

(** Without an implant layer the exposure is not a number. *)
Lemma no_implant : forall tb s m t flux w d, sn_material s = Silicon m -> si_implant m = 0 -> expose tb s t flux w d = None.
Proof.
  intros tb s m t flux w d M I. unfold expose. rewrite M. cbn [material_signal]. unfold signal_expected.
  destruct (snells_law_scalar _ _ _); [|reflexivity]. cbn [obind]. destruct (absorption_effective _ _ _); [|reflexivity]. cbn [obind].
  destruct (quantum_yield_ideal _ _ _); [|reflexivity]. cbn [obind]. rewrite cce_none by (rewrite I; ring). reflexivity.
Qed.

(** ** Distributions of the efficiency *)
Ltac each := cbn; repeat (apply List.Forall_cons; [cbn; lra|]); apply List.Forall_nil.
Lemma efficiency_exists : forall x eta0, 0 < x -> 0 <= eta0 <= 1 ->
  exists eff, is_dist eff /\ List.Forall (fun pv => 0 <= snd pv <= 1) eff /\ mean eff = cce x eta0 /\ variance eff = var_cce x eta0.
Proof.
  intros x eta0 X E. destruct (cce_bounds x eta0 X E) as [_ C]. destruct (var_bounds x eta0 X E) as [V0 V1].
  set (c := cce x eta0) in *. set (V := var_cce x eta0) in *.
  assert (Q : 0 < V + c * c) by nra.
  set (h := (V + c * c) / c). set (p := c * c / (V + c * c)).
  assert (HP : 0 <= p <= 1).
  { unfold p. split; [apply Rdiv_le_0_compat; nra|]. apply Rmult_le_reg_r with (V + c * c); [exact Q|].
    replace (c * c / (V + c * c) * (V + c * c)) with (c * c) by (field; lra). lra. }
  assert (HH : 0 <= h <= 1).
  { unfold h. split; [apply Rdiv_le_0_compat; lra|]. apply Rmult_le_reg_r with c; [exact C|].
    replace ((V + c * c) / c * c) with (V + c * c) by (field; lra). lra. }
  exists [(p, h); (1 - p, 0)].
  assert (D : is_dist [(p, h); (1 - p, 0)]).
  { split; [each|]. unfold expect. cbn. lra. }
  split; [exact D|]. split; [each|].
  assert (M : mean [(p, h); (1 - p, 0)] = c).
  { unfold mean, expect. cbn. unfold p, h. field. split; lra. }
  split; [exact M|]. rewrite variance_second by apply D. rewrite M. unfold second, expect. cbn. unfold p, h. field. split; lra.
Qed.

Lemma compound_vmr_unique : forall l d v v', is_compound_vmr l d v -> is_compound_vmr l d v' -> v = v'.
Proof.
  intros l d v v' (m & s & H1 & H2 & _ & ->) (m' & s' & H1' & H2' & _ & ->).
  apply is_series_unique in H1, H1'. rewrite H1 in H1'. subst m'. apply is_series_unique in H2, H2'. rewrite H2 in H2'. subst s'. reflexivity.
Qed.
Definition pairs_a : list (R * nat) := [(1/2, 1%nat); (1/2, 3%nat)].
Lemma pairs_a_dist : is_dist (counts pairs_a) /\ mean (counts pairs_a) = 2 /\ variance (counts pairs_a) = 1 / 2 * 2.
Proof.
  assert (M : mean (counts pairs_a) = 2) by (unfold mean, expect; cbn; lra).
  assert (D : is_dist (counts pairs_a)) by (split; [each | unfold expect; cbn; lra]).
  split; [exact D|]. split; [exact M|]. rewrite variance_second by apply D. rewrite M. unfold second, expect. cbn. lra.
Qed.
Definition pairs_b : list (R * nat) := [(1, 2%nat)].
Lemma pairs_b_dist : is_dist (counts pairs_b) /\ mean (counts pairs_b) = 2 /\ variance (counts pairs_b) = 0 * 2.
Proof.
  assert (M : mean (counts pairs_b) = 2) by (unfold mean, expect; cbn; lra).
  assert (D : is_dist (counts pairs_b)) by (split; [each | unfold expect; cbn; lra]).
  split; [exact D|]. split; [exact M|]. rewrite variance_second by apply D. rewrite M. unfold second, expect. cbn. lra.
Qed.

Lemma wrong_temperature : exists tb w d n ns W eta0 T d' a q F c V pairs eff v, snells_law_scalar d n ns = Some d' /\
  absorption_effective w ns d' = Some a /\ 0 < a /\ 0 < W /\ 0 <= eta0 <= 1 /\
  quantum_yield_ideal tb w T = Some q /\ 0 < q /\ fano_factor tb w T = Some F /\
  is_depth_mean a (differential_efficiency eta0 W) c /\
  is_depth_mean a (fun z => (differential_efficiency eta0 W z - c) ^ 2) V /\
  is_dist (counts pairs) /\ mean (counts pairs) = q /\ variance (counts pairs) = F * q /\
  is_dist eff /\ mean eff = c /\ variance eff = V /\
  vmr_signal tb w d n ns W eta0 T true true true = Some v /\
  forall l, 0 < l -> ~ is_compound_vmr l (thinned pairs eff) v.
Proof.
  destruct (efficiency_exists (1 * 1) 0 ltac:(lra) ltac:(lra)) as (eff & D & _ & M & V).
  destruct pairs_a_dist as (PD & PM & PV).
  exists table_a, 1, (RtoC 1), n_a, n_a, 1, 0, 0, (RtoC 1), 1, 2, (1 / 2), (cce (1 * 1) 0), (var_cce (1 * 1) 0), pairs_a, eff.
  eexists. split; [apply snell_a|]. split; [apply absorption_a|]. split; [lra|]. split; [lra|]. split; [lra|].
  split; [apply yield_a|]. split; [lra|]. split; [apply fano_0|].
  split; [apply cce_depth_mean; lra|]. split; [apply variance_depth_mean; lra|].
  split; [exact PD|]. split; [exact PM|]. split; [exact PV|]. split; [exact D|]. split; [exact M|]. split; [exact V|].
  split; [apply (vmr_value table_a 1 1 n_a n_a 1 0 0 1 1 2 0 snell_a absorption_a); try lra; [apply yield_a | apply fano_300]|].
  cbv zeta. intros l L H.
  destruct (cce_bounds (1 * 1) 0 ltac:(lra) ltac:(lra)) as [_ C]. destruct (var_bounds (1 * 1) 0 ltac:(lra) ltac:(lra)) as [V0 _].
  assert (T := thinned_ratio pairs_a eff 2 (1 / 2) _ _ PD D PM PV M V ltac:(lra) ltac:(lra) l L).
  assert (U := compound_vmr_unique _ _ _ _ H T). assert (Z : 0 <= var_cce (1 * 1) 0 / cce (1 * 1) 0) by (apply Rdiv_le_0_compat; lra).
  lra.
Qed.
