(** The mean number of electrons of the Monte Carlo model. *)
From Coq Require Import Reals List ZArith Sorted Lra Lia.
From Coquelicot Require Import Coquelicot.
From Verif Require Import Num NumLemmas ExtNum MaterialModel ComplexModel LayerModel RamanathanModel SensorModel SensorSpec SensorProofs DistSpec DistProofs DepthProofs MonteCarloMeanSpec.
Import ListNotations.
Open Scope R_scope.
Open Scope opt_scope.

(** ** The number of pairs *)
Definition pair_value (x : R) (cmf : list R) (n : list Z) : R :=
  match select_pairs x cmf n with Some m => IZR m | None => 0 end.
Definition table_mean (p : list R) (n : list Z) : R := rsum (map (fun pn => IZR (snd pn) * fst pn) (combine p n)).

Lemma rsum_nonneg' : forall p, List.Forall (fun q => 0 <= q) p -> 0 <= rsum p.
Proof. intros p F. induction F as [|q p Q F IH]; cbn in *; [lra|]. fold (rsum p) in *. lra. Qed.

Lemma select_cons : forall x c cs m ms, cs <> [] -> select_pairs x (c :: cs) (m :: ms) = if Rlt_dec x c then Some m else select_pairs x cs ms.
Proof. intros x c [|d cs] m ms H; [contradiction | reflexivity]. Qed.

Lemma select_int : forall p n c e, p <> [] -> length n = length p -> List.Forall (fun q => 0 <= q) p -> c + rsum p <= e ->
  is_RInt (fun x => pair_value x (cumsum c p) n) c e (table_mean p n + IZR (last n 0%Z) * (e - c - rsum p)).
Proof.
  induction p as [|q p IH]; intros n c e NE L F E; [contradiction|].
  destruct n as [|m n]; [discriminate|]. inversion F as [|? ? Q F']; subst. assert (S := rsum_nonneg' p F'). cbn [rsum fold_right] in E. fold (rsum p) in E.
  assert (L' : length n = length p) by (injection L; auto).
  destruct p as [|q' p].
  - destruct n; [|discriminate]. cbn in E.
    replace (table_mean [q] [m] + IZR (last [m] 0%Z) * (e - c - rsum [q])) with ((e - c) * IZR m) by (unfold table_mean; cbn; ring).
    apply (is_RInt_const (V := R_NormedModule) c e (IZR m)).
  - assert (N0 : q' :: p <> []) by discriminate.
    apply (is_RInt_ext (fun x => if Rlt_dec x (c + q) then IZR m else pair_value x (cumsum (c + q) (q' :: p)) n)).
    { intros x _. unfold pair_value. change (cumsum c (q :: q' :: p)) with ((c + q) :: cumsum (c + q) (q' :: p)).
      rewrite select_cons by (cbn; discriminate). destruct (Rlt_dec x (c + q)); reflexivity. }
    replace (table_mean (q :: q' :: p) (m :: n) + IZR (last (m :: n) 0%Z) * (e - c - rsum (q :: q' :: p)))
      with (q * IZR m + (table_mean (q' :: p) n + IZR (last n 0%Z) * (e - (c + q) - rsum (q' :: p)))).
    2:{ destruct n as [|m' n]; [discriminate|]. unfold table_mean. cbn [combine map rsum fold_right fst snd]. 
        change (last (m :: m' :: n) 0%Z) with (last (m' :: n) 0%Z). ring. }
    apply (is_RInt_Chasles (V := R_NormedModule) _ c (c + q) e).
    + replace (q * IZR m) with (scal (c + q - c) (IZR m)) by (unfold scal; cbn; unfold mult; cbn; ring).
      eapply is_RInt_ext; [|apply (is_RInt_const (V := R_NormedModule) c (c + q) (IZR m))].
      intros x [_ X]. rewrite Rmax_right in X by lra. destruct (Rlt_dec x (c + q)); [reflexivity | contradiction].
    + eapply is_RInt_ext; [|apply (IH n (c + q) e N0 L' F'); lra].
      intros x [X _]. rewrite Rmin_left in X by lra. destruct (Rlt_dec x (c + q)); [lra | reflexivity].
Qed.

Lemma combine_swap : forall p n, table_mean p n = rsum (map (fun np => IZR (fst np) * snd np) (combine n p)).
Proof.
  induction p as [|q p IH]; intros [|m n]; try reflexivity. unfold table_mean in *. cbn [combine map rsum fold_right fst snd].
  f_equal. apply IH.
Qed.
Lemma table_moment : forall p, table_mean p (pair_numbers p) = moment1 p.
Proof. intros p. rewrite combine_swap. reflexivity. Qed.

Lemma numbers_length : forall p, length (pair_numbers p) = length p.
Proof. intros p. unfold pair_numbers. rewrite map_length, seq_length. reflexivity. Qed.
Lemma numbers_last : forall p, p <> [] -> last (pair_numbers p) 0%Z = Z.of_nat (length p).
Proof.
  intros p N. unfold pair_numbers. destruct (length p) as [|k] eqn:L; [destruct p; [contradiction | discriminate]|].
  rewrite seq_S, map_app. cbn [map app]. rewrite last_last. reflexivity.
Qed.

(** ** The efficiency *)
Lemma collection_is : forall h0 W z, collection_probability h0 W z = differential_efficiency h0 W z.
Proof. reflexivity. Qed.

Lemma ramp_continuous : forall h0 W z, 0 < W -> continuous (collection_probability h0 W) z.
Proof.
  intros h0 W z P.
  apply (continuous_ext (fun z => h0 + (1 - h0) / W * Rmin z W)).
  - intros x. match goal with |- @eq _ ?u ?v => change (@eq R u v) end. unfold collection_probability. unfold Rmin. destruct (Rle_dec x W) as [L|L]; destruct (Rlt_dec x W) as [K|K]; try (exfalso; lra).
    + field. lra.
    + replace x with W by lra. field. lra.
    + field. lra.
  - apply (continuous_plus (V := R_NormedModule) (fun _ => h0)); [apply continuous_const|].
    apply (continuous_mult (K := R_AbsRing) (fun _ => (1 - h0) / W)); [apply continuous_const|].
    apply (continuous_ext (fun x => (x + W - Rabs (x - W)) / 2)).
    + intros x. match goal with |- @eq _ ?u ?v => change (@eq R u v) end. unfold Rmin. destruct (Rle_dec x W); [rewrite Rabs_left1 by lra | rewrite Rabs_pos_eq by lra]; field.
    + apply (continuous_mult (K := R_AbsRing) (fun x => x + W - Rabs (x - W)) (fun _ => / 2)); [|apply continuous_const].
      apply (continuous_minus (V := R_NormedModule) (fun x => x + W) (fun x => Rabs (x - W))).
      * apply (ex_derive_continuous (V := R_NormedModule)). auto_derive. trivial.
      * apply (continuous_comp (fun x => x - W) Rabs); [|apply continuous_Rabs].
        apply (ex_derive_continuous (V := R_NormedModule)). auto_derive. trivial.
Qed.

Definition truncated_cce (a W D h0 : R) : R := (cce (a * W) h0 - exp (- a * D)) / (1 - exp (- a * D)).

Lemma truncated_value : forall a W D h0, 0 < a -> 0 < W <= D -> is_truncated_mean a D (collection_probability h0 W) (truncated_cce a W D h0).
Proof.
  intros a W D h0 A [P L]. unfold is_truncated_mean, truncated_cce. assert (F := absorbed_pos a D A ltac:(lra)).
  match goal with |- is_RInt _ _ _ ?v => replace v with (cce (a * W) h0 - exp (- a * D)) by (field; lra) end.
  apply efficiency_int; assumption.
Qed.

(** ** One photon *)
Lemma photon_mean_value : forall px p c, px_p px = p -> px_n px = pair_numbers p -> p <> [] -> List.Forall (fun q => 0 <= q) p -> rsum p <= 1 ->
  px_energy px <= 50 -> (exists m s, odiv (px_energy px) (px_energy_pair_inf px) = Some m /\ osqrt (px_fano_inf px * m) = Some s) ->
  is_RInt (fun y => collection_probability (px_eta0 px) (px_implant px) (photon_depth (px_absorption px) (px_substrate px) y)) 0 1 c ->
  is_photon_mean px ((moment1 p + INR (length p) * (1 - rsum p)) * c).
Proof.
  intros px p c EP EN NE F S LE (m & s & EM & ES) H.
  assert (PC : forall x y, pair_count px (uniform_draws x y) = select_pairs x (cumsum 0 p) (pair_numbers p)).
  { intros x y. unfold pair_count. rewrite EM. cbn [obind]. rewrite ES. cbn [obind]. rewrite EP, EN. cbn [dr_pair uniform_draws].
    destruct (Rle_dec (px_energy px) 50); [reflexivity | contradiction]. }
  assert (SOME : forall x q n, q <> [] -> length n = length q -> forall acc, exists k, select_pairs x (cumsum acc q) n = Some k /\ In k n).
  { intros x q. induction q as [|u q IH]; intros n N L acc; [contradiction|]. destruct n as [|k n]; [discriminate|].
    destruct q as [|u' q].
    - exists k. split; [reflexivity | left; reflexivity].
    - change (cumsum acc (u :: u' :: q)) with ((acc + u) :: cumsum (acc + u) (u' :: q)). rewrite select_cons by (cbn; discriminate).
      destruct (Rlt_dec x (acc + u)); [exists k; split; [reflexivity | left; reflexivity]|].
      destruct (IH n ltac:(discriminate) ltac:(cbn in L |- *; lia) (acc + u)) as (k' & K & I). exists k'. split; [exact K | right; exact I]. }
  assert (SEL : forall x, exists k, select_pairs x (cumsum 0 p) (pair_numbers p) = Some k /\ (0 <= k)%Z).
  { intros x. destruct (SOME x p (pair_numbers p) NE (numbers_length p) 0) as (k & K & I). exists k. split; [exact K|].
    unfold pair_numbers in I. apply in_map_iff in I. destruct I as (j & <- & _). lia. }
  split.
  - intros x y. rewrite PC. destruct (SEL x) as (k & K & _). rewrite K. discriminate.
  - exists (fun x => pair_value x (cumsum 0 p) (pair_numbers p) * c). split.
    + intros x _. unfold pair_value. destruct (SEL x) as (k & K & K0). rewrite K.
      eapply is_RInt_ext; [|apply (is_RInt_scal (V := R_NormedModule) _ 0 1 (IZR k) c H)].
      intros y _. unfold photon_value. rewrite PC, K, binomial_mean, INR_IZR_INZ, Z2Nat.id by exact K0. reflexivity.
    + assert (I := select_int p (pair_numbers p) 0 1 NE (numbers_length p) F ltac:(lra)).
      rewrite table_moment, numbers_last in I by exact NE. rewrite <- INR_IZR_INZ in I.
      apply (is_RInt_scal (V := R_NormedModule) _ 0 1 c) in I.
      replace ((moment1 p + INR (length p) * (1 - rsum p)) * c) with (scal c (moment1 p + INR (length p) * (1 - 0 - rsum p))) by (unfold scal; cbn; unfold mult; cbn; ring).
      eapply is_RInt_ext; [|exact I]. intros x _. unfold scal; cbn; unfold mult; cbn. apply Rmult_comm.
Qed.

Lemma photon_mean_unique : forall px u v, is_photon_mean px u -> is_photon_mean px v -> u = v.
Proof.
  intros px u v (_ & f & F & U) (_ & g & G & V).
  assert (W : is_RInt g 0 1 u).
  { eapply is_RInt_ext; [|exact U]. intros x X. rewrite Rmin_left, Rmax_right in X by lra.
    specialize (F x X). specialize (G x X). apply (is_RInt_unique (V := R_CompleteNormedModule)) in F, G. congruence. }
  apply (is_RInt_unique (V := R_CompleteNormedModule)) in W, V. congruence.
Qed.

Lemma signal_mean_value : forall lambda px m v, is_photon_mean px m -> is_signal_mean lambda px v <-> v = lambda * m.
Proof.
  intros lambda px m v M.
  assert (S : is_series (fun k => poisson lambda k * (INR k * m)) (lambda * m)).
  { rewrite Rmult_comm. eapply is_series_ext; [|exact (is_series_scal_l m _ _ (poisson_1 lambda))].
    intros k. unfold mult; cbn. change (m * (poisson lambda k * INR k) = poisson lambda k * (INR k * m)). ring. }
  split.
  - intros (m' & M' & S'). rewrite (photon_mean_unique _ _ _ M' M) in S'. apply is_series_unique in S, S'. congruence.
  - intros ->. exists m. split; assumption.
Qed.

(** ** The tables *)
Lemma einterp_from_node : forall right x y rest x0 y0, x0 < x -> In (x, y) rest -> StronglySorted (fun a b => fst a < fst b) ((x0, y0) :: rest) ->
  einterp_from right x x0 y0 rest = y.
Proof.
  intros right x y rest. induction rest as [|[x1 y1] rest IH]; intros x0 y0 L I S; [destruct I|].
  cbn [einterp_from]. destruct (Req_EM_T x x0); [lra|].
  assert (S' := StronglySorted_inv S). destruct S' as [S' _].
  destruct I as [E|I].
  - injection E as -> ->. destruct (Rlt_dec x x); [lra|]. destruct rest as [|[x2 y2] rest]; cbn [einterp_from]; destruct (Req_EM_T x x); congruence.
  - assert (K : x1 < x). { apply StronglySorted_inv in S'. destruct S' as [_ S']. rewrite List.Forall_forall in S'. apply (S' (x, y) I). }
    destruct (Rlt_dec x x1); [lra|]. apply IH; assumption.
Qed.
Lemma einterp_node : forall right x y nodes, In (x, y) nodes -> StronglySorted (fun a b => fst a < fst b) nodes -> einterp right x nodes = y.
Proof.
  intros right x y [|[x0 y0] rest] I S; [destruct I|]. cbn [einterp]. destruct I as [E|I].
  - injection E as -> ->. destruct (Rlt_dec x x); [lra|]. destruct rest as [|[x1 y1] rest]; cbn [einterp_from]; destruct (Req_EM_T x x); congruence.
  - assert (L : x0 < x). { apply StronglySorted_inv in S. destruct S as [_ S]. rewrite List.Forall_forall in S. apply (S (x, y) I). }
    destruct (Rlt_dec x x0); [lra|]. apply (einterp_from_node right x y); assumption.
Qed.
Lemma einterp_right : forall r x nodes, nodes <> [] -> List.Forall (fun a => fst a < x) nodes -> einterp (Some r) x nodes = r.
Proof.
  intros r x [|[x0 y0] rest] N F; [contradiction|]. cbn [einterp]. inversion F as [|? ? L F']; subst. cbn in L. destruct (Rlt_dec x x0); [lra|]. clear F N n.
  revert x0 y0 L. induction rest as [|[x1 y1] rest IH]; intros x0 y0 L; cbn [einterp_from].
  - destruct (Req_EM_T x x0); [lra | reflexivity].
  - destruct (Req_EM_T x x0); [lra|]. inversion F' as [|? ? L' F'']; subst. cbn in L'. destruct (Rlt_dec x x1); [lra|]. apply IH; assumption.
Qed.

Lemma interp_from_node : forall x y rest x0 y0, x0 < x -> In (x, y) rest -> StronglySorted (fun a b => fst a < fst b) ((x0, y0) :: rest) ->
  interp_from x x0 y0 rest = Some y.
Proof.
  intros x y rest. induction rest as [|[x1 y1] rest IH]; intros x0 y0 L I S; [destruct I|].
  cbn [interp_from]. assert (S' := StronglySorted_inv S). destruct S' as [S' _].
  destruct I as [E|I].
  - injection E as -> ->. destruct (Rle_dec x x); [|lra]. rewrite odiv_nz by lra. cbn [obind]. f_equal. field. lra.
  - assert (K : x1 < x). { apply StronglySorted_inv in S'. destruct S' as [_ S']. rewrite List.Forall_forall in S'. apply (S' (x, y) I). }
    destruct (Rle_dec x x1); [lra|]. apply IH; assumption.
Qed.
Lemma interp_node : forall x y nodes, In (x, y) nodes -> StronglySorted (fun a b => fst a < fst b) nodes -> interp x nodes = Some y.
Proof.
  intros x y [|[x0 y0] rest] I S; [destruct I|]. cbn [interp]. destruct I as [E|I].
  - injection E as -> ->. destruct (Rle_dec x x); [reflexivity | lra].
  - assert (L : x0 < x). { apply StronglySorted_inv in S. destruct S as [_ S]. rewrite List.Forall_forall in S. apply (S (x, y) I). }
    destruct (Rle_dec x x0); [lra|]. apply interp_from_node; assumption.
Qed.

Lemma map_sorted : forall {A} (f : pair_row -> A) tb, StronglySorted (fun r s => row_energy r < row_energy s) tb ->
  StronglySorted (fun a b => fst a < fst b) (map (fun r => (row_energy r, f r)) tb).
Proof.
  intros A f tb S. induction S as [|r tb S IH F]; [constructor|]. cbn [map]. constructor; [exact IH|].
  apply List.Forall_forall. intros b I. apply in_map_iff in I. destruct I as (s & <- & I). cbn. rewrite List.Forall_forall in F. apply F, I.
Qed.

Lemma three : forall {A} (a b c : A), StronglySorted (fun u v => fst u < fst v) [(0, a); (100, b); (300, c)].
Proof. intros. repeat constructor; cbn; lra. Qed.

Lemma temperature_node : forall T get r (f : list R -> ext), tabulated T get ->
  along_temperature T (f (row_0K r)) (f (row_100K r)) (f (row_300K r)) = f (get r).
Proof.
  intros T get r f H. unfold along_temperature. apply einterp_node; [|apply three].
  destruct H as [[-> ->]|[[-> ->]|[-> ->]]]; cbn; auto.
Qed.

Lemma yield_node : forall tb T get r wl, good_table tb -> tabulated T get -> In r tb -> photon_energy wl = row_energy r ->
  quantum_yield_ideal tb wl T = Some (moment1 (get r)).
Proof.
  intros tb T get r wl [S F] H I E. unfold quantum_yield_ideal, energy_pair. rewrite List.Forall_forall in F. specialize (F r I).
  rewrite (einterp_node _ (photon_energy wl) (pair_cost (row_energy r) (get r))).
  - unfold pair_cost, ediv_pos. rewrite E. destruct (Req_EM_T (moment1 (get r)) 0) as [Z|Z].
    + rewrite Z. reflexivity.
    + cbn [ediv]. destruct (Req_EM_T (row_energy r / moment1 (get r)) 0) as [Q|Q].
      * exfalso. apply (f_equal (fun u => u * moment1 (get r))) in Q. unfold Rdiv in Q. rewrite Rmult_assoc, Rinv_l in Q by exact Z. lra.
      * cbn. f_equal. field. split; [exact Z | lra].
  - rewrite E. apply in_map_iff. exists r. split; [|exact I]. unfold row_energy_pair. f_equal. apply (temperature_node T get r (pair_cost (row_energy r)) H).
  - apply (map_sorted (fun r => along_temperature T (pair_cost (row_energy r) (row_0K r)) (pair_cost (row_energy r) (row_100K r)) (pair_cost (row_energy r) (row_300K r)))), S.
Qed.

Lemma probability_node : forall tb T get r k, good_table tb -> tabulated T get -> In r tb ->
  probability_of_pairs tb (row_energy r) T k = Some (nth k (get r) 0).
Proof.
  intros tb T get r k [S F] H I. unfold probability_of_pairs.
  set (at_T := fun r => interp T [(0, nth k (row_0K r) 0); (100, nth k (row_100K r) 0); (300, nth k (row_300K r) 0)]).
  assert (AT : forall r, at_T r = Some (nth k (get r) 0)).
  { intros s. unfold at_T. apply interp_node; [|apply three]. destruct H as [[-> ->]|[[-> ->]|[-> ->]]]; cbn; auto. }
  set (rows := fix rows tb := match tb with [] => Some [] | r :: rest => let* v := at_T r in let* l := rows rest in Some ((row_energy r, v) :: l) end).
  assert (RW : forall t, rows t = Some (map (fun r => (row_energy r, nth k (get r) 0)) t)).
  { induction t as [|s t IH]; [reflexivity|]. cbn [map]. change (rows (s :: t)) with (let* v := at_T s in let* l := rows t in Some ((row_energy s, v) :: l)).
    rewrite AT. cbn [obind]. rewrite IH. reflexivity. }
  rewrite RW. cbn [obind]. apply interp_node; [|apply (map_sorted (fun r => nth k (get r) 0)), S].
  apply in_map_iff. exists r. split; [reflexivity | exact I].
Qed.

Lemma osequence_some : forall {A} (l : list A), osequence (map Some l) = Some l.
Proof. intros A l. induction l as [|a l IH]; [reflexivity|]. cbn. rewrite IH. reflexivity. Qed.

Lemma energy_keV : photon_energy (hc / 1000) = 1000.
Proof. unfold photon_energy. assert (H : hc <> 0) by (unfold hc; lra). field. exact H. Qed.

Lemma bandgap_bounds : forall T, 0 <= T <= 300 -> 1 <= energy_bandgap T <= 1.2.
Proof.
  intros T H. unfold energy_bandgap.
  assert (Q : 0 <= 4.9e-4 * (T * T) / (T + 655) <= 0.1).
  { split; [apply Rcomplements.Rdiv_le_0_compat; [nra | lra]|]. apply Rcomplements.Rle_div_l; [lra|]. nra. }
  lra.
Qed.

Lemma measured_node : forall tb T get r photons wl a W Dp D wx wy h0, good_table tb -> tabulated T get -> In r tb ->
  photon_energy wl = row_energy r ->
  exists px, measured_pixel tb photons wl a W Dp D wx wy h0 T = Some px /\
    px_p px = get r /\ px_n px = pair_numbers (get r) /\ px_energy px <= 50 /\ px_absorption px = a /\ px_implant px = W /\
    px_substrate px = D /\ px_eta0 px = h0 /\
    exists m s, odiv (px_energy px) (px_energy_pair_inf px) = Some m /\ osqrt (px_fano_inf px * m) = Some s.
Proof.
  intros tb T get r photons wl a W Dp D wx wy h0 G H I E. assert (G' := G). destruct G' as [S F].
  assert (NE : tb <> []) by (intros ->; destruct I).
  assert (TT : 0 <= T <= 300) by (destruct H as [[-> _]|[[-> _]|[-> _]]]; lra).
  assert (BG := bandgap_bounds T TT).
  assert (LT : forall {A} (f : pair_row -> A), List.Forall (fun b => fst b < 1000) (map (fun r => (row_energy r, f r)) tb)).
  { intros A f. apply List.Forall_forall. intros b J. apply in_map_iff in J. destruct J as (s & <- & J). cbn. rewrite List.Forall_forall in F. specialize (F s J). lra. }
  assert (NM : forall {A} (f : pair_row -> A), map f tb <> []) by (intros A f; destruct tb; [contradiction | discriminate]).
  rewrite List.Forall_forall in F. destruct (F r I) as (ER & L0 & L1 & L3).
  assert (LG : length (get r) = num_electron tb) by (destruct H as [[_ ->]|[[_ ->]|[_ ->]]]; assumption).
  assert (P : osequence (map (probability_of_pairs tb (photon_energy wl) T) (seq 0 (num_electron tb))) = Some (get r)).
  { rewrite E. rewrite (map_ext _ (fun k => Some (nth k (get r) 0))) by (intros k; apply probability_node; assumption).
    rewrite <- (map_map (fun k => nth k (get r) 0) Some), osequence_some. f_equal. rewrite <- LG.
    apply nth_ext with (d := 0) (d' := 0); [rewrite map_length, seq_length; reflexivity|].
    intros k K. rewrite map_length, seq_length in K. rewrite (nth_indep _ 0 (nth 0 (get r) 0)) by (rewrite map_length, seq_length; exact K).
    rewrite (map_nth (fun k => nth k (get r) 0)). rewrite seq_nth by exact K. reflexivity. }
  assert (EI : 0 < energy_pair_inf T) by (unfold energy_pair_inf; lra).
  assert (Y : quantum_yield_ideal tb (hc / 1000) T = Some (1000 / energy_pair_inf T)).
  { unfold quantum_yield_ideal, energy_pair. rewrite energy_keV. rewrite einterp_right; [|apply NM | apply (LT _ (fun r => along_temperature T (pair_cost (row_energy r) (row_0K r)) (pair_cost (row_energy r) (row_100K r)) (pair_cost (row_energy r) (row_300K r))))].
    cbn [ediv]. destruct (Req_EM_T (energy_pair_inf T) 0); [lra | reflexivity]. }
  assert (FI : exists f, fano_factor tb (hc / 1000) T = Some f /\ 0 <= f).
  { unfold fano_factor. rewrite energy_keV.
    assert (X : forall g T0, fano_at g T0 1000 tb = Fin (fano_factor_inf T0)) by (intros g T0; unfold fano_at; apply einterp_right; [apply NM | apply (LT _ (fun r => table_fano (g r)))]).
    rewrite !X. exists (fano_factor_inf T). split.
    - unfold along_temperature. rewrite (einterp_node None T (Fin (fano_factor_inf T))); [reflexivity | | apply three].
      destruct H as [[-> _]|[[-> _]|[-> _]]]; cbn; auto.
    - unfold fano_factor_inf. lra. }
  destruct FI as (f & FI & F0).
  unfold measured_pixel. rewrite P. cbn [obind]. rewrite Y. cbn [obind].
  assert (Q : 0 < 1000 / energy_pair_inf T) by (apply Rdiv_lt_0_compat; lra).
  rewrite odiv_nz by lra. cbn [obind]. rewrite FI. cbn [obind]. eexists. split; [reflexivity|]. cbn.
  split; [reflexivity|]. split; [reflexivity|]. split; [lra|]. repeat split; try reflexivity.
  assert (Q' : 0 < 1000 / (1000 / energy_pair_inf T)) by (apply Rdiv_lt_0_compat; lra).
  rewrite odiv_nz by lra. eexists. exists (sqrt (f * (photon_energy wl / (1000 / (1000 / energy_pair_inf T))))). split; [reflexivity|].
  apply osqrt_nonneg. apply Rmult_le_pos; [exact F0|]. apply Rcomplements.Rdiv_le_0_compat; lra.
Qed.

(** ** The mean of the signal, at a tabulated energy and temperature *)
Lemma signal_mean_node : forall tb T get r photons wl a W Dp D wx wy h0 lambda px v, good_table tb -> tabulated T get -> In r tb ->
  photon_energy wl = row_energy r -> get r <> [] -> List.Forall (fun q => 0 <= q) (get r) -> rsum (get r) <= 1 ->
  0 < a -> 0 < W <= D -> measured_pixel tb photons wl a W Dp D wx wy h0 T = Some px ->
  is_signal_mean lambda px v <-> v = lambda * ((moment1 (get r) + INR (length (get r)) * (1 - rsum (get r))) * truncated_cce a W D h0).
Proof.
  intros tb T get r photons wl a W Dp D wx wy h0 lambda px v G H I E NE F S A P M.
  destruct (measured_node tb T get r photons wl a W Dp D wx wy h0 G H I E) as (px' & M' & EP & EN & LE & EA & EW & ED & EH & X).
  rewrite M in M'. injection M' as <-.
  apply signal_mean_value. apply photon_mean_value; try assumption. rewrite EA, EW, ED, EH.
  apply depth_law; [exact A | lra | intros z _; apply ramp_continuous; lra | apply truncated_value; assumption].
Qed.

(** ** The two methods of [signal] *)
Lemma expected_value : forall tb N wl d n ns A W h0 T ds a q s, snells_law_scalar d n ns = Some ds -> absorption_effective wl ns ds = Some a ->
  quantum_yield_ideal tb wl T = Some q -> 0 < a -> 0 < W -> signal_expected tb N wl d n ns A W h0 T = Some s <-> s = q * A * cce (a * W) h0 * N.
Proof.
  intros tb N wl d n ns A W h0 T ds a q s S E Q A0 W0. unfold signal_expected. rewrite S. cbn [obind]. rewrite E. cbn [obind]. rewrite Q. cbn [obind].
  rewrite cce_value by nra. cbn [obind]. split; [intros X; injection X; auto | intros ->; reflexivity].
Qed.

Lemma methods_compared : forall tb T get r wl d n ns ds a A N W Dp D wx wy h0 photons,
  good_table tb -> tabulated T get -> In r tb -> photon_energy wl = row_energy r ->
  get r <> [] -> List.Forall (fun q => 0 <= q) (get r) -> rsum (get r) = 1 ->
  snells_law_scalar d n ns = Some ds -> absorption_effective wl ns ds = Some a -> 0 < a -> 0 < W <= D -> 0 <= h0 <= 1 ->
  exists s px m c, signal_expected tb N wl d n ns A W h0 T = Some s /\
    measured_pixel tb photons wl a W Dp D wx wy h0 T = Some px /\
    (forall v, is_signal_mean (A * N) px v <-> v = m) /\
    charge_collection_efficiency a W h0 = Some c /\ 0 < c <= 1 /\
    s - m = s * (exp (- a * D) * (1 - c) / (c * (1 - exp (- a * D)))).
Proof.
  intros tb T get r wl d n ns ds a A N W Dp D wx wy h0 photons G H I E NE F S SN AB A0 WD H0.
  destruct (measured_node tb T get r photons wl a W Dp D wx wy h0 G H I E) as (px & M & _).
  assert (Q := yield_node tb T get r wl G H I E).
  destruct (cce_bounds (a * W) h0 ltac:(nra) H0) as [C1 C0]. assert (X := absorbed_pos a D A0 ltac:(lra)).
  exists (moment1 (get r) * A * cce (a * W) h0 * N), px, (A * N * (moment1 (get r) * truncated_cce a W D h0)), (cce (a * W) h0).
  split; [apply (proj2 (expected_value tb N wl d n ns A W h0 T ds a _ _ SN AB Q A0 ltac:(lra))); reflexivity|]. split; [exact M|]. split.
  - intros v. rewrite (signal_mean_node tb T get r photons wl a W Dp D wx wy h0 (A * N) px v) by (assumption || lra).
    rewrite S. replace (moment1 (get r) + INR (length (get r)) * (1 - 1)) with (moment1 (get r)) by ring. reflexivity.
  - split; [apply cce_value; nra|]. split; [lra|]. unfold truncated_cce. field. split; lra.
Qed.
