From Coq Require Import Reals Lra Lia List Bool String.
From Coquelicot Require Import Coquelicot.
From Verif Require Import Num NumLemmas Vec ComplexModel LayerModel RamanathanModel SensorModel QuantumModel DiffusionModel TableModel ChemicalModel
  QuantumSpec SensorSpec DiffusionSpec DiffusionProofs ChemicalSensorProofs QuantumMethodProofs FactoryModel FactorySpec.
Import ListNotations.
Open Scope R_scope.

(** ** The fit *)

Lemma incidence_default : incidence None None = RtoC 1.
Proof. unfold incidence, ambient_direction. cbn. unfold RtoC, dot. cbn. f_equal; ring. Qed.

Lemma eqe_temperature o i h e no ns ro rs T T' w d n :
  quantum_efficiency_effective (mkDetector o i h e no ns ro rs T) w d n = quantum_efficiency_effective (mkDetector o i h e no ns ro rs T') w d n.
Proof. reflexivity. Qed.

Definition objective_of (h : R) (measured : list (R * R)) (x : parameters) : option R :=
  let '(oxide, implant, roughness, eta0) := x in
  eqe_rms_difference h (chemical_index oxide_table) (chemical_index silicon_table) 300 measured oxide implant (roughness * nanometer) eta0.

Lemma fit_is minimize h d measured T : fit_eqe minimize h d measured T = with_parameters h d T (minimize (objective_of h measured) fit_guess).
Proof. reflexivity. Qed.

Lemma residual_objective h d measured T x r :
  is_residual (with_parameters h d T x) measured r <-> objective_of h measured x = Some r.
Proof.
  destruct x as [[[o i] ro] e]. unfold objective_of, with_parameters. split.
  - intros (es & F & N & P & S).
    destruct (fit_defined h (chemical_index oxide_table) (chemical_index silicon_table) 300 measured o i (ro * nanometer) e N) as (x & X).
    { intros m I. clear -F I. revert es F. induction measured as [| a l IH]; [destruct I |]. intros es F. inversion F; subst.
      destruct I as [<- | I]; [| exact (IH I _ H3)].
      unfold material_eqe in H1. rewrite incidence_default in H1. cbn [sm_detector] in H1.
      rewrite (eqe_temperature o i h e _ _ 0 (ro * nanometer) 300 T), H1. discriminate. }
    rewrite X. destruct (fit_value _ _ _ _ _ _ _ _ _ _ X) as (es' & F' & P' & S' & _ & _).
    assert (E : es' = es).
    { clear -F F'. revert es es' F F'. induction measured as [| a l IH]; intros es es' F F'; inversion F; inversion F'; subst; [reflexivity |].
      f_equal; [| exact (IH _ _ H3 H8)].
      unfold material_eqe in H1. rewrite incidence_default in H1. cbn [sm_detector] in H1.
      rewrite (eqe_temperature o i h e _ _ 0 (ro * nanometer) 300 T) in H6. congruence. }
    subst es'. f_equal. assert (L : 0 < INR (List.length measured)) by (apply lt_0_INR; destruct measured; [contradiction | cbn; lia]).
    assert (Q : (x * x) * INR (List.length measured) = (r * r) * INR (List.length measured)).
    { rewrite S'. transitivity (r ^ 2 * INR (List.length measured)); [symmetry; exact S | ring]. }
    apply Rmult_eq_reg_r in Q; [| lra]. apply Rsqr_inj; [exact P' | exact P | exact Q].
  - intros X. destruct (fit_value _ _ _ _ _ _ _ _ _ _ X) as (es & F & P & S & N & _).
    exists es. repeat split; try assumption.
    + clear -F. induction F; constructor; [| exact IHF].
      unfold material_eqe. rewrite incidence_default. cbn [sm_detector].
      rewrite (eqe_temperature o i h e _ _ 0 (ro * nanometer) T 300). exact H.
    + rewrite <- S. ring.
Qed.

Lemma fit_residual minimize h d measured T r :
  is_residual (fit_eqe minimize h d measured T) measured r <-> objective_of h measured (minimize (objective_of h measured) fit_guess) = Some r.
Proof. rewrite fit_is. apply residual_objective. Qed.

Lemma fit_physical minimize h d measured T :
  within (minimize (objective_of h measured) fit_guess) -> physical (sm_detector (fit_eqe minimize h d measured T)).
Proof.
  rewrite fit_is. destruct (minimize _ _) as [[[o i] ro] e]. unfold physical, with_parameters. cbn. unfold nanometer. intros (? & ? & ? & ? & ?). repeat split; lra.
Qed.

Lemma defined_implant q w c n e : quantum_efficiency_effective q w c n = Some e -> dt_implant q <> 0.
Proof.
  unfold quantum_efficiency_effective, charge_collection_efficiency. intros H Z. rewrite Z in H.
  destruct (snells_law_scalar c n (dt_n_substrate q w)) as [z |]; cbn in H; [| discriminate].
  destruct (absorption_effective w (dt_n_substrate q w) z) as [a |]; cbn in H; [| discriminate].
  replace (a * 0) with 0 in H by ring. rewrite odiv_0 in H. discriminate.
Qed.

Lemma residual_implant m measured r : is_residual m measured r -> dt_implant (sm_detector m) <> 0.
Proof.
  intros (es & F & N & _). destruct measured as [| a l]; [contradiction |]. inversion F; subst. exact (defined_implant _ _ _ _ _ H1).
Qed.

Lemma fit_best minimize h d measured T : finds_best minimize h d T measured ->
  physical (sm_detector (fit_eqe minimize h d measured T)) /\
  forall m r, comparable h m -> is_residual m measured r ->
    exists s, is_residual (fit_eqe minimize h d measured T) measured s /\ s <= r /\ 0 < dt_implant (sm_detector (fit_eqe minimize h d measured T)).
Proof.
  intros M. destruct (M (objective_of h measured) fit_guess) as (W & L); [intros x r; symmetry; apply residual_objective |].
  assert (P : physical (sm_detector (fit_eqe minimize h d measured T))) by (apply fit_physical; exact W).
  split; [exact P |]. intros m r (H1 & H2 & H3 & H4 & P1 & P2 & P3 & P4 & P5) R.
  destruct m as [q dm]. destruct q as [o i h' e no ns ro rs T']. cbn in H1, H2, H3, H4, P1, P2, P3, P4, P5. subst.
  destruct (L (o, i, rs / 10, e) r) as (s & S & LE).
  { unfold within. repeat split; lra. }
  { unfold with_parameters, nanometer. replace (rs / 10 * 10) with rs by field.
    destruct R as (es & F & Q). exists es. split; [exact F | exact Q]. }
  exists s. rewrite fit_is. split; [exact S |]. split; [exact LE |].
  pose proof (residual_implant _ _ _ S) as N. rewrite <- fit_is in N |- *. destruct P as (_ & P & _). destruct P as [P | P]; [exact P | congruence].
Qed.

(** ** Temperature *)

Lemma temperature_same T m : same_but_temperature (set_temperature T m) m /\ dt_temperature (sm_detector (set_temperature T m)) = T.
Proof. unfold same_but_temperature. destruct m as [[] ?]. cbn. intuition. Qed.

Lemma same_eqe a b : same_but_temperature a b ->
  (forall w direction n normal, material_eqe (sm_detector a) w direction n normal = material_eqe (sm_detector b) w direction n normal) /\
  (forall w direction n normal s, material_absorbance (sm_detector a) w direction n normal s = material_absorbance (sm_detector b) w direction n normal s) /\
  (forall w, sensor_width a w = sensor_width b w).
Proof.
  destruct a as [[] da], b as [[] db]. unfold same_but_temperature. cbn. intros (-> & -> & -> & -> & -> & -> & -> & -> & ->).
  repeat split; reflexivity.
Qed.

(** ** The cache *)

Lemma nth_update {A} n f (l : list A) k : nth_error (update n f l) k = if Nat.eqb n k then option_map f (nth_error l k) else nth_error l k.
Proof.
  revert n k. induction l as [| x l IH]; intros [| n] [| k]; cbn; try reflexivity.
  - destruct (Nat.eqb n k); reflexivity.
  - apply IH.
Qed.
Lemma update_length {A} n f (l : list A) : List.length (update n f l) = List.length l.
Proof. revert n. induction l as [| x l IH]; intros [| n]; cbn; [reflexivity | reflexivity | reflexivity | f_equal; apply IH]. Qed.

(** The disk has nothing, or what this program has stored. *)
Definition consistent (p : program) (w : world) : Prop := w_disk w = None \/ w_disk w = Some (p_text p, p_result p).

Lemma call_consistent p w : consistent p w ->
  cached_call p w = (List.length (w_heap w), mkWorld (Some (p_text p, p_result p)) (w_heap w ++ [p_result p])).
Proof.
  unfold cached_call. intros [-> | E]; [reflexivity |]. rewrite E, String.eqb_refl. unfold allocate. rewrite E. reflexivity.
Qed.

Lemma factory_consistent p T w : consistent p w ->
  factory p T w = (List.length (w_heap w), mkWorld (Some (p_text p, p_result p)) (update (List.length (w_heap w)) (set_temperature T) (w_heap w ++ [p_result p]))).
Proof. intros H. unfold factory. rewrite (call_consistent p w H). reflexivity. Qed.

Lemma happens_consistent p w e : consistent p w -> consistent p (happens p w e).
Proof.
  intros H. destruct e as [T | a f |]; cbn.
  - rewrite (factory_consistent p T w H). right. reflexivity.
  - destruct H as [H | H]; [left | right]; exact H.
  - left. reflexivity.
Qed.

Lemma history_consistent p es : forall w, consistent p w -> consistent p (fold_left (happens p) es w).
Proof. induction es as [| e es IH]; intros w H; [exact H |]. apply IH, happens_consistent, H. Qed.

Lemma happens_keeps p w e a m : nth_error (w_heap w) a = Some m -> leaves a e -> consistent p w -> nth_error (w_heap (happens p w e)) a = Some m.
Proof.
  intros N L C. assert (A : (a < List.length (w_heap w))%nat) by (apply nth_error_Some; congruence).
  destruct e as [T | b f |]; cbn in *.
  - rewrite (factory_consistent p T w C). cbn. rewrite nth_update. destruct (Nat.eqb_spec (List.length (w_heap w)) a); [lia |].
    rewrite nth_error_app1 by exact A. exact N.
  - rewrite nth_update. destruct (Nat.eqb_spec b a); [contradiction | exact N].
  - exact N.
Qed.

Lemma history_keeps p es : forall w a m, nth_error (w_heap w) a = Some m -> List.Forall (leaves a) es -> consistent p w ->
  nth_error (w_heap (fold_left (happens p) es w)) a = Some m.
Proof.
  induction es as [| e es IH]; intros w a m N F C; [exact N |]. inversion F; subst.
  apply IH; [apply happens_keeps; assumption | assumption | apply happens_consistent, C].
Qed.

(** After any history that began without a cache, a call makes a new object, which is the result of the program with the
    temperature that was asked for, and changes no other object; later events do not change it unless they change it. *)
Lemma factory_fresh p heap es T : let w := fold_left (happens p) es (mkWorld None heap) in
  let '(a, w') := factory p T w in
  nth_error (w_heap w) a = None /\ nth_error (w_heap w') a = Some (set_temperature T (p_result p)) /\
  (forall b m, nth_error (w_heap w) b = Some m -> nth_error (w_heap w') b = Some m) /\
  (forall later, List.Forall (leaves a) later -> nth_error (w_heap (fold_left (happens p) later w')) a = Some (set_temperature T (p_result p))).
Proof.
  intros w. assert (C : consistent p w) by (apply history_consistent; left; reflexivity).
  rewrite (factory_consistent p T w C).
  assert (G : nth_error (update (List.length (w_heap w)) (set_temperature T) (w_heap w ++ [p_result p])) (List.length (w_heap w)) =
    Some (set_temperature T (p_result p))).
  { rewrite nth_update, Nat.eqb_refl, nth_error_app2, Nat.sub_diag by lia. reflexivity. }
  split; [apply nth_error_None; lia |]. split; [exact G |]. split.
  - intros b m N. cbn. assert (b < List.length (w_heap w))%nat by (apply nth_error_Some; congruence).
    rewrite nth_update. destruct (Nat.eqb_spec (List.length (w_heap w)) b); [lia |]. rewrite nth_error_app1 by lia. exact N.
  - intros later F. apply history_keeps; [exact G | exact F | right; reflexivity].
Qed.

(** A function whose text has changed is evaluated again. *)
Lemma factory_changed p text m heap T : text <> p_text p ->
  let '(a, w') := factory p T (mkWorld (Some (text, m)) heap) in nth_error (w_heap w') a = Some (set_temperature T (p_result p)).
Proof.
  intros N. unfold factory, cached_call. cbn. destruct (String.eqb_spec text (p_text p)); [contradiction |]. cbn.
  rewrite nth_update, Nat.eqb_refl, nth_error_app2, Nat.sub_diag by lia. reflexivity.
Qed.

(** One whose text is the same is not, whatever else has changed. *)
Lemma factory_stale p p' T T' : p_text p = p_text p' ->
  let w := snd (factory p T (mkWorld None [])) in
  let '(a, w') := factory p' T' w in nth_error (w_heap w') a = Some (set_temperature T' (p_result p)).
Proof.
  intros E w. assert (C : consistent p (mkWorld None [])) by (left; reflexivity).
  assert (D : w_disk w = Some (p_text p', p_result p)) by (unfold w; rewrite (factory_consistent p T _ C), <- E; reflexivity).
  clearbody w. unfold factory, cached_call. rewrite D, String.eqb_refl. cbn.
  rewrite nth_update, Nat.eqb_refl, nth_error_app2, Nat.sub_diag by lia. reflexivity.
Qed.

(** ** Defaults *)

Lemma no_depletion tb m : sm_depletion m = None ->
  (forall photons w d, sensor_signal tb m photons w d = AttributeError) /\ (forall w, sensor_width m w = AttributeError).
Proof. intros E. split; intros; unfold sensor_signal, sensor_width, with_depletion; rewrite E; reflexivity. Qed.

Lemma signal_depletion tb q d d' photons w c :
  sensor_signal tb (mkSensorMaterial q (Some d)) photons w c = sensor_signal tb (mkSensorMaterial q (Some d')) photons w c.
Proof. reflexivity. Qed.

Lemma no_implant q w direction n normal : dt_implant q = 0 -> material_eqe q w direction n normal = None.
Proof.
  intros Z. unfold material_eqe. destruct (quantum_efficiency_effective _ _ _ _) eqn:E; [| reflexivity].
  destruct (defined_implant _ _ _ _ _ E Z).
Qed.

(** The width of the charge diffusion of a fitted sensor. *)
Lemma fitted_width minimize h d measured T w : 0 < h -> 0 <= dm_thickness d <= h -> 0 < w -> w < 11199.6 ->
  exists a s, absorption silicon_table w = Some a /\ 0 < a /\
    sensor_width (fit_eqe minimize h d measured T) w = Returns (Some s) /\ 0 <= s /\
    is_truncated_mean a h (fun z => diffusion_width (h - dm_thickness d) z ^ 2) (s ^ 2).
Proof.
  intros Hh Hd H0 H1. destruct (silicon_absorption w H0 H1) as (a & Ea & Ha).
  destruct (diffusion_average a h (dm_thickness d) Ha Hh Hd) as (s & Es & Hm & _).
  destruct (diffusion_range a h (dm_thickness d) Ha Hh Hd) as (s' & Es' & Hs & _).
  rewrite Es in Es'. injection Es' as <-.
  exists a, s. split; [exact Ea|]. split; [exact Ha|]. split; [|split; [lra|exact Hm]].
  unfold sensor_width, fit_eqe. destruct (minimize _ _) as [[[o i] r] e]. cbn [with_depletion sm_depletion sm_detector dt_substrate].
  unfold with_depletion; cbn [sm_depletion]. unfold width_charge_diffusion. rewrite Ea. cbn [obind]. rewrite Es. reflexivity.
Qed.
