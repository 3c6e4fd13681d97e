(** The claims about multilayers in the vocabulary of LayerSpec. *)
From Coq Require Import Reals Lra Psatz List Bool ZArith Lia.
From Coquelicot Require Import Coquelicot.
From Verif Require Import Vec VecLemmas Num NumLemmas ComplexModel ComplexLemmas ProfileModel LayerModel LayerSpec LayerProofs
  LayerTrivialProofs EnergyProofs AbsorbanceProofs.
Import ListNotations.
Open Scope C_scope.
Open Scope opt_scope.

Lemma visits_nonempty : forall l, layers_of l <> [] -> visits l <> [].
Proof.
  assert (AUX : forall ls, List.Forall (fun l => layers_of l <> [] -> visits l <> []) ls ->
    layers_of (ASequence ls) <> [] -> visits (ASequence ls) <> []).
  { induction ls as [|l ls IH]; intros H N E; [apply N; reflexivity|]. inversion H as [|? ? A B]; subst.
    change (visits (ASequence (l :: ls))) with (visits l ++ visits (ASequence ls)) in E. apply app_eq_nil in E. destruct E as [E1 E2].
    apply N. change (layers_of (ASequence (l :: ls))) with (layers_of l ++ layers_of (ASequence ls)).
    destruct (layers_of l) eqn:L; [|exfalso; apply A; [discriminate | exact E1]].
    destruct (layers_of (ASequence ls)) eqn:LS; [reflexivity|]. exfalso. apply IH; [exact B | discriminate | exact E2]. }
  induction l as [l|ls IH|ls n IH] using alayer_induction; intros N.
  - discriminate.
  - exact (AUX ls IH N).
  - change (visits (APeriodic ls n)) with (visits (ASequence ls) ++ visits (ASequence ls)). intros E. apply app_eq_nil in E.
    exact (AUX ls IH N (proj1 E)).
Qed.

Lemma stack_direction : forall wavelength s layers n d w,
  List.Forall (fun l => layer_n l wavelength <> 0) (layers_of layers) -> layers_of layers <> [] ->
  let st := fst (transfer wavelength s layers (LState n (Some d) w)) in
  st_direction st = snells_law_scalar d n (st_n st).
Proof.
  intros wl s layers n d w H N. cbv zeta. rewrite transfer_state.
  assert (V := visits_nonempty layers N).
  assert (F : List.Forall (fun l => layer_n l wl <> 0) (visits layers)).
  { rewrite Forall_forall in *. intros x X. apply H, visits_layers, X. }
  destruct (visits layers) as [|a v] using rev_ind; [contradiction|]. clear IHv.
  rewrite (run_value wl s v a (LState n (Some d) w) d F eq_refl). cbn [st_n st_direction].
  apply Forall_app in F. destruct F as [_ F]. inversion F; subst. rewrite snell_value by assumption. reflexivity.
Qed.

(** Splitting a layer. *)
Lemma split_efficiency : forall wavelength s d n pre post l l1 l2 substrate,
  (wavelength <> 0)%R ->
  List.Forall (fun l => layer_n l wavelength <> 0) (layers_of (ASequence pre)) -> layer_n l wavelength <> 0 ->
  ly_chemical l1 = ly_chemical l -> ly_chemical l2 = ly_chemical l -> ly_interface l1 = ly_interface l ->
  (ly_thickness l = ly_thickness l1 + ly_thickness l2)%R ->
  let k := n * n * (1 - d * d) in
  off_critical k (layer_n l wavelength) ->
  (forall p c, ly_interface l2 = Some p -> layer_n l wavelength * layer_n l wavelength * (1 - c * c) = k ->
     exists w, profile_reflectivity p wavelength (polarized s c) (layer_n l wavelength) = Some w) ->
  transparent k wavelength l -> transparent k wavelength l1 -> transparent k wavelength l2 ->
  multilayer_efficiency wavelength d n (ASequence (pre ++ [ALayer l1; ALayer l2] ++ post)) substrate s =
  multilayer_efficiency wavelength d n (ASequence (pre ++ [ALayer l] ++ post)) substrate s.
Proof.
  intros wl s d n pre post l l1 l2 substrate W P N C1 C2 I H k OC ID T T1 T2.
  assert (E : transfer wl s (ASequence (pre ++ [ALayer l1; ALayer l2] ++ post)) (LState n (Some d) true) =
              transfer wl s (ASequence (pre ++ [ALayer l] ++ post)) (LState n (Some d) true)).
  { destruct l as [ch h i], l1 as [ch1 h1 i1], l2 as [ch2 h2 i2]. cbn [ly_chemical ly_thickness ly_interface] in *. subst ch1 ch2 i1 h.
    assert (X := split_in_stack wl s pre post (Layer ch (h1 + h2) i) h1 h2 i2 (LState n (Some d) true) d W P N eq_refl).
    cbv zeta in X. cbn [st_n st_direction] in X. unfold with_thickness in X. cbn [ly_chemical ly_interface] in X.
    assert (K := tangential2_cos_in k (layer_n (Layer ch (h1 + h2) i) wl) N).
    apply X; try assumption.
    - unfold interface_defined. destruct i2 as [p|]; [|trivial]. exact (ID p _ eq_refl K).
    - exact (T _ K).
    - exact (T1 _ K).
    - exact (T2 _ K). }
  unfold multilayer_efficiency, multilayer_coefficients, multilayer_matrix. cbv zeta. rewrite E. reflexivity.
Qed.

(** A periodic sequence: the reflectivity and the transmissivity. *)
Lemma periodic_efficiency : forall wavelength s d n ls num substrate, (1 <= num)%Z ->
  List.Forall (fun l => layer_n l wavelength <> 0) (layers_of (ASequence ls)) ->
  (num = 1%Z -> snd (transfer wavelength s (ASequence (ls ++ ls)) (LState n (Some d) true)) <> None) ->
  multilayer_efficiency wavelength d n (APeriodic ls num) substrate s =
  multilayer_efficiency wavelength d n (ASequence (list_times ls num)) substrate s.
Proof.
  intros wl s d n ls num substrate N F D. unfold multilayer_efficiency, multilayer_coefficients, multilayer_matrix. cbv zeta.
  rewrite (periodic_is_repetition wl s ls num (LState n (Some d) true) d N F eq_refl); [reflexivity|].
  intros E. specialize (D E). destruct (snd (transfer wl s (ASequence (ls ++ ls)) (LState n (Some d) true))) as [m|]; [exists m; reflexivity | contradiction].
Qed.
