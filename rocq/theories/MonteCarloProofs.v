(** Conservation of electrons in the Monte Carlo model. *)
From Coq Require Import Reals List Bool ZArith Lia Permutation.
From Verif Require Import Num RamanathanModel MonteCarloSpec.
Import ListNotations.
Open Scope opt_scope.

(** ** Lists *)
Lemma oconcat_value : forall {A B} (f : A -> option (list B)) l w, oconcat f l = Some w ->
  w = flat_map (fun a => match f a with Some u => u | None => [] end) l /\ (forall a, In a l -> exists u, f a = Some u).
Proof.
  intros A B f l. induction l as [|a l IH]; intros w E; cbn in E.
  - injection E as <-. split; [reflexivity | intros a []].
  - destruct (f a) as [u|] eqn:F; [|discriminate]. cbn [obind] in E.
    destruct (oconcat f l) as [v|] eqn:G; [|discriminate]. cbn [obind] in E. injection E as <-.
    destruct (IH v eq_refl) as [-> H]. split; [cbn; rewrite F; reflexivity|].
    intros b [<-|I]; [exists u; exact F | apply H, I].
Qed.

Lemma flat_map_ext_in : forall {A B} (f g : A -> list B) l, (forall a, In a l -> f a = g a) -> flat_map f l = flat_map g l.
Proof.
  intros A B f g l. induction l as [|a l IH]; intros H; [reflexivity|]. cbn. rewrite (H a) by (left; reflexivity).
  f_equal. apply IH. intros b I. apply H. right; exact I.
Qed.

Lemma flat_map_map_flat : forall {A B D} (f : A -> list B) (g : B -> D) l, map g (flat_map f l) = flat_map (fun a => map g (f a)) l.
Proof. intros A B D f g l. induction l as [|a l IH]; [reflexivity|]. cbn. rewrite map_app, IH. reflexivity. Qed.

Lemma keep_app : forall {A} (u v : list (option A)), keep (u ++ v) = keep u ++ keep v.
Proof. intros. unfold keep. apply flat_map_app. Qed.

Lemma keep_flat_map : forall {A B} (f : A -> list (option B)) l, keep (flat_map f l) = flat_map (fun a => keep (f a)) l.
Proof. intros A B f l. induction l as [|a l IH]; [reflexivity|]. cbn [flat_map]. rewrite keep_app, IH. reflexivity. Qed.

Lemma zrange_in : forall n x, In x (zrange n) <-> (0 <= x < n)%Z.
Proof.
  intros n x. unfold zrange. rewrite in_map_iff. split.
  - intros (k & <- & I). apply in_seq in I. lia.
  - intros H. exists (Z.to_nat x). split; [lia|]. apply in_seq. lia.
Qed.

Lemma zrange_nodup : forall n, NoDup (zrange n).
Proof. intros n. unfold zrange. apply FinFun.Injective_map_NoDup; [intros a b; apply Nat2Z.inj | apply seq_NoDup]. Qed.

(** ** The electrons of a slice, listed in the order of the loops *)
Definition electrons (nx ny : Z) (s : mc_slice) : list electron :=
  flat_map (fun x => flat_map (fun y => flat_map (fun j =>
    map (fun e => (x, y, j, e)) (seq 0 (Z.to_nat (survivors s x y j)))) (seq 0 (photons s x y))) (zrange ny)) (zrange nx).

Lemma electrons_in : forall nx ny s el, In el (electrons nx ny s) <-> is_electron nx ny s el.
Proof.
  intros nx ny s [[[x y] j] e]. unfold electrons, is_electron. rewrite in_flat_map. split.
  - intros (x' & X & I). apply in_flat_map in I. destruct I as (y' & Y & I). apply in_flat_map in I. destruct I as (j' & J & I).
    apply in_map_iff in I. destruct I as (e' & E & I). injection E as -> -> -> ->.
    apply zrange_in in X, Y. apply in_seq in J, I. split; [lia|]. split; [lia|]. lia.
  - intros ([X Y] & J & E). exists x. split; [apply zrange_in; exact X|]. apply in_flat_map. exists y. split; [apply zrange_in; exact Y|].
    apply in_flat_map. exists j. split; [apply in_seq; lia|]. apply in_map_iff. exists e. split; [reflexivity|]. apply in_seq. lia.
Qed.

Lemma NoDup_flat_map : forall {A B} (f : A -> list B) l, NoDup l -> (forall a, In a l -> NoDup (f a)) ->
  (forall a b x, In a l -> In b l -> In x (f a) -> In x (f b) -> a = b) -> NoDup (flat_map f l).
Proof.
  intros A B f l N. induction N as [|a l NI N IH]; intros F D; [constructor|]. cbn.
  assert (T : NoDup (flat_map f l)). { apply IH; [intros b I; apply F; right; exact I|]. intros b c x Ib Ic. apply D; right; assumption. }
  assert (FA := F a (or_introl eq_refl)).
  assert (S : forall x, In x (f a) -> ~ In x (flat_map f l)).
  { intros x I J. apply in_flat_map in J. destruct J as (b & Ib & J).
    assert (a = b) by (apply (D a b x); [left; reflexivity | right; exact Ib | exact I | exact J]). subst b. contradiction. }
  clear -T FA S. induction FA as [|x u NX U IHU]; [exact T|]. cbn. constructor.
  - intros I. apply in_app_or in I. destruct I as [I|I]; [contradiction|]. exact (S x (or_introl eq_refl) I).
  - apply IHU. intros y I. apply S. right; exact I.
Qed.

Lemma electrons_nodup : forall nx ny s, NoDup (electrons nx ny s).
Proof.
  intros nx ny s. unfold electrons.
  apply NoDup_flat_map; [apply zrange_nodup | |].
  - intros x X. apply NoDup_flat_map; [apply zrange_nodup | |].
    + intros y Y. apply NoDup_flat_map; [apply seq_NoDup | |].
      * intros j J. apply FinFun.Injective_map_NoDup; [intros a b E; injection E; auto | apply seq_NoDup].
      * intros a b el _ _ I J. apply in_map_iff in I, J. destruct I as (? & <- & _), J as (? & E & _). injection E. auto.
    + intros a b el _ _ I J. apply in_flat_map in I, J. destruct I as (? & _ & I), J as (? & _ & J).
      apply in_map_iff in I, J. destruct I as (? & <- & _), J as (? & E & _). injection E. auto.
  - intros a b el _ _ I J. apply in_flat_map in I, J. destruct I as (? & _ & I), J as (? & _ & J).
    apply in_flat_map in I, J. destruct I as (? & _ & I), J as (? & _ & J).
    apply in_map_iff in I, J. destruct I as (? & <- & _), J as (? & E & _). injection E. auto.
Qed.

(** ** The increments are the electrons that land *)
Definition land (wrap : bool) (nx ny : Z) (s : mc_slice) (el : electron) : option (Z * Z) :=
  landing wrap nx ny (fst (position s el)) (snd (position s el)).

Lemma writes_electrons : forall wrap nx ny s w, slice_writes wrap nx ny s = Some w ->
  w = keep (map (land wrap nx ny s) (electrons nx ny s)).
Proof.
  intros wrap nx ny s w E. unfold slice_writes in E. apply oconcat_value in E. destruct E as [-> HX].
  unfold electrons. rewrite flat_map_map_flat, keep_flat_map. apply flat_map_ext_in. intros x X.
  destruct (HX x X) as [u EX]. rewrite EX. apply oconcat_value in EX. destruct EX as [-> HY].
  rewrite flat_map_map_flat, keep_flat_map. apply flat_map_ext_in. intros y Y.
  destruct (HY y Y) as [u EY]. rewrite EY. apply oconcat_value in EY. destruct EY as [-> HJ].
  rewrite flat_map_map_flat, keep_flat_map. apply flat_map_ext_in. intros j J.
  destruct (HJ j J) as [u EJ]. rewrite EJ. unfold photon_writes in EJ. unfold survivors.
  destruct (surviving _ _) as [m|]; [|discriminate]. cbn [obind] in EJ. injection EJ as <-. f_equal. rewrite map_map. apply map_ext.
  intros e. unfold land, position. destruct (displacement _ _ e) as [p q]. reflexivity.
Qed.

(** ** Counting *)
Lemma pair_dec : forall p q : Z * Z, {p = q} + {p <> q}.
Proof. decide equality; apply Z.eq_dec. Qed.

Lemma fold_count : forall w g x y, fold_left increment w g x y = (g x y + Z.of_nat (count_occ pair_dec w (x, y)))%Z.
Proof.
  induction w as [|[p q] w IH]; intros g x y; [cbn; lia|]. cbn [fold_left]. rewrite IH. unfold increment. cbn [fst snd count_occ].
  destruct (pair_dec (p, q) (x, y)) as [E|E].
  - injection E as -> ->. rewrite !Z.eqb_refl. cbn [andb]. lia.
  - destruct (Z.eqb_spec x p) as [->|]; [|reflexivity]. destruct (Z.eqb_spec y q) as [->|]; [contradiction|]. reflexivity.
Qed.

Definition opair_dec : forall a b : option (Z * Z), {a = b} + {a <> b}.
Proof. decide equality. apply pair_dec. Defined.

Lemma count_keep : forall {A} (f : A -> option (Z * Z)) l p,
  count_occ pair_dec (keep (map f l)) p = length (filter (fun a => if opair_dec (f a) (Some p) then true else false) l).
Proof.
  intros A f l p. induction l as [|a l IH]; [reflexivity|]. cbn [map filter].
  change (keep (f a :: map f l)) with ((match f a with Some q => [q] | None => [] end) ++ keep (map f l)).
  rewrite count_occ_app, IH.
  destruct (opair_dec (f a) (Some p)) as [E|E].
  - rewrite E. cbn. destruct (pair_dec p p); [reflexivity | contradiction].
  - destruct (f a) as [q|]; [|reflexivity]. cbn. destruct (pair_dec q p) as [->|]; [congruence | reflexivity].
Qed.

Lemma landing_spec : forall wrap nx ny q p, (0 < nx)%Z -> (0 < ny)%Z ->
  landing wrap nx ny (fst q) (snd q) = Some p <-> in_grid nx ny p /\ on_pixel wrap nx ny p q.
Proof.
  intros wrap nx ny [a b] [x y] NX NY. unfold landing, in_grid, on_pixel. cbn [fst snd]. destruct wrap.
  - split.
    + intros E. injection E as <- <-. split; [split; apply Z.mod_pos_bound; assumption|].
      split; [exists (a / nx)%Z | exists (b / ny)%Z]; rewrite Z.mod_eq by lia; lia.
    + intros ([X Y] & (k & ->) & (l & ->)). rewrite !Z.mod_add by lia. rewrite !Z.mod_small by assumption. reflexivity.
  - destruct ((0 <=? a) && (a <? nx) && ((0 <=? b) && (b <? ny)))%Z eqn:B.
    + rewrite !andb_true_iff, !Z.leb_le, !Z.ltb_lt in B. split.
      * intros E. injection E as <- <-. split; [lia | reflexivity].
      * intros [_ E]. injection E as -> ->. reflexivity.
    + split; [discriminate|]. intros [G E]. injection E as -> ->.
      assert (T : ((0 <=? x) && (x <? nx) && ((0 <=? y) && (y <? ny)))%Z = true)
        by (rewrite !andb_true_iff, !Z.leb_le, !Z.ltb_lt; lia). congruence.
Qed.

Lemma number_filter : forall nx ny s (f : electron -> bool) P, (forall el, is_electron nx ny s el -> f el = true <-> P el) ->
  number_of (fun el => is_electron nx ny s el /\ P el) (Z.of_nat (length (filter f (electrons nx ny s)))).
Proof.
  intros nx ny s f P H. exists (filter f (electrons nx ny s)). split; [apply NoDup_filter, electrons_nodup|]. split; [|reflexivity].
  intros el. rewrite filter_In, electrons_in. split; intros [I J]; (split; [exact I|]); apply (H el I); exact J.
Qed.

Lemma image_counts : forall wrap nx ny s g, (0 < nx)%Z -> (0 < ny)%Z -> run_slice wrap nx ny s = Some g ->
  forall x y, in_grid nx ny (x, y) ->
  number_of (fun el => is_electron nx ny s el /\ on_pixel wrap nx ny (x, y) (position s el)) (g x y).
Proof.
  intros wrap nx ny s g NX NY E x y G. unfold run_slice in E. destruct (slice_writes wrap nx ny s) as [w|] eqn:W; [|discriminate].
  cbn [obind] in E. injection E as <-. rewrite fold_count. apply writes_electrons in W. subst w. rewrite count_keep.
  unfold zeros. rewrite Z.add_0_l. apply number_filter. intros el _. unfold land. 
  destruct (opair_dec _ _) as [L|L].
  - apply landing_spec in L; [|assumption|assumption]. split; [intros _; apply L | reflexivity].
  - split; [discriminate|]. intros P. exfalso. apply L. apply landing_spec; [assumption|assumption|]. split; assumption.
Qed.

Lemma image_outside : forall wrap nx ny s g, (0 < nx)%Z -> (0 < ny)%Z -> run_slice wrap nx ny s = Some g ->
  forall x y, ~ in_grid nx ny (x, y) -> g x y = 0%Z.
Proof.
  intros wrap nx ny s g NX NY E x y G. unfold run_slice in E. destruct (slice_writes wrap nx ny s) as [w|] eqn:W; [|discriminate].
  cbn [obind] in E. injection E as <-. rewrite fold_count. apply writes_electrons in W. subst w. rewrite count_keep.
  unfold zeros. rewrite Z.add_0_l. rewrite (proj2 (length_zero_iff_nil _)); [reflexivity|].
  destruct (filter _ _) as [|el l] eqn:F; [reflexivity|]. exfalso.
  assert (I : In el (filter (fun a => if opair_dec (land wrap nx ny s a) (Some (x, y)) then true else false) (electrons nx ny s))) by (rewrite F; left; reflexivity).
  apply filter_In in I. destruct I as [_ I]. destruct (opair_dec _ _) as [L|L]; [|discriminate].
  apply landing_spec in L; [|assumption|assumption]. apply G, L.
Qed.

Lemma writes_in_grid : forall wrap nx ny s w, (0 < nx)%Z -> (0 < ny)%Z -> slice_writes wrap nx ny s = Some w ->
  forall p, In p w -> in_grid nx ny p.
Proof.
  intros wrap nx ny s w NX NY W p I. apply writes_electrons in W. subst w. unfold keep in I. apply in_flat_map in I.
  destruct I as (o & I & J). apply in_map_iff in I. destruct I as (el & <- & I). unfold land in J.
  destruct (landing _ _ _ _ _) as [q|] eqn:L; [|destruct J]. destruct J as [<-|[]]. apply landing_spec in L; [|assumption|assumption]. apply L.
Qed.

(** ** Totals *)
Lemma zsum_app : forall u v, zsum (u ++ v) = (zsum u + zsum v)%Z.
Proof. induction u as [|a u IH]; intros v; cbn; [reflexivity|]. fold (zsum (u ++ v)) (zsum u). rewrite IH. lia. Qed.
Lemma zsum_map_plus : forall {A} (f g : A -> Z) l, zsum (map (fun a => f a + g a)%Z l) = (zsum (map f l) + zsum (map g l))%Z.
Proof. intros A f g l. induction l as [|a l IH]; [reflexivity|]. cbn. fold (zsum (map (fun a => f a + g a)%Z l)) (zsum (map f l)) (zsum (map g l)). lia. Qed.
Lemma zsum_map_0 : forall {A} (f : A -> Z) l, (forall a, In a l -> f a = 0%Z) -> zsum (map f l) = 0%Z.
Proof.
  intros A f l. induction l as [|a l IH]; intros H; [reflexivity|]. cbn. fold (zsum (map f l)). rewrite IH, (H a); [reflexivity | left; reflexivity |].
  intros b I. apply H. right; exact I.
Qed.
Lemma zsum_map_ext : forall {A} (f g : A -> Z) l, (forall a, In a l -> f a = g a) -> zsum (map f l) = zsum (map g l).
Proof. intros A f g l H. f_equal. apply map_ext_in. exact H. Qed.
Lemma zsum_single : forall p l, NoDup l -> In p l -> zsum (map (fun x => if Z.eqb x p then 1%Z else 0%Z) l) = 1%Z.
Proof.
  intros p l N. induction N as [|a l NI N IH]; intros I; [destruct I|]. cbn. fold (zsum (map (fun x => if Z.eqb x p then 1%Z else 0%Z) l)).
  destruct (Z.eqb_spec a p) as [->|D].
  - rewrite zsum_map_0; [reflexivity|]. intros b J. destruct (Z.eqb_spec b p) as [->|]; [contradiction | reflexivity].
  - rewrite IH; [reflexivity|]. destruct I; [contradiction | assumption].
Qed.

Lemma grid_total_ext : forall nx ny f g, (forall x y, in_grid nx ny (x, y) -> f x y = g x y) -> grid_total nx ny f = grid_total nx ny g.
Proof.
  intros nx ny f g H. unfold grid_total. apply zsum_map_ext. intros x X. apply zsum_map_ext. intros y Y.
  apply zrange_in in X, Y. apply H. split; assumption.
Qed.
Lemma grid_total_plus : forall nx ny f g, grid_total nx ny (fun x y => f x y + g x y)%Z = (grid_total nx ny f + grid_total nx ny g)%Z.
Proof.
  intros. unfold grid_total. rewrite <- zsum_map_plus. apply zsum_map_ext. intros x _. apply zsum_map_plus.
Qed.
Lemma grid_total_zeros : forall nx ny, grid_total nx ny zeros = 0%Z.
Proof. intros. unfold grid_total, zeros. apply zsum_map_0. intros. apply zsum_map_0. reflexivity. Qed.

Lemma grid_total_increment : forall nx ny g w, in_grid nx ny w -> grid_total nx ny (increment g w) = (grid_total nx ny g + 1)%Z.
Proof.
  intros nx ny g [p q] [P Q]. cbn [fst snd] in *.
  rewrite (grid_total_ext nx ny _ (fun x y => g x y + (if (x =? p)%Z then (if (y =? q)%Z then 1 else 0) else 0))%Z).
  - rewrite grid_total_plus. f_equal. unfold grid_total.
    rewrite (zsum_map_ext _ (fun x => if Z.eqb x p then 1%Z else 0%Z)).
    + apply zsum_single; [apply zrange_nodup | apply zrange_in; exact P].
    + intros x _. destruct (x =? p)%Z; [apply zsum_single; [apply zrange_nodup | apply zrange_in; exact Q]|]. apply zsum_map_0. reflexivity.
  - intros x y _. unfold increment. cbn [fst snd]. destruct (x =? p)%Z; cbn [andb]; [|lia]. destruct (y =? q)%Z; lia.
Qed.

Lemma grid_total_fold : forall nx ny w g, (forall p, In p w -> in_grid nx ny p) ->
  grid_total nx ny (fold_left increment w g) = (grid_total nx ny g + Z.of_nat (length w))%Z.
Proof.
  intros nx ny w. induction w as [|p w IH]; intros g H; [cbn; lia|]. cbn [fold_left length]. rewrite IH by (intros q I; apply H; right; exact I).
  rewrite grid_total_increment by (apply H; left; reflexivity). lia.
Qed.

Lemma keep_length : forall {A} (l : list (option A)), (length (keep l) <= length l)%nat.
Proof.
  intros A l. induction l as [|[a|] l IH]; [apply le_n | |].
  - change (keep (Some a :: l)) with (a :: keep l). cbn [length]. lia.
  - change (keep (None :: l)) with (keep l). cbn [length]. lia.
Qed.
Lemma keep_all : forall {A} (l : list (option A)), (forall o, In o l -> o <> None) -> length (keep l) = length l.
Proof.
  intros A l. induction l as [|[a|] l IH]; intros H; [reflexivity | |].
  - change (keep (Some a :: l)) with (a :: keep l). cbn [length]. f_equal. apply IH. intros o I. apply H. right; exact I.
  - exfalso. exact (H None (or_introl eq_refl) eq_refl).
Qed.

Lemma number_total : forall nx ny s, number_of (is_electron nx ny s) (Z.of_nat (length (electrons nx ny s))).
Proof. intros nx ny s. exists (electrons nx ny s). split; [apply electrons_nodup|]. split; [intros el; apply electrons_in | reflexivity]. Qed.

Lemma number_unique : forall P n m, number_of P n -> number_of P m -> n = m.
Proof.
  intros P n m (u & NU & IU & <-) (v & NV & IV & <-). f_equal.
  apply Permutation_length, NoDup_Permutation; [assumption|assumption|]. intros el. rewrite IU, IV. reflexivity.
Qed.

Lemma total_bound : forall wrap nx ny s g n, (0 < nx)%Z -> (0 < ny)%Z -> run_slice wrap nx ny s = Some g ->
  number_of (is_electron nx ny s) n -> (grid_total nx ny g <= n)%Z.
Proof.
  intros wrap nx ny s g n NX NY E N. rewrite (number_unique _ _ _ N (number_total nx ny s)). unfold run_slice in E.
  destruct (slice_writes wrap nx ny s) as [w|] eqn:W; [|discriminate]. cbn [obind] in E. injection E as <-.
  rewrite grid_total_fold by (apply (writes_in_grid wrap nx ny s); assumption). rewrite grid_total_zeros.
  apply writes_electrons in W. subst w. assert (K := keep_length (map (land wrap nx ny s) (electrons nx ny s))). rewrite map_length in K. lia.
Qed.

Lemma total_equal : forall wrap nx ny s g n, (0 < nx)%Z -> (0 < ny)%Z -> run_slice wrap nx ny s = Some g ->
  number_of (is_electron nx ny s) n ->
  (wrap = true \/ forall el, is_electron nx ny s el -> in_grid nx ny (position s el)) -> grid_total nx ny g = n.
Proof.
  intros wrap nx ny s g n NX NY E N H. rewrite (number_unique _ _ _ N (number_total nx ny s)). unfold run_slice in E.
  destruct (slice_writes wrap nx ny s) as [w|] eqn:W; [|discriminate]. cbn [obind] in E. injection E as <-.
  rewrite grid_total_fold by (apply (writes_in_grid wrap nx ny s); assumption). rewrite grid_total_zeros.
  apply writes_electrons in W. subst w. rewrite keep_all, map_length; [lia|].
  intros o I. apply in_map_iff in I. destruct I as (el & <- & I). apply electrons_in in I. unfold land.
  destruct wrap; [unfold landing; discriminate|]. destruct H as [H|H]; [discriminate|].
  assert (L := proj2 (landing_spec false nx ny (position s el) (position s el) NX NY) (conj (H el I) eq_refl)). rewrite L. discriminate.
Qed.

(** The number of electrons is the sum of the survivors of all photons. *)
Lemma count_survivors : forall nx ny s, proper_draws s ->
  Z.of_nat (length (electrons nx ny s)) = grid_total nx ny (fun x y => zsum (map (survivors s x y) (seq 0 (photons s x y)))).
Proof.
  intros nx ny s P.
  assert (NN : forall x y j, (0 <= survivors s x y j)%Z).
  { intros x y j. unfold survivors, surviving. destruct (pair_count _ _) as [n|]; cbn [obind]; [|lia].
    destruct (Z.ltb_spec n 0); [lia|]. destruct (Rle_dec _ _); [|lia]. destruct (Rle_dec _ _); [|lia]. apply P. assumption. }
  assert (F : forall {A B} (f : A -> list B) l, Z.of_nat (length (flat_map f l)) = zsum (map (fun a => Z.of_nat (length (f a))) l)).
  { intros A B f l. induction l as [|a l IH]; [reflexivity|]. cbn [flat_map map]. rewrite app_length, Nat2Z.inj_add, IH. reflexivity. }
  unfold electrons, grid_total. rewrite F. apply zsum_map_ext. intros x _. rewrite F. apply zsum_map_ext. intros y _.
  rewrite F. apply zsum_map_ext. intros j _. rewrite map_length, seq_length. apply Z2Nat.id, NN.
Qed.
