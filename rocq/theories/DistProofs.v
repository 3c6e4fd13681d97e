(** Moments of finite distributions and of Poisson mixtures. *)
From Coq Require Import Reals List Lra Factorial.
From Coquelicot Require Import Coquelicot.
From Verif Require Import Num NumLemmas DistSpec.
Import ListNotations.
Open Scope R_scope.

Lemma expect_cons : forall f pv d, expect f (pv :: d) = fst pv * f (snd pv) + expect f d.
Proof. reflexivity. Qed.
Lemma expect_app : forall f d e, expect f (d ++ e) = expect f d + expect f e.
Proof. intros. unfold expect. rewrite map_app, rsum_app. reflexivity. Qed.
Lemma expect_plus : forall f g d, expect (fun x => f x + g x) d = expect f d + expect g d.
Proof. intros f g d. induction d as [|pv d IH]; [cbn; ring|]. rewrite !expect_cons, IH. ring. Qed.
Lemma expect_scal : forall k f d, expect (fun x => k * f x) d = k * expect f d.
Proof. intros k f d. induction d as [|pv d IH]; [cbn; ring|]. rewrite !expect_cons, IH. ring. Qed.
Lemma expect_ext : forall f g d, (forall x, f x = g x) -> expect f d = expect g d.
Proof. intros f g d H. induction d as [|pv d IH]; [reflexivity|]. rewrite !expect_cons, IH, H. reflexivity. Qed.

Lemma expect_shift : forall f p x e,
  expect f (map (fun qw => (p * fst qw, x + snd qw)) e) = p * expect (fun w => f (x + w)) e.
Proof.
  intros f p x e. induction e as [|qw e IH]; [cbn; ring|]. cbn [map]. rewrite !expect_cons, IH. cbn [fst snd]. ring.
Qed.
Lemma expect_conv : forall f d e, expect f (conv d e) = expect (fun x => expect (fun w => f (x + w)) e) d.
Proof.
  intros f d e. induction d as [|pv d IH]; [reflexivity|].
  cbn [conv flat_map]. fold (conv d e). rewrite expect_app, IH, expect_shift, expect_cons. reflexivity.
Qed.

Lemma expect_const : forall c d, expect (fun _ => c) d = c * expect (fun _ => 1) d.
Proof. intros c d. rewrite <- expect_scal. apply expect_ext. intros. ring. Qed.

Lemma iid_total : forall k d, expect (fun _ => 1) d = 1 -> expect (fun _ => 1) (iid_sum k d) = 1.
Proof.
  intros k d H. induction k as [|k IH]; [cbn; ring|]. cbn [iid_sum]. rewrite expect_conv.
  rewrite expect_const, IH, H. ring.
Qed.
Lemma iid_mean : forall k d, expect (fun _ => 1) d = 1 -> mean (iid_sum k d) = INR k * mean d.
Proof.
  intros k d H. induction k as [|k IH]; [cbn; ring|]. cbn [iid_sum]. unfold mean in *. rewrite expect_conv.
  rewrite (expect_ext _ (fun x => x + INR k * expect (fun x => x) d)).
  2:{ intros x. rewrite expect_plus, IH, expect_const, iid_total by exact H. ring. }
  rewrite expect_plus, expect_const, H, S_INR. ring.
Qed.
Definition second (d : dist) : R := expect (fun x => x * x) d.
Lemma iid_second : forall k d, expect (fun _ => 1) d = 1 ->
  second (iid_sum k d) = INR k * second d + INR k * (INR k - 1) * (mean d * mean d).
Proof.
  intros k d H. induction k as [|k IH]; [cbn; ring|]. cbn [iid_sum]. unfold second in *. rewrite expect_conv.
  assert (M := iid_mean k d H).
  rewrite (expect_ext _ (fun x => x * x + (2 * mean (iid_sum k d) * x + expect (fun x => x * x) (iid_sum k d)))).
  2:{ intros x. rewrite (expect_ext _ (fun w => x * x + (2 * x * w + w * w))) by (intros; ring).
      rewrite !expect_plus, expect_const, iid_total by exact H. rewrite expect_scal. unfold mean. ring. }
  rewrite !expect_plus, expect_scal, (expect_const _ d), H, IH, M, S_INR. unfold mean. ring.
Qed.

Lemma variance_second : forall d, expect (fun _ => 1) d = 1 -> variance d = second d - mean d * mean d.
Proof.
  intros d H. unfold variance.
  rewrite (expect_ext _ (fun x => x * x + (-2 * mean d * x + mean d * mean d))) by (intros; ring).
  rewrite !expect_plus, expect_scal, expect_const, H. unfold second, mean. ring.
Qed.

(** ** Thinning *)
Lemma bernoulli_total : forall h, expect (fun _ => 1) (bernoulli h) = 1.
Proof. intros. cbn. ring. Qed.
Lemma binomial_mean : forall n h, mean (binomial n h) = INR n * h.
Proof. intros. unfold binomial. rewrite iid_mean by apply bernoulli_total. cbn. ring. Qed.
Lemma binomial_second : forall n h, second (binomial n h) = INR n * h + INR n * (INR n - 1) * (h * h).
Proof. intros. unfold binomial. rewrite iid_second by apply bernoulli_total. unfold second, mean. cbn. ring. Qed.
Lemma binomial_total : forall n h, expect (fun _ => 1) (binomial n h) = 1.
Proof. intros. apply iid_total, bernoulli_total. Qed.

Lemma expect_weigh : forall f p d, expect f (weigh p d) = p * expect f d.
Proof. intros f p d. induction d as [|qw d IH]; [cbn; ring|]. unfold weigh in *. cbn [map]. rewrite !expect_cons, IH. cbn [fst snd]. ring. Qed.
Lemma expect_mix : forall {A} f (d : list (R * A)) next,
  expect f (mix d next) = rsum (map (fun pa => fst pa * expect f (next (snd pa))) d).
Proof.
  intros A f d next. induction d as [|pa d IH]; [reflexivity|].
  cbn [mix flat_map]. fold (mix d next). rewrite expect_app, IH, expect_weigh. reflexivity.
Qed.
Lemma expect_mix_dist : forall f (d : dist) next,
  expect f (mix d next) = expect (fun x => expect f (next x)) d.
Proof. intros. apply expect_mix. Qed.

Lemma expect_counts : forall f pairs, expect f (counts pairs) = rsum (map (fun pn => fst pn * f (INR (snd pn))) pairs).
Proof. intros f pairs. unfold expect, counts. rewrite map_map. reflexivity. Qed.

Lemma thinned_expect : forall f g pairs eff, (forall n, expect (fun h => expect f (binomial n h)) eff = g (INR n)) ->
  expect f (thinned pairs eff) = expect g (counts pairs).
Proof.
  intros f g pairs eff H. unfold thinned. rewrite expect_mix, expect_counts.
  apply rsum_map_ext. intros pn _. rewrite expect_mix_dist, H. reflexivity.
Qed.

Section Thinned.
  Variables (pairs : list (R * nat)) (eff : dist).
  Hypothesis PT : expect (fun _ => 1) (counts pairs) = 1.
  Hypothesis ET : expect (fun _ => 1) eff = 1.

  Lemma thinned_total : expect (fun _ => 1) (thinned pairs eff) = 1.
  Proof.
    rewrite (thinned_expect _ (fun _ => 1)); [exact PT|]. intros n.
    rewrite (expect_ext _ (fun _ => 1)); [exact ET | intros h; apply binomial_total].
  Qed.
  Lemma thinned_mean : mean (thinned pairs eff) = mean (counts pairs) * mean eff.
  Proof.
    unfold mean at 1. rewrite (thinned_expect _ (fun n => mean eff * n)).
    - rewrite expect_scal. unfold mean. ring.
    - intros n. rewrite (expect_ext _ (fun h => INR n * h)) by (intros h; apply binomial_mean).
      rewrite expect_scal. unfold mean. ring.
  Qed.
  Lemma thinned_second : second (thinned pairs eff) =
    mean (counts pairs) * mean eff + (second (counts pairs) - mean (counts pairs)) * second eff.
  Proof.
    unfold second at 1. rewrite (thinned_expect _ (fun n => (mean eff - second eff) * n + second eff * (n * n))).
    - rewrite expect_plus, !expect_scal. unfold second, mean. ring.
    - intros n. rewrite (expect_ext _ (fun h => INR n * h + INR n * (INR n - 1) * (h * h))) by (intros h; apply binomial_second).
      rewrite expect_plus, !expect_scal. unfold second, mean. ring.
  Qed.
End Thinned.

(** ** Poisson mixtures *)
Ltac rring := match goal with |- @eq _ ?a ?b => change (@eq R a b) end; ring.
Lemma exp_series : forall x, is_series (fun k => x ^ k / INR (fact k)) (exp x).
Proof.
  intros x. assert (H := is_exp_Reals x). apply is_pseries_R in H.
  eapply is_series_ext; [|exact H]. intros n. cbv beta. unfold Rdiv. rring.
Qed.
Lemma poisson_0 : forall l, is_series (fun k => poisson l k) 1.
Proof.
  intros l. replace 1 with (exp (- l) * exp l) by (rewrite <- exp_plus; replace (- l + l) with 0 by ring; apply exp_0).
  unfold poisson. apply (is_series_scal_l (exp (- l)) (fun k => l ^ k / INR (fact k))). apply exp_series.
Qed.

Lemma INR_0 : INR 0 = 0. Proof. reflexivity. Qed.
Lemma INR_fact_pos : forall k, 0 < INR (fact k).
Proof. intros. apply lt_0_INR, lt_O_fact. Qed.
Lemma INR_S_neq : forall k, INR (S k) <> 0.
Proof. intros. apply not_0_INR. discriminate. Qed.

Lemma is_series_shift : forall (a : nat -> R) l, a O = 0 -> is_series (fun k => a (S k)) l -> is_series a l.
Proof.
  intros a l Z H. apply (is_series_decr_1 (K := R_AbsRing) (V := R_NormedModule) a l).
  assert (E : l = plus l (opp (a O))) by (rewrite Z; change (@eq R l (Rplus l (Ropp 0))); rewrite Ropp_0; symmetry; apply Rplus_0_r).
  unfold R_NormedModule in *. eapply eq_rect; [exact H | exact E].
Qed.

Lemma poisson_step : forall l k, poisson l (S k) * INR (S k) = l * poisson l k.
Proof.
  intros l k. unfold poisson. rewrite fact_simpl, mult_INR. cbn [pow].
  assert (P := INR_fact_pos k). assert (Q := INR_S_neq k). field. split; [lra | exact Q].
Qed.
Lemma poisson_1 : forall l, is_series (fun k => poisson l k * INR k) l.
Proof.
  intros l. apply is_series_shift; [cbv beta; rewrite INR_0; rring|].
  apply (is_series_ext (fun k => l * poisson l k)); [intros k; symmetry; apply poisson_step|].
  assert (H := is_series_scal_l l _ _ (poisson_0 l)). rewrite Rmult_1_r in H. exact H.
Qed.
Lemma poisson_2 : forall l, is_series (fun k => poisson l k * (INR k * (INR k - 1))) (l * l).
Proof.
  intros l. apply is_series_shift; [cbv beta; rewrite INR_0; rring|].
  apply (is_series_ext (fun k => l * (poisson l k * INR k))).
  - intros k. rewrite <- Rmult_assoc, <- poisson_step, S_INR. rring.
  - exact (is_series_scal_l l _ _ (poisson_1 l)).
Qed.

Lemma is_series_lin : forall (a b : nat -> R) u v la lb, is_series a la -> is_series b lb ->
  is_series (fun k => u * a k + v * b k) (u * la + v * lb).
Proof.
  intros. apply (is_series_plus (K := R_AbsRing) (V := R_NormedModule) (fun k => u * a k) (fun k => v * b k)).
  - apply (is_series_scal_l u a la). assumption.
  - apply (is_series_scal_l v b lb). assumption.
Qed.

Section Compound.
  Variables (l : R) (d : dist).
  Hypothesis T : expect (fun _ => 1) d = 1.

  Lemma compound_mean : is_compound_expect l d (fun x => x) (l * mean d).
  Proof.
    unfold is_compound_expect. apply (is_series_ext (fun k => mean d * (poisson l k * INR k))).
    - intros k. change (expect (fun x => x) (iid_sum k d)) with (mean (iid_sum k d)). rewrite iid_mean by exact T.
      change (@eq R (mean d * (poisson l k * INR k)) (poisson l k * (INR k * mean d))). ring.
    - rewrite (Rmult_comm l). exact (is_series_scal_l (mean d) _ _ (poisson_1 l)).
  Qed.

  Lemma compound_variance : is_compound_expect l d (fun x => (x - l * mean d) ^ 2) (l * second d).
  Proof.
    unfold is_compound_expect.
    assert (H0 := poisson_0 l). assert (H1 := poisson_1 l). assert (H2 := poisson_2 l).
    assert (H := is_series_lin _ _ (mean d * mean d) 1 _ _ H2
              (is_series_lin _ _ (second d - 2 * (l * mean d) * mean d) ((l * mean d) ^ 2) _ _ H1 H0)).
    replace (l * second d) with (mean d * mean d * (l * l) + 1 * ((second d - 2 * (l * mean d) * mean d) * l + (l * mean d) ^ 2 * 1)) by ring.
    eapply is_series_ext; [|exact H]. intros k. cbv beta.
    rewrite (expect_ext _ (fun x => x * x + (-2 * (l * mean d) * x + (l * mean d) ^ 2))) by (intros; ring).
    rewrite !expect_plus, expect_scal, expect_const, iid_total by exact T.
    change (expect (fun x => x * x) (iid_sum k d)) with (second (iid_sum k d)).
    change (expect (fun x => x) (iid_sum k d)) with (mean (iid_sum k d)).
    rewrite iid_second, iid_mean by exact T.
    match goal with |- ?a = ?b => change (@eq R a b) end. ring.
  Qed.

  Lemma compound_vmr : l <> 0 -> mean d <> 0 -> is_compound_vmr l d (second d / mean d).
  Proof.
    intros L M. exists (l * mean d), (l * second d). split; [apply compound_mean|]. split; [apply compound_variance|].
    split; [apply Rmult_integral_contrapositive_currified; assumption|]. field. split; assumption.
  Qed.
End Compound.
