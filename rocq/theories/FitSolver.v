(** A least-squares solver (Gram-Schmidt): the hypothesis [least_squares] can be met. *)
From Coq Require Import Reals List Bool Arith Lra Lia.
From Verif Require Import Num NumLemmas DistortionModel FitModel FitSpec FitProofs.
Import ListNotations.
Open Scope R_scope.

Section points.
Variable A : Type.
Variable points : list A.
Definition inner (f g : A -> R) : R := rsum (map (fun p => f p * g p) points).
Fixpoint comb (basis : list (A -> R)) (cs : list R) (p : A) : R :=
  match basis, cs with
  | b :: basis, c :: cs => c * b p + comb basis cs p
  | _, _ => 0
  end.
Fixpoint zip_sub (t : R) (a b : list R) : list R :=
  match a, b with
  | x :: a, y :: b => (x - t * y) :: zip_sub t a b
  | _, _ => []
  end.
Fixpoint lsq (basis : list (A -> R)) (y : A -> R) : list R :=
  match basis with
  | [] => []
  | b :: bs =>
      let pb := lsq bs b in
      let py := lsq bs y in
      let rb := fun p => b p - comb bs pb p in
      let ry := fun p => y p - comb bs py p in
      if Req_EM_T (inner rb rb) 0 then 0 :: py
      else let t := inner ry rb / inner rb rb in t :: zip_sub t py pb
  end.

Lemma inner_ext : forall f g f' g', (forall p, f p = f' p) -> (forall p, g p = g' p) -> inner f g = inner f' g'.
Proof. intros f g f' g' E F. unfold inner. f_equal. apply map_ext. intros p. rewrite E, F. reflexivity. Qed.
Lemma inner_sym : forall f g, inner f g = inner g f.
Proof. intros. unfold inner. f_equal. apply map_ext. intros. ring. Qed.
Lemma inner_lin : forall a b f g h, inner (fun p => a * f p + b * g p) h = a * inner f h + b * inner g h.
Proof.
  intros. unfold inner. rewrite <- !rsum_map_scale, <- rsum_map_plus. f_equal. apply map_ext. intros. ring.
Qed.
Lemma inner_sq : forall f, 0 <= inner f f.
Proof. intros. apply rsum_map_nonneg. intros. nra. Qed.
Lemma inner_null : forall f g, inner f f = 0 -> inner f g = 0.
Proof.
  intros f g. unfold inner. induction points as [|p l IH]; [reflexivity|]. cbn [map rsum fold_right]. intros H.
  change (fold_right Rplus 0 (map (fun p => f p * f p) l)) with (rsum (map (fun p => f p * f p) l)) in H.
  assert (N : 0 <= rsum (map (fun p => f p * f p) l)) by (apply rsum_map_nonneg; intros; nra).
  assert (Z : f p = 0) by nra. rewrite Z. unfold rsum in IH. rewrite IH; [ring|]. unfold rsum in *. nra.
Qed.
Lemma comb_sub : forall bs t a b p, length a = length bs -> length b = length bs -> comb bs (zip_sub t a b) p = comb bs a p - t * comb bs b p.
Proof.
  induction bs as [|c bs IH]; intros t [|x a] [|y b] p; cbn; try discriminate; intros; [ring|]. rewrite IH by lia. ring.
Qed.
Lemma zip_length : forall t a b n, length a = n -> length b = n -> length (zip_sub t a b) = n.
Proof. intros t a. induction a as [|x a IH]; intros [|y b] n; cbn; intros; subst; try discriminate; try reflexivity. f_equal. apply IH; lia. Qed.
Lemma lsq_length : forall bs y, length (lsq bs y) = length bs.
Proof.
  induction bs as [|b bs IH]; intros y; [reflexivity|]. cbn. destruct (Req_EM_T _ 0); cbn; [rewrite IH; reflexivity|].
  f_equal. apply zip_length; apply IH.
Qed.
Lemma comb_orth : forall bs cs r, (forall b, In b bs -> inner b r = 0) -> inner (comb bs cs) r = 0.
Proof.
  induction bs as [|b bs IH]; intros cs r H; [unfold inner; rewrite (rsum_map_ext _ (fun _ => 0)); [apply rsum_map_0|intros; cbn; ring]|].
  destruct cs as [|c cs]; [unfold inner; rewrite (rsum_map_ext _ (fun _ => 0)); [apply rsum_map_0|intros; cbn; ring]|].
  rewrite (inner_ext _ r (fun p => c * b p + 1 * comb bs cs p) r); [|intros; cbn; ring|reflexivity].
  rewrite inner_lin, H by (left; reflexivity). rewrite IH by (intros b' I; apply H; right; exact I). ring.
Qed.
(** The residual is orthogonal to the basis. *)
Lemma lsq_orth : forall bs y b, In b bs -> inner b (fun p => y p - comb bs (lsq bs y) p) = 0.
Proof.
  induction bs as [|b0 bs IH]; intros y b I; [destruct I|]. cbn [lsq].
  set (pb := lsq bs b0). set (py := lsq bs y). set (rb := fun p => b0 p - comb bs pb p). set (ry := fun p => y p - comb bs py p).
  assert (OB : forall b, In b bs -> inner b rb = 0) by (intros; apply IH; assumption).
  assert (OY : forall b, In b bs -> inner b ry = 0) by (intros; apply IH; assumption).
  assert (B0 : forall r, (forall b, In b bs -> inner b r = 0) -> inner b0 r = inner rb r).
  { intros r O. rewrite (inner_ext b0 r (fun p => 1 * rb p + 1 * comb bs pb p) r); [|intros; unfold rb; ring|reflexivity].
    rewrite inner_lin, (comb_orth bs pb r O). ring. }
  destruct (Req_EM_T (inner rb rb) 0) as [Z|Z].
  - rewrite (inner_ext b _ b ry); [|reflexivity|intros; cbn; unfold ry; ring].
    destruct I as [<-|I]; [|apply OY, I]. rewrite B0 by exact OY. apply inner_null, Z.
  - set (t := inner ry rb / inner rb rb).
    rewrite (inner_ext b _ b (fun p => 1 * ry p + - t * rb p)); [|reflexivity|].
    2:{ intros p. cbn [comb]. rewrite comb_sub by apply lsq_length. unfold ry, rb. fold pb. fold py. ring. }
    rewrite inner_sym, inner_lin, (inner_sym ry), (inner_sym rb).
    destruct I as [<-|I].
    + rewrite (B0 ry OY), (B0 rb OB), (inner_sym rb ry). unfold t. field. exact Z.
    + rewrite (OY b I), (OB b I). ring.
Qed.
End points.

Fixpoint up_to (d : nat) : list nat := match d with O => [0%nat] | S d => S d :: up_to d end.
Lemma up_to_in : forall d i, In i (up_to d) <-> (i <= d)%nat.
Proof. induction d as [|d IH]; intros i; cbn; [lia|]. rewrite IH. lia. Qed.
Definition all_exponents (d : nat) : list exponents :=
  flat_map (fun i => flat_map (fun j => map (fun k => (i, j, k)) (up_to (d - i - j))) (up_to (d - i))) (up_to d).
Lemma all_exponents_in : forall d i j k, In (i, j, k) (all_exponents d) <-> (i + j + k <= d)%nat.
Proof.
  intros d i j k. unfold all_exponents. rewrite in_flat_map. split.
  - intros (a & I & H). apply up_to_in in I. apply in_flat_map in H. destruct H as (b & J & H). apply up_to_in in J.
    apply in_map_iff in H. destruct H as (e & E & K). apply up_to_in in K. injection E as <- <- <-. lia.
  - intros H. exists i. split; [apply up_to_in; lia|]. apply in_flat_map. exists j. split; [apply up_to_in; lia|].
    apply in_map_iff. exists k. split; [reflexivity|]. apply up_to_in. lia.
Qed.
Definition basis (d : nat) : list (spv * R -> R) := map (fun e p => monomial e (fst p)) (all_exponents d).
Definition gram : solver := fun d points => combine (all_exponents d) (lsq _ points (basis d) snd).

Lemma gram_evaluate : forall es cs c y, evaluate (combine es cs) c = comb (spv * R) (map (fun e p => monomial e (fst p)) es) cs (c, y).
Proof.
  induction es as [|e es IH]; intros cs c y; [reflexivity|]. destruct cs as [|a cs]; [reflexivity|].
  unfold evaluate. cbn [combine map rsum fold_right comb fst snd]. rewrite <- IH. reflexivity.
Qed.
Lemma gram_least_squares : least_squares gram.
Proof.
  intros d points. split.
  - rewrite Forall_forall. intros [[[i j] k] a] H. apply in_combine_l in H. apply all_exponents_in in H. exact H.
  - intros f (l & L & F).
    set (g := evaluate (gram d points)).
    set (r := fun p : spv * R => snd p - comb _ (basis d) (lsq _ points (basis d) snd) p).
    assert (E : forall p, g (fst p) - snd p = - r p).
    { intros [c y]. unfold r, g, gram. cbn [fst snd]. rewrite (gram_evaluate _ _ c y). fold (basis d). ring. }
    assert (OB : forall b, In b (basis d) -> inner _ points b r = 0) by (intros b I; apply lsq_orth; exact I).
    assert (OM : forall i j k, (i + j + k <= d)%nat -> inner _ points (fun p => monomial (i, j, k) (fst p)) r = 0).
    { intros i j k H. apply OB. unfold basis. apply in_map_iff. exists (i, j, k). split; [reflexivity|]. apply all_exponents_in, H. }
    assert (OF : inner _ points (fun p => f (fst p)) r = 0).
    { rewrite (inner_ext _ _ _ r (fun p => rsum (map (fun t => let '(i, j, k, a) := t in a * monomial (i, j, k) (fst p)) l)) r); [|intros; apply F|reflexivity].
      clear F. induction l as [|[[[i j] k] a] l IH].
      - unfold inner. rewrite (rsum_map_ext _ (fun _ => 0)); [apply rsum_map_0|intros; cbn; ring].
      - inversion L as [|? ? L1 L2]; subst.
        rewrite (inner_ext _ _ _ r (fun p => a * monomial (i, j, k) (fst p) + 1 * rsum (map (fun t => let '(i, j, k, a) := t in a * monomial (i, j, k) (fst p)) l)) r); [|intros; unfold rsum; cbn; ring|reflexivity].
        rewrite inner_lin, OM by exact L1. rewrite IH by exact L2. ring. }
    assert (OG : inner _ points (fun p => g (fst p)) r = 0).
    { rewrite (inner_ext _ _ _ r (comb _ (basis d) (lsq _ points (basis d) snd)) r); [apply comb_orth, OB| |reflexivity].
      intros [c y]. cbn [fst]. unfold g, gram. rewrite (gram_evaluate _ _ c y). reflexivity. }
    assert (SG : squares g points = inner _ points r r).
    { unfold squares, inner. apply rsum_map_ext. intros p _. rewrite E. ring. }
    assert (SF : squares f points = inner _ points r r + inner _ points (fun p => f (fst p) - g (fst p)) (fun p => f (fst p) - g (fst p))
       + (-2 * inner _ points (fun p => f (fst p)) r + 2 * inner _ points (fun p => g (fst p)) r)).
    { unfold squares, inner. rewrite <- !rsum_map_scale, <- !rsum_map_plus. apply rsum_map_ext. intros p _.
      replace (f (fst p) - snd p) with ((f (fst p) - g (fst p)) - r p) by (assert (E' := E p); lra). ring. }
    fold g. rewrite SG, SF, OF, OG. assert (N := inner_sq _ points (fun p => f (fst p) - g (fst p))). lra.
Qed.
