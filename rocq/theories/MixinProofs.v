(** Movable objects. *)
From Coq Require Import Reals List Bool Arith Lra Lia.
From Verif Require Import Vec VecLemmas Num RayModel SequenceProofs MixinModel MixinSpec.
Import ListNotations.
Open Scope R_scope.

Lemma cls_eqb_refl : forall c, cls_eqb c c = true.
Proof. intros []; cbn; auto. apply Nat.eqb_refl. Qed.
Lemma cls_eqb_neq : forall a b, a <> b -> cls_eqb a b = false.
Proof.
  intros a b H. destruct (cls_eqb a b) eqn:E; [|reflexivity]. exfalso. apply H.
  destruct a, b; try discriminate; try reflexivity. cbn in E. apply Nat.eqb_eq in E. congruence.
Qed.
Lemma mem_cls_not : forall c l, ~ In c l -> mem_cls c l = false.
Proof.
  intros c l H. unfold mem_cls. induction l as [|d l IH]; [reflexivity|]. cbn [existsb]. rewrite cls_eqb_neq by (intros ->; apply H; left; reflexivity).
  apply IH. intros I. apply H. right. exact I.
Qed.

Definition todo (k : nat) (bs : list cls) : list (list cls) :=
  repeat [Transformable] k ++ map (fun b => [b; Transformable]) bs ++ [bs].

Lemma candidate_tops : forall all k rest, is_candidate all Transformable = false ->
  candidate all (repeat [Transformable] k ++ rest) = candidate all rest.
Proof. intros all k rest H. induction k as [|k IH]; [reflexivity|]. cbn [repeat app candidate]. rewrite H. exact IH. Qed.

Lemma forallb_repeat : forall A (f : A -> bool) a k, f a = true -> forallb f (repeat a k) = true.
Proof. intros A f a k H. induction k; cbn; [reflexivity|]. rewrite H. exact IHk. Qed.

Lemma map_repeat_fix : forall A B (f : A -> B) a k, map f (repeat a k) = repeat (f a) k.
Proof. intros A B f a k. induction k; cbn; [reflexivity|]. rewrite IHk. reflexivity. Qed.

Lemma map_same : forall A (f : A -> A) l, (forall a, In a l -> f a = a) -> map f l = l.
Proof. intros A f l H. rewrite map_ext_in with (g := fun a => a) by exact H. apply map_id. Qed.

Lemma repeat_snoc : forall A (a : A) k, repeat a (S k) = repeat a k ++ [a].
Proof. intros A a k. induction k; [reflexivity|]. cbn [repeat app]. f_equal. exact IHk. Qed.

Lemma merge_todo : forall bs k steps, NoDup bs -> ~ In Transformable bs -> (1 <= k + length bs)%nat -> (S (length bs) <= steps)%nat ->
  merge steps (todo k bs) = Some (bs ++ [Transformable]).
Proof.
  induction bs as [|b bs IH]; intros k steps N T K ST.
  - destruct steps as [|steps]; [cbn in ST; lia|]. destruct k as [|k]; [cbn in K; lia|].
    unfold todo. cbn [map app]. cbn [merge].
    replace (forallb (fun l => match l with [] => true | _ => false end) (repeat [Transformable] (S k) ++ [[]])) with false by reflexivity.
    assert (C : candidate (repeat [Transformable] (S k) ++ [[]]) (repeat [Transformable] (S k) ++ [[]]) = Some Transformable).
    { cbn [repeat app candidate]. replace (is_candidate ([Transformable] :: repeat [Transformable] k ++ [[]]) Transformable) with true; [reflexivity|].
      symmetry. unfold is_candidate. change ([Transformable] :: repeat [Transformable] k ++ [[]]) with (repeat [Transformable] (S k) ++ [[]]).
      rewrite forallb_app, forallb_repeat by reflexivity. reflexivity. }
    rewrite C, map_app, map_repeat_fix. cbn [map remove_head cls_eqb].
    assert (D : merge steps (repeat [] (S k) ++ [[]]) = Some []).
    { assert (F : forallb (fun l : list cls => match l with [] => true | _ => false end) (repeat [] (S k) ++ [[]]) = true).
      { rewrite forallb_app, forallb_repeat by reflexivity. reflexivity. }
      destruct steps; cbn [merge]; rewrite F; reflexivity. }
    rewrite D. reflexivity.
  - inversion N as [|? ? NB ND]; subst. assert (BT : b <> Transformable) by (intros ->; apply T; left; reflexivity).
    assert (TB : ~ In Transformable bs) by (intros I; apply T; right; exact I).
    destruct steps as [|steps]; [cbn in ST; lia|]. cbn [merge].
    replace (forallb (fun l => match l with [] => true | _ => false end) (todo k (b :: bs))) with false.
    2:{ symmetry. unfold todo. cbn [map app]. rewrite forallb_app. cbn [forallb]. apply andb_false_r. }
    assert (CT : is_candidate (todo k (b :: bs)) Transformable = false).
    { unfold is_candidate, todo. cbn [map app]. rewrite forallb_app. cbn [forallb tl mem_cls existsb cls_eqb orb negb andb]. apply andb_false_r. }
    assert (CB : is_candidate (todo k (b :: bs)) b = true).
    { unfold is_candidate, todo. cbn [map app]. rewrite forallb_app, forallb_repeat by reflexivity. cbn [andb forallb tl].
      rewrite forallb_app. cbn [forallb tl]. rewrite (mem_cls_not b bs NB). 
      assert (M : mem_cls b [Transformable] = false) by (apply mem_cls_not; intros [E | []]; congruence). rewrite M. cbn [negb andb].
      rewrite andb_true_r. apply forallb_forall. intros l L. apply in_map_iff in L. destruct L as (x & <- & _). cbn [tl]. rewrite M. reflexivity. }
    assert (C : candidate (todo k (b :: bs)) (todo k (b :: bs)) = Some b).
    { unfold todo at 2. rewrite candidate_tops by exact CT. cbn [map app candidate]. rewrite CB. reflexivity. }
    rewrite C.
    assert (R : map (remove_head b) (todo k (b :: bs)) = todo (S k) bs).
    { unfold todo. rewrite map_app, map_repeat_fix. cbn [map app remove_head]. rewrite cls_eqb_refl, (cls_eqb_neq b Transformable BT).
      rewrite map_app. cbn [map remove_head]. rewrite cls_eqb_refl. rewrite repeat_snoc, <- app_assoc. cbn [app]. f_equal. f_equal. f_equal.
      apply map_same. intros l L. apply in_map_iff in L. destruct L as (x & <- & X). cbn [remove_head]. rewrite cls_eqb_neq; [reflexivity|]. intros ->. contradiction. }
    rewrite R. rewrite IH; [reflexivity | exact ND | exact TB | lia | cbn in ST; lia].
Qed.

Lemma mixins_order : forall bs, Forall is_mixin bs -> map mixin_order bs = map (fun b => [b; Transformable]) bs.
Proof.
  intros bs F. apply map_ext_in. intros b B. rewrite Forall_forall in F. destruct (F b B) as [-> | [-> | [-> | ->]]]; reflexivity.
Qed.

Lemma resolution_value : forall bs, proper_bases bs ->
  resolution (S (S (length bs))) (Other 0) bs mixin_order = Some (Other 0 :: bs ++ [Transformable]).
Proof.
  intros bs (NE & N & F). unfold resolution. rewrite mixins_order by exact F.
  change (map (fun b => [b; Transformable]) bs ++ [bs]) with (todo 0 bs). rewrite merge_todo; [reflexivity | exact N | | | lia].
  - intros I. rewrite Forall_forall in F. destruct (F _ I) as [E | [E | [E | E]]]; discriminate.
  - destruct bs; [contradiction | cbn; lia].
Qed.

(** ** Motions *)
Ltac vec_eq := cbv beta iota zeta delta [motion turn]; cbn [fst snd vx vy vz]; unfold rigid_point, rigid_vector, mapply, dot, vadd, vzero, mid, cross, rotation_x, rotation_y, rotation_z; cbn [fst snd rg_mat rg_shift mr1 mr2 mr3 vx vy vz]; f_equal; ring.

Lemma identity_point : forall v, rigid_point rigid_id v = v.
Proof. intros [x y z]. unfold rigid_id. vec_eq. Qed.

Lemma along_motions : forall bs m v, Forall is_mixin bs -> rigid_point (transformation_along (bs ++ [Transformable]) m) v = motions m bs v.
Proof.
  induction bs as [|b bs IH]; intros m v F; [apply identity_point|]. inversion F as [|? ? B F']; subst. cbn [app].
  unfold motions. cbn [fold_left]. fold (motions m bs (motion m b v)). rewrite <- IH by exact F'.
  destruct v as [x y z]. destruct B as [-> | [-> | [-> | ->]]]; cbn [transformation_along]; rewrite rigid_compose_point; f_equal; vec_eq.
Qed.

Lemma rotations : forall a, orthogonal (rotation_x a) /\ orthogonal (rotation_y a) /\ orthogonal (rotation_z a).
Proof.
  intros a. assert (E := sin2_cos2 a). unfold Rsqr in E. unfold orthogonal, rotation_x, rotation_y, rotation_z, mmul, mtrans, mid, dot.
  cbn [mr1 mr2 mr3 vx vy vz]. repeat split; f_equal; f_equal; lra.
Qed.

Lemma along_rigid : forall order m, is_rigid (transformation_along order m) /\
  forall a b, rigid_vector (transformation_along order m) (cross a b) =
    cross (rigid_vector (transformation_along order m) a) (rigid_vector (transformation_along order m) b).
Proof.
  intros order m.
  assert (I : is_rigid rigid_id /\ forall a b, rigid_vector rigid_id (cross a b) = cross (rigid_vector rigid_id a) (rigid_vector rigid_id b)).
  { split; [unfold is_rigid, orthogonal, rigid_id, mmul, mtrans, mid, dot; cbn; f_equal; f_equal; ring|]. intros [] []. unfold rigid_id. vec_eq. }
  induction order as [|c order IH]; [exact I|].
  assert (K : forall M s, orthogonal M -> (forall a b, mapply M (cross a b) = cross (mapply M a) (mapply M b)) ->
    is_rigid (rigid_compose (transformation_along order m) (mkRigid M s)) /\
    forall a b, rigid_vector (rigid_compose (transformation_along order m) (mkRigid M s)) (cross a b) =
      cross (rigid_vector (rigid_compose (transformation_along order m) (mkRigid M s)) a) (rigid_vector (rigid_compose (transformation_along order m) (mkRigid M s)) b)).
  { intros M s O X. destruct IH as [R C]. split; [apply rigid_compose_rigid; [exact R | exact O]|].
    intros a b. rewrite !rigid_compose_vector. rewrite <- C. f_equal. apply X. }
  assert (TRIG : forall a, sin a * sin a + cos a * cos a = 1) by (intros a; exact (sin2_cos2 a)).
  destruct c; cbn [transformation_along]; auto; apply K; try (apply rotations);
    try (unfold orthogonal, mmul, mtrans, mid, dot; cbn; f_equal; f_equal; ring);
    intros [a1 a2 a3] [b1 b2 b3]; unfold mapply, cross, dot, mid, rotation_x, rotation_y, rotation_z; cbn [mr1 mr2 mr3 vx vy vz]; f_equal; try ring.
  - assert (T := TRIG (mv_pitch m)). set (s := sin _) in *. set (c := cos _) in *. 
    transitivity ((s * s + c * c) * (a2 * b3 - a3 * b2)); [rewrite T; ring | ring].
  - assert (T := TRIG (mv_yaw m)). set (s := sin _) in *. set (c := cos _) in *.
    transitivity ((s * s + c * c) * (a3 * b1 - a1 * b3)); [rewrite T; ring | ring].
  - assert (T := TRIG (mv_roll m)). set (s := sin _) in *. set (c := cos _) in *.
    transitivity ((s * s + c * c) * (a1 * b2 - a2 * b1)); [rewrite T; ring | ring].
Qed.

Lemma object_moves : forall bases m, proper_bases bases -> exists t, object_transformation bases m = Some t /\
  (forall v, rigid_point t v = motions m bases v) /\ (forall v, rigid_point (rigid_inv t) (rigid_point t v) = v) /\
  (forall v, rigid_point t (rigid_point (rigid_inv t) v) = v).
Proof.
  intros bases m P. unfold object_transformation. rewrite resolution_value by exact P. cbn [omap transformation_along].
  eexists. split; [reflexivity|]. destruct (along_rigid (bases ++ [Transformable]) m) as [R _]. split; [|split].
  - intros v. apply along_motions. apply P.
  - intros v. apply rigid_inv_point, R.
  - intros v. apply rigid_inv_point_r, R.
Qed.

Lemma object_rigid : forall bases m, proper_bases bases -> exists t, object_transformation bases m = Some t /\
  (forall a b, vlen (vsub (rigid_point t a) (rigid_point t b)) = vlen (vsub a b)) /\
  (forall a b, rigid_vector t (cross a b) = cross (rigid_vector t a) (rigid_vector t b)).
Proof.
  intros bases m P. unfold object_transformation. rewrite resolution_value by exact P. cbn [omap transformation_along].
  eexists. split; [reflexivity|]. destruct (along_rigid (bases ++ [Transformable]) m) as [R C]. split; [|exact C].
  intros a b. set (t := transformation_along _ _) in *. clearbody t. 
  replace (vsub (rigid_point t a) (rigid_point t b)) with (rigid_vector t (vsub a b)).
  - unfold vlen. f_equal. apply orthogonal_norm2. exact R.
  - unfold rigid_point, rigid_vector, mapply, vsub, vadd, dot. cbn [vx vy vz]. f_equal; ring.
Qed.

Lemma motion_origin : forall m c, is_mixin c -> c <> Translatable -> motion m c vzero = vzero.
Proof.
  intros m c [-> | [-> | [-> | ->]]] H; [contradiction | | |]; unfold motion, turn, vzero; cbn; f_equal; ring.
Qed.

Lemma object_place : forall rotations m, NoDup (rotations ++ [Translatable]) -> Forall is_mixin rotations ->
  exists t, object_transformation (rotations ++ [Translatable]) m = Some t /\ rigid_point t vzero = mv_translation m.
Proof.
  intros l m N F. destruct (object_moves (l ++ [Translatable]) m) as (t & T & V & _).
  - split; [destruct l; discriminate|]. split; [exact N|]. apply Forall_app. split; [exact F | repeat constructor; left; reflexivity].
  - exists t. split; [exact T|]. rewrite V. unfold motions. rewrite fold_left_app. cbn [fold_left].
    assert (Z : fold_left (fun v c => motion m c v) l vzero = vzero).
    { assert (NT : ~ In Translatable l). { intros I. apply NoDup_remove_2 in N. rewrite app_nil_r in N. contradiction. }
      clear N T V t. induction l as [|c l IH]; [reflexivity|]. cbn [fold_left]. inversion F; subst.
      rewrite motion_origin; [apply IH; [assumption | intros I; apply NT; right; exact I] | assumption | intros ->; apply NT; left; reflexivity]. }
    rewrite Z. cbn [motion]. destruct (mv_translation m). unfold vadd, vzero. cbn. f_equal; ring.
Qed.

Lemma object_elsewhere : exists bases m t, proper_bases bases /\ In Translatable bases /\ object_transformation bases m = Some t /\
  mv_translation m = V3 0 1 0 /\ rigid_point t vzero = V3 0 0 1.
Proof.
  exists [Translatable; Pitchable], (mkMovable (V3 0 1 0) (PI / 2) 0 0).
  assert (P : proper_bases [Translatable; Pitchable]).
  { split; [discriminate|]. split; [|apply Forall_cons; [unfold is_mixin; tauto | apply Forall_cons; [unfold is_mixin; tauto | apply Forall_nil]]].
    constructor; [intros [E | []]; discriminate | constructor; [intros [] | constructor]]. }
  destruct (object_moves _ (mkMovable (V3 0 1 0) (PI / 2) 0 0) P) as (t & T & V & _). exists t.
  split; [exact P|]. split; [left; reflexivity|]. split; [exact T|]. split; [reflexivity|]. rewrite V.
  unfold motions, motion, turn, vzero, vadd. cbn [fold_left mv_translation mv_pitch fst snd vx vy vz]. rewrite cos_PI2, sin_PI2. f_equal; ring.
Qed.
