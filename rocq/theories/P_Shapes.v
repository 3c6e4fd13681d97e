(** Theorems on shapes: C64. *)
From Coq Require Import String List.
From Verif Require Import Num ShapeModel ShapeSpec ShapeProofs.
Import ListNotations.
Open Scope string_scope.
Open Scope opt_scope.

(** Broadcasting follows the rule along each axis, and fails only where the rule does. *)
Theorem C64_rule : forall a b, dict a -> dict b ->
  (forall r, broadcast2 a b = Some r -> dict r /\ forall axis, fits (lookup axis a) (lookup axis b) (lookup axis r)) /\
  (broadcast2 a b = None <-> exists axis, forall n, ~ fits (lookup axis a) (lookup axis b) n).
Proof. intros a b A B; split; [exact (fun r => broadcast_rule a b r A B) | exact (broadcast_error a b A B)]. Qed.
Print Assumptions C64_rule.

Theorem C64_associative : forall a b c, dict a -> dict b -> dict c ->
  same_result (let* ab := broadcast2 a b in broadcast2 ab c) (let* bc := broadcast2 b c in broadcast2 a bc).
Proof. exact broadcast_assoc. Qed.
Print Assumptions C64_associative.

Theorem C64_commutative : forall a b, dict a -> dict b -> same_result (broadcast2 a b) (broadcast2 b a).
Proof. exact broadcast_comm. Qed.
Print Assumptions C64_commutative.

Theorem C64_idempotent : forall a, dict a -> exists r, broadcast2 a a = Some r /\ same r a.
Proof. exact broadcast_idem. Qed.
Print Assumptions C64_idempotent.

(** Not every attribute contributes its axes: each of these is left out of the shape. *)
Theorem C64_attributes_refuted : forall class a, In (class, a) omitted ->
  exists gs fields k o s,
    In (class, gs) class_shape /\ In (class, fields) class_fields /\ In (a, k) fields /\
    instance fields o /\ object_shape gs o = Some s /\
    varies (o a) "axis" 2 /\ lookup "axis" s = None.
Proof. exact attributes_omitted. Qed.
Print Assumptions C64_attributes_refuted.

(** Every attribute of every other class does. *)
Theorem C64_attributes_partial : forall class gs fields o s,
  In (class, gs) class_shape -> In (class, fields) class_fields -> ~ In class (map fst omitted) ->
  instance fields o -> typed gs o -> object_shape gs o = Some s ->
  forall a k, In (a, k) fields -> contributes (o a) s.
Proof. exact attributes_contribute. Qed.
Print Assumptions C64_attributes_partial.

(** The vertices of a polygon and the measured efficiencies contribute the axes that are not
    consumed. *)
Theorem C64_popped_partial : forall gs o s, typed gs o -> object_shape gs o = Some s ->
  (forall a x axis n, In (Pop a x) gs -> varies (o a) axis n -> axis <> x ->
    exists m, lookup axis s = Some m /\ (n = m \/ n = 1)) /\
  (forall a b axis n, In (PopAxes a b) gs -> varies (o a) axis n -> lookup axis (optika_shape (o b)) = None ->
    exists m, lookup axis s = Some m /\ (n = m \/ n = 1)).
Proof. exact popped_contributes. Qed.
Print Assumptions C64_popped_partial.

(** What a sequence or a dictionary contains has no influence on the shape, unless the property goes through it. *)
Theorem C64_members : forall gs o o',
  (forall a, o a = o' a \/ (unshaped (o a) /\ unshaped (o' a) /\ ~ In (Each a) gs /\ ~ In (EachOrOne a) gs)) ->
  object_shape gs o = object_shape gs o'.
Proof. exact members_unseen. Qed.
Print Assumptions C64_members.
Example C64_members_nonvacuous : forall a,
  let o a := if String.eqb a "surfaces" then Sequence [Shaped [("x", 2)]] else Plain in
  let o' a := if String.eqb a "surfaces" then Sequence [Shaped [("y", 3)]] else Plain in
  o a = o' a \/ (unshaped (o a) /\ unshaped (o' a) /\ ~ In (Each a) [One "surfaces"] /\ ~ In (EachOrOne a) [One "surfaces"]).
Proof.
  intros a o o'. unfold o, o'. destruct (String.eqb a "surfaces"); [right | left; reflexivity].
  split; [intros s; discriminate|]. split; [intros s; discriminate|]. split; intros [H|[]]; discriminate.
Qed.

(** A mirror with three radii and two apertures. *)
Example C64_nonvacuous :
  let o a := if String.eqb a "sag" then Shaped [("radius", 3)]
             else if String.eqb a "aperture" then Shaped [("channel", 2); ("radius", 1)] else Plain in
  exists gs fields, In ("Surface", gs) class_shape /\ In ("Surface", fields) class_fields /\
    ~ In "Surface" (map fst omitted) /\ instance fields o /\ typed gs o /\
    object_shape gs o = Some [("channel", 2); ("radius", 3)] /\
    dict [("channel", 2); ("radius", 1)] /\ broadcast2 [("x", 2)] [("x", 3)] = None.
Proof. exact surface_shape_example. Qed.
