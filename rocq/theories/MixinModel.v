(** optika/mixins.py:166-248: objects that can be moved. *)
From Coq Require Import Reals List Bool Arith.
From Verif Require Import Vec Num RayModel.
Import ListNotations.
Open Scope R_scope.

(** The classes of lines 166-248.  [Other] is any class with the bases given by the hierarchy,
    which does not itself define [transformation]. *)
Inductive cls := Transformable | Translatable | Pitchable | Yawable | Rollable | Other (n : nat).
Definition cls_eqb (a b : cls) : bool :=
  match a, b with
  | Transformable, Transformable | Translatable, Translatable | Pitchable, Pitchable
  | Yawable, Yawable | Rollable, Rollable => true
  | Other n, Other m => Nat.eqb n m
  | _, _ => false
  end.
Definition mem_cls (c : cls) (l : list cls) : bool := existsb (cls_eqb c) l.

(** ** The order in which python looks classes up (C3) *)

(** A class may come next if it is in no tail. *)
Definition is_candidate (ls : list (list cls)) (c : cls) : bool :=
  forallb (fun l => negb (mem_cls c (tl l))) ls.
Fixpoint candidate (all ls : list (list cls)) : option cls :=
  match ls with
  | [] => None
  | [] :: rest => candidate all rest
  | (c :: _) :: rest => if is_candidate all c then Some c else candidate all rest
  end.
Definition remove_head (c : cls) (l : list cls) : list cls :=
  match l with [] => [] | d :: rest => if cls_eqb c d then rest else l end.
(** [None] is TypeError, or not enough steps. *)
Fixpoint merge (steps : nat) (ls : list (list cls)) : option (list cls) :=
  if forallb (fun l => match l with [] => true | _ => false end) ls then Some []
  else match steps with
       | O => None
       | S steps =>
           match candidate ls ls with
           | None => None
           | Some c => omap (cons c) (merge steps (map (remove_head c) ls))
           end
       end.
(** The order of a class from its name and its bases with their own orders. *)
Definition resolution (steps : nat) (c : cls) (bases : list cls) (order : cls -> list cls) : option (list cls) :=
  omap (cons c) (merge steps (map order bases ++ [bases])).
(** The orders of the classes in mixins.py, which derive from [Transformable] (abc.ABC and object
    are left out). *)
Definition mixin_order (c : cls) : list cls :=
  match c with Transformable => [Transformable] | _ => [c; Transformable] end.

(** ** Motions *)

(** The attributes of an object. *)
Record movable := mkMovable { mv_translation : vec3; mv_pitch : R; mv_yaw : R; mv_roll : R }.

(** The matrices of [named_arrays.transformations.Cartesian3dRotationX], [Y] and [Z]. *)
Definition rotation_x (a : R) : mat3 := M3 (V3 1 0 0) (V3 0 (cos a) (- sin a)) (V3 0 (sin a) (cos a)).
Definition rotation_y (a : R) : mat3 := M3 (V3 (cos a) 0 (sin a)) (V3 0 1 0) (V3 (- sin a) 0 (cos a)).
Definition rotation_z (a : R) : mat3 := M3 (V3 (cos a) (- sin a) 0) (V3 (sin a) (cos a) 0) (V3 0 0 1).

(** The property [transformation] along an order of classes: [super().transformation] goes on
    with the rest of the order.  Lines 172-177, 192-194, 209-212, 227-230, 245-248. *)
Fixpoint transformation_along (order : list cls) (m : movable) : rigid :=
  match order with
  | [] => rigid_id
  | Transformable :: _ => rigid_id
  | Translatable :: rest => rigid_compose (transformation_along rest m) (mkRigid mid (mv_translation m))
  | Pitchable :: rest => rigid_compose (transformation_along rest m) (mkRigid (rotation_x (mv_pitch m)) vzero)
  | Yawable :: rest => rigid_compose (transformation_along rest m) (mkRigid (rotation_y (mv_yaw m)) vzero)
  | Rollable :: rest => rigid_compose (transformation_along rest m) (mkRigid (rotation_z (mv_roll m)) vzero)
  | Other _ :: rest => transformation_along rest m
  end.

(** An object of a class that derives from some of the mixins: the attribute [transformation]. *)
Definition object_transformation (bases : list cls) (m : movable) : option rigid :=
  omap (fun order => transformation_along order m)
    (resolution (S (S (length bases))) (Other 0) bases mixin_order).
