(** C93: arithmetic on rays. *)
From Coq Require Import Reals List Bool Lra.
From Verif Require Import Vec VecLemmas Num RayModel RayOpsModel RayOpsSpec RayOpsProofs SequenceExamples.
Import ListNotations.
Open Scope R_scope.

(** A matrix acts on position and direction, from the left or, transposed, from the right. *)
Theorem C93_matrix_partial : forall parent parent_matmul foreign, leaves parent parent_matmul foreign ->
  forall m r, exists r', operate parent parent_matmul foreign Matmul (OMatrix m) (ORay r) = Got (ORay r') /\
  mapped (mapply m) (mapply m) r r'.
Proof. exact matrix_ray. Qed.
Print Assumptions C93_matrix_partial.

Theorem C93_transposed_partial : forall parent parent_matmul foreign, leaves parent parent_matmul foreign ->
  forall m r, exists r', operate parent parent_matmul foreign Matmul (ORay r) (OMatrix m) = Got (ORay r') /\
  mapped (mapply (mtrans m)) (mapply (mtrans m)) r r'.
Proof. exact ray_matrix. Qed.
Print Assumptions C93_transposed_partial.

(** A vector moves the position, on whichever side it is added. *)
Theorem C93_shift_partial : forall parent parent_matmul foreign, leaves parent parent_matmul foreign ->
  forall v r, exists r', operate parent parent_matmul foreign Add (ORay r) (OVector v) = Got (ORay r') /\
  operate parent parent_matmul foreign Add (OVector v) (ORay r) = Got (ORay r') /\
  mapped (fun p => vadd p v) (fun d => d) r r'.
Proof. exact ray_vector. Qed.
Print Assumptions C93_shift_partial.

(** The product followed by the sum is the transformation of a ray used everywhere else, ... *)
Theorem C93_transformation_partial : forall parent parent_matmul foreign, leaves parent parent_matmul foreign ->
  forall t r, exists r1, operate parent parent_matmul foreign Matmul (OMatrix (rg_mat t)) (ORay r) = Got (ORay r1) /\
  operate parent parent_matmul foreign Add (ORay r1) (OVector (rg_shift t)) = Got (ORay (ray_transform t r)).
Proof. exact affine. Qed.
Print Assumptions C93_transformation_partial.

(** ... and is undone by the opposite vector and the matrix on the right. *)
Theorem C93_undone_partial : forall parent parent_matmul foreign, leaves parent parent_matmul foreign ->
  forall t r, is_rigid t -> exists r1,
  operate parent parent_matmul foreign Add (ORay (ray_transform t r)) (OVector (vopp (rg_shift t))) = Got (ORay r1) /\
  operate parent parent_matmul foreign Matmul (ORay r1) (OMatrix (rg_mat t)) = Got (ORay r) /\
  operate parent parent_matmul foreign Matmul (OMatrix (mtrans (rg_mat t))) (ORay r1) = Got (ORay r).
Proof. exact affine_undone. Qed.
Print Assumptions C93_undone_partial.

(** A sum that nobody supports raises an error. *)
Theorem C93_sum_partial : forall parent parent_matmul foreign, leaves parent parent_matmul foreign ->
  forall r m, operate parent parent_matmul foreign Add (ORay r) (OMatrix m) = TypeError /\
  operate parent parent_matmul foreign Add (OMatrix m) (ORay r) = TypeError.
Proof. exact add_declined. Qed.
Print Assumptions C93_sum_partial.

(** Every other operation that nobody supports silently evaluates to None: a ray minus a vector,
    a ray times a vector, ... *)
Theorem C93_silent : forall parent parent_matmul foreign, leaves parent parent_matmul foreign ->
  forall n r v, operate parent parent_matmul foreign (OtherUfunc n) (ORay r) (OVector v) = GotNone /\
  operate parent parent_matmul foreign (OtherUfunc n) (OVector v) (ORay r) = GotNone.
Proof. exact other_none. Qed.
Print Assumptions C93_silent.

Theorem C93_product_silent : forall parent parent_matmul foreign, leaves parent parent_matmul foreign ->
  forall r v, operate parent parent_matmul foreign Matmul (ORay r) (OVector v) = GotNone /\
  operate parent parent_matmul foreign Matmul (OVector v) (ORay r) = GotNone.
Proof. exact matmul_none. Qed.
Print Assumptions C93_product_silent.

(** So does any method of an operation other than its call, e.g. np.add.accumulate, also when the
    call itself is supported. *)
Theorem C93_method_silent : forall parent parent_matmul foreign, leaves parent parent_matmul foreign ->
  forall f r v, (forall mm, parent mm f OtherMethod (ORay r) (OVector v) = NotImplemented) ->
  array_ufunc parent parent_matmul f OtherMethod (ORay r) (OVector v) = PyNone /\
  exists r', array_ufunc parent parent_matmul Add Call (ORay r) (OVector v) = Value (ORay r').
Proof. exact method_none. Qed.
Print Assumptions C93_method_silent.

(** So the claim that an unsupported operation raises an error is false. *)
Theorem C93_error_refuted : exists parent parent_matmul foreign f r v, leaves parent parent_matmul foreign /\
  foreign f (ORay r) (OVector v) = NotImplemented /\ parent_matmul (ORay r) (OVector v) = NotImplemented /\
  (forall mm, parent mm f Call (ORay r) (OVector v) = NotImplemented) /\
  operate parent parent_matmul foreign f (ORay r) (OVector v) <> TypeError.
Proof.
  exists simple_parent, (fun _ _ => NotImplemented), (fun _ _ _ => NotImplemented), (OtherUfunc 0),
    (mkRay 1 (Some vzero) (Some (V3 0 0 1)) (Some 1) 0 1 true), (V3 1 2 3).
  split; [exact simple_leaves|]. repeat split. discriminate.
Qed.
Print Assumptions C93_error_refuted.

Example C93_nonvacuous : leaves simple_parent (fun _ _ => NotImplemented) (fun _ _ _ => NotImplemented) /\
  is_rigid (mkRigid tilt (V3 0 0 5)).
Proof. split; [exact simple_leaves|apply ex_tilt]. Qed.
