(** Arithmetic on rays. *)
From Coq Require Import Reals List Bool Lra.
From Verif Require Import Vec VecLemmas Num NumLemmas RayModel RayOpsModel RayOpsSpec.
Import ListNotations.
Open Scope R_scope.

Lemma mixed_rv : forall r v, mixed (ORay r) (OVector v).
Proof. intros. exists r. left. eauto. Qed.
Lemma mixed_vr : forall r v, mixed (OVector v) (ORay r).
Proof. intros. exists r. right. eauto. Qed.
Lemma mixed_rm : forall r m, mixed (ORay r) (OMatrix m).
Proof. intros. exists r. left. eauto. Qed.
Lemma mixed_mr : forall r m, mixed (OMatrix m) (ORay r).
Proof. intros. exists r. right. eauto. Qed.

Section Ops.
Variable parent : (operand -> operand -> answer) -> ufunc -> ufunc_method -> operand -> operand -> answer.
Variable parent_matmul : operand -> operand -> answer.
Variable foreign : ufunc -> operand -> operand -> answer.
Hypothesis L : leaves parent parent_matmul foreign.

Lemma matrix_ray_value : forall m r, operate parent parent_matmul foreign Matmul (OMatrix m) (ORay r)
  = Got (ORay (mkRay (r_wavelength r) (omap (mapply m) (r_position r)) (omap (mapply m) (r_direction r))
      (r_intensity r) (r_attenuation r) (r_index r) (r_unvignetted r))).
Proof.
  intros m r. destruct (L _ _ (mixed_mr r m)) as (A & _ & C & D). unfold operate, array_ufunc. rewrite A, D. unfold array_matmul. rewrite C. reflexivity.
Qed.
Lemma ray_matrix_value : forall m r, operate parent parent_matmul foreign Matmul (ORay r) (OMatrix m)
  = Got (ORay (mkRay (r_wavelength r) (omap (mapply (mtrans m)) (r_position r)) (omap (mapply (mtrans m)) (r_direction r))
      (r_intensity r) (r_attenuation r) (r_index r) (r_unvignetted r))).
Proof.
  intros m r. destruct (L _ _ (mixed_rm r m)) as (A & _ & C & D). unfold operate, array_ufunc. rewrite A. unfold array_matmul. rewrite C. reflexivity.
Qed.
Lemma ray_vector_value : forall v r, operate parent parent_matmul foreign Add (ORay r) (OVector v)
  = Got (ORay (set_position (omap (fun p => vadd p v) (r_position r)) r)).
Proof.
  intros v r. destruct (L _ _ (mixed_rv r v)) as (_ & B & _ & D). unfold operate, array_ufunc. rewrite B by discriminate. reflexivity.
Qed.
Lemma vector_ray_value : forall v r, operate parent parent_matmul foreign Add (OVector v) (ORay r)
  = Got (ORay (set_position (omap (fun p => vadd p v) (r_position r)) r)).
Proof.
  intros v r. destruct (L _ _ (mixed_vr r v)) as (_ & B & _ & D). unfold operate, array_ufunc. rewrite B, D by discriminate. cbn.
  do 3 f_equal. destruct (r_position r); [|reflexivity]. cbn. f_equal. apply vec_eq; cbn; ring.
Qed.

Lemma matrix_ray : forall m r, exists r', operate parent parent_matmul foreign Matmul (OMatrix m) (ORay r) = Got (ORay r') /\
  mapped (mapply m) (mapply m) r r'.
Proof. intros m r. rewrite matrix_ray_value. eexists. split; [reflexivity|]. repeat split. Qed.
Lemma ray_matrix : forall m r, exists r', operate parent parent_matmul foreign Matmul (ORay r) (OMatrix m) = Got (ORay r') /\
  mapped (mapply (mtrans m)) (mapply (mtrans m)) r r'.
Proof. intros m r. rewrite ray_matrix_value. eexists. split; [reflexivity|]. repeat split. Qed.
Lemma ray_vector : forall v r, exists r', operate parent parent_matmul foreign Add (ORay r) (OVector v) = Got (ORay r') /\
  operate parent parent_matmul foreign Add (OVector v) (ORay r) = Got (ORay r') /\
  mapped (fun p => vadd p v) (fun d => d) r r'.
Proof.
  intros v r. rewrite ray_vector_value, vector_ray_value. eexists. split; [reflexivity|]. split; [reflexivity|].
  repeat split. cbn. destruct (r_direction r); reflexivity.
Qed.

Lemma affine : forall t r, exists r1, operate parent parent_matmul foreign Matmul (OMatrix (rg_mat t)) (ORay r) = Got (ORay r1) /\
  operate parent parent_matmul foreign Add (ORay r1) (OVector (rg_shift t)) = Got (ORay (ray_transform t r)).
Proof.
  intros [m v] r. cbn [rg_mat rg_shift]. rewrite matrix_ray_value. eexists. split; [reflexivity|]. rewrite ray_vector_value.
  do 2 f_equal. unfold ray_transform, set_position. cbn. destruct (r_position r), (r_direction r); reflexivity.
Qed.

Lemma affine_undone : forall t r, is_rigid t -> exists r1,
  operate parent parent_matmul foreign Add (ORay (ray_transform t r)) (OVector (vopp (rg_shift t))) = Got (ORay r1) /\
  operate parent parent_matmul foreign Matmul (ORay r1) (OMatrix (rg_mat t)) = Got (ORay r) /\
  operate parent parent_matmul foreign Matmul (OMatrix (mtrans (rg_mat t))) (ORay r1) = Got (ORay r).
Proof.
  intros [m v] r O. cbn [rg_mat rg_shift]. rewrite ray_vector_value. eexists. split; [reflexivity|].
  rewrite ray_matrix_value, matrix_ray_value.
  cbn [ray_transform rg_shift rg_mat set_position r_position r_direction r_wavelength r_intensity r_attenuation r_index r_unvignetted].
  unfold is_rigid in O. cbn in O.
  assert (K : forall p, mapply (mtrans m) (mapply m p) = p) by (intros p; apply orthogonal_inv_l; exact O).
  assert (P : omap (mapply (mtrans m)) (omap (fun p => vadd p (vopp v)) (omap (rigid_point (mkRigid m v)) (r_position r))) = r_position r).
  { destruct (r_position r) as [p|]; [|reflexivity]. cbn [omap]. f_equal. unfold rigid_point. cbn [rg_mat rg_shift].
    replace (vadd (vadd (mapply m p) v) (vopp v)) with (mapply m p) by (apply vec_eq; cbn; ring). apply K. }
  assert (Q : omap (mapply (mtrans m)) (omap (rigid_vector (mkRigid m v)) (r_direction r)) = r_direction r).
  { destruct (r_direction r) as [p|]; [|reflexivity]. cbn [omap]. f_equal. apply K. }
  rewrite P, Q. destruct r; split; reflexivity.
Qed.

(** Operations that nobody supports. *)
Lemma add_declined : forall r m, operate parent parent_matmul foreign Add (ORay r) (OMatrix m) = TypeError /\
  operate parent parent_matmul foreign Add (OMatrix m) (ORay r) = TypeError.
Proof.
  intros r m. destruct (L _ _ (mixed_rm r m)) as (_ & B & _ & D). destruct (L _ _ (mixed_mr r m)) as (_ & B' & _ & D').
  unfold operate, array_ufunc. rewrite B, D, B', D' by discriminate. split; reflexivity.
Qed.
Lemma matmul_none : forall r v, operate parent parent_matmul foreign Matmul (ORay r) (OVector v) = GotNone /\
  operate parent parent_matmul foreign Matmul (OVector v) (ORay r) = GotNone.
Proof.
  intros r v. destruct (L _ _ (mixed_rv r v)) as (A & _ & C & D). destruct (L _ _ (mixed_vr r v)) as (A' & _ & C' & D').
  unfold operate, array_ufunc. rewrite A, D, A', D'. unfold array_matmul. rewrite C, C'. split; reflexivity.
Qed.
Lemma other_none : forall n r v, operate parent parent_matmul foreign (OtherUfunc n) (ORay r) (OVector v) = GotNone /\
  operate parent parent_matmul foreign (OtherUfunc n) (OVector v) (ORay r) = GotNone.
Proof.
  intros n r v. destruct (L _ _ (mixed_rv r v)) as (_ & B & _ & D). destruct (L _ _ (mixed_vr r v)) as (_ & B' & _ & D').
  unfold operate, array_ufunc. rewrite B, D, B', D' by discriminate. split; reflexivity.
Qed.
Lemma method_none : forall f r v, (forall mm, parent mm f OtherMethod (ORay r) (OVector v) = NotImplemented) ->
  array_ufunc parent parent_matmul f OtherMethod (ORay r) (OVector v) = PyNone /\
  exists r', array_ufunc parent parent_matmul Add Call (ORay r) (OVector v) = Value (ORay r').
Proof.
  intros f r v N. split.
  - unfold array_ufunc. rewrite N. destruct f; reflexivity.
  - destruct (L _ _ (mixed_rv r v)) as (_ & B & _ & _). unfold array_ufunc. rewrite B by discriminate. eexists. reflexivity.
Qed.
End Ops.

(** A library that leaves everything between rays and others to the operands, and adds two rays
    by itself. *)
Definition simple_parent (mm : operand -> operand -> answer) (f : ufunc) (m : ufunc_method) (x1 x2 : operand) : answer :=
  match f, m, x1, x2 with
  | Matmul, Call, _, _ => mm x1 x2
  | Add, Call, ORay a, ORay b => Value (ORay a)
  | _, _, _, _ => NotImplemented
  end.
Lemma simple_leaves : leaves simple_parent (fun _ _ => NotImplemented) (fun _ _ _ => NotImplemented).
Proof.
  intros x1 x2 M. repeat split. intros mm f N. destruct M as (r & [(-> & [(v & ->)|(v & ->)])|(-> & [(v & ->)|(v & ->)])]); destruct f; try reflexivity; congruence.
Qed.
