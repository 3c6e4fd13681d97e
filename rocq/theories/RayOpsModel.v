(** optika/rays/_ray_vectors.py:105-186: how arithmetic on rays is dispatched.

    One ray, one vector, one matrix.  What named_arrays does before these methods
    ([super().__array_matmul__], [super().__array_ufunc__]) and what the other operand does on its
    own are arguments. *)
From Coq Require Import Reals List Bool.
From Verif Require Import Vec Num RayModel.
Import ListNotations.
Open Scope R_scope.
Open Scope opt_scope.

(** The operands that the [isinstance] tests tell apart. *)
Inductive operand :=
  | ORay (r : ray)
  | OVector (v : vec3)
  | OMatrix (m : mat3)
  | OOther.

(** What such a method returns: a value, [NotImplemented], or [None] (by reaching its end). *)
Inductive answer := Value (o : operand) | NotImplemented | PyNone.

Inductive ufunc := Add | Matmul | OtherUfunc (n : nat).
Inductive ufunc_method := Call | OtherMethod.

(** [v @ m] for a row vector, by named_arrays. *)
Definition vapply (v : vec3) (m : mat3) : vec3 := mapply (mtrans m) v.

(** _ray_vectors.py:105-140; [parent] is [super().__array_matmul__]. *)
Definition array_matmul (parent : operand -> operand -> answer) (x1 x2 : operand) : answer :=
  match parent x1 x2 with
  | NotImplemented =>
      match x1 with
      | ORay r =>
          match x2 with
          | OMatrix m =>
              Value (ORay (mkRay (r_wavelength r) (omap (fun p => vapply p m) (r_position r))
                (omap (fun d => vapply d m) (r_direction r)) (r_intensity r) (r_attenuation r) (r_index r) (r_unvignetted r)))
          | _ => NotImplemented
          end
      | _ =>
          match x2 with
          | ORay r =>
              match x1 with
              | OMatrix m =>
                  Value (ORay (mkRay (r_wavelength r) (omap (mapply m) (r_position r))
                    (omap (mapply m) (r_direction r)) (r_intensity r) (r_attenuation r) (r_index r) (r_unvignetted r)))
              | _ => NotImplemented
              end
          | _ => NotImplemented
          end
      end
  | a => a
  end.

(** _ray_vectors.py:142-166 *)
Definition array_add (x1 x2 : operand) : answer :=
  match x1 with
  | ORay r =>
      match x2 with
      | OVector v => Value (ORay (set_position (omap (fun p => vadd p v) (r_position r)) r))
      | _ => NotImplemented
      end
  | _ =>
      match x2 with
      | ORay r =>
          match x1 with
          | OVector v => Value (ORay (set_position (omap (fun p => vadd v p) (r_position r)) r))
          | _ => NotImplemented
          end
      | _ => NotImplemented
      end
  end.

(** _ray_vectors.py:168-186 for two inputs; [parent] is [super().__array_ufunc__], which is
    given the method [__array_matmul__] of the object because it calls it. *)
Definition array_ufunc (parent : (operand -> operand -> answer) -> ufunc -> ufunc_method -> operand -> operand -> answer)
    (parent_matmul : operand -> operand -> answer) (f : ufunc) (method : ufunc_method) (x1 x2 : operand) : answer :=
  match parent (array_matmul parent_matmul) f method x1 x2 with
  | NotImplemented =>
      match f with
      | Add => match method with Call => array_add x1 x2 | OtherMethod => PyNone end
      | _ => PyNone
      end
  | a => a
  end.

(** numpy calls [__array_ufunc__] of the operands from left to right, one per class, and takes
    the first answer that is not [NotImplemented]; if there is none it raises a TypeError. *)
Inductive outcome := Got (o : operand) | GotNone | TypeError.
Fixpoint first_answer (l : list answer) : outcome :=
  match l with
  | [] => TypeError
  | Value o :: _ => Got o
  | PyNone :: _ => GotNone
  | NotImplemented :: l => first_answer l
  end.
Definition operate (parent : (operand -> operand -> answer) -> ufunc -> ufunc_method -> operand -> operand -> answer)
    (parent_matmul : operand -> operand -> answer) (foreign : ufunc -> operand -> operand -> answer)
    (f : ufunc) (x1 x2 : operand) : outcome :=
  let ours := array_ufunc parent parent_matmul f Call x1 x2 in
  let theirs := foreign f x1 x2 in
  match x1, x2 with
  | ORay _, ORay _ => first_answer [ours]
  | ORay _, _ => first_answer [ours; theirs]
  | _, ORay _ => first_answer [theirs; ours]
  | _, _ => first_answer [theirs]
  end.
