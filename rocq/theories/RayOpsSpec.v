(** What arithmetic on rays should do. *)
From Coq Require Import Reals List Bool.
From Verif Require Import Vec Num RayModel RayOpsModel.
Open Scope R_scope.

(** The ray [r'] is [r] with its points mapped by [point] and its direction by [vector]. *)
Definition mapped (point vector : vec3 -> vec3) (r r' : ray) : Prop :=
  r_position r' = omap point (r_position r) /\ r_direction r' = omap vector (r_direction r) /\
  r_wavelength r' = r_wavelength r /\ r_intensity r' = r_intensity r /\ r_attenuation r' = r_attenuation r /\
  r_index r' = r_index r /\ r_unvignetted r' = r_unvignetted r.

(** A ray and a vector or a matrix. *)
Definition mixed (x1 x2 : operand) : Prop :=
  exists r, x1 = ORay r /\ ((exists v, x2 = OVector v) \/ exists m, x2 = OMatrix m) \/
            x2 = ORay r /\ ((exists v, x1 = OVector v) \/ exists m, x1 = OMatrix m).

(** named_arrays has no operation between a ray and a vector or matrix of its own, and sends a
    product to [__array_matmul__]. *)
Definition leaves (parent : (operand -> operand -> answer) -> ufunc -> ufunc_method -> operand -> operand -> answer)
    (parent_matmul : operand -> operand -> answer) (foreign : ufunc -> operand -> operand -> answer) : Prop :=
  forall x1 x2, mixed x1 x2 ->
    (forall mm, parent mm Matmul Call x1 x2 = mm x1 x2) /\
    (forall mm f, f <> Matmul -> parent mm f Call x1 x2 = NotImplemented) /\
    parent_matmul x1 x2 = NotImplemented /\ (forall f, foreign f x1 x2 = NotImplemented).
