(** Specifications for the orders of a grating. *)
From Coq Require Import Reals List Bool ZArith.
From Verif Require Import Vec Num RayModel SurfaceModel RulingModel.
Import ListNotations.
Open Scope R_scope.

(** The grooves whose efficiencies are powers; the fraction of a rectangular groove is one. *)
Definition power_profile (p : profile) : Prop :=
  match p with
  | Square _ | Sawtooth _ | Triangular _ => True
  | RectangularGroove _ duty => 0 < duty < 1
  | _ => False
  end.

(** The values [f i] for the orders [i] in the list, none of them NaN. *)
Definition shares (f : Z -> option R) (orders : list Z) (es : list R) : Prop :=
  NoDup orders /\ map f orders = map Some es.

(** A grating used in order [i]. *)
Definition grating (sg : sag) (m : material) (ap : option aperture) (t : option rigid)
    (p : profile) (sp : vec3 -> vec3 -> option vec3) (i : Z) : surface :=
  mkSurface sg m ap (Some (make_rulings p i sp)) t.

Definition perfect (m : material) : Prop := forall r n, mat_efficiency m r n = Some 1.

(** The grooves lie in the surface. *)
Definition tangent_grooves (sg : sag) (sp : vec3 -> vec3 -> option vec3) : Prop :=
  forall x u kappa, sag_normal sg x = Some u -> sp x u = Some kappa -> norm2 u = 1 /\ dot kappa u = 0.
