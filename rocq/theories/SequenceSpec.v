(** Specifications for sequences of surfaces. *)
From Coq Require Import Reals List Bool.
From Verif Require Import Vec Num RayModel SnellModel SurfaceModel.
Import ListNotations.
Open Scope R_scope.
Open Scope opt_scope.

(** All transformations of a sequence are rigid motions. *)
Definition rigid_surface (s : surface) : Prop :=
  match sf_transformation s with None => True | Some t => is_rigid t end.

(** The sag of a surface has unit normals wherever it has a normal. *)
Definition unit_normals (s : surface) : Prop :=
  forall x u, sag_normal (sf_sag s) x = Some u -> is_unit u.

(** A point or a vector expressed in the coordinates of a surface. *)
Definition local_point (s : surface) (x : vec3) : vec3 :=
  match sf_transformation s with
  | None => x
  | Some t => mapply (mtrans (rg_mat t)) (vsub x (rg_shift t))
  end.
Definition local_vector (s : surface) (d : vec3) : vec3 :=
  match sf_transformation s with
  | None => d
  | Some t => mapply (mtrans (rg_mat t)) d
  end.

(** Does the ray [r], on the surface [s], pass the aperture of [s]? *)
Definition passes (s : surface) (r : ray) : bool :=
  match sf_aperture s with
  | None => true
  | Some ap =>
      ap_accepts ap (if ap_on_position ap then omap (local_point s) (r_position r)
                     else omap (local_vector s) (r_direction r))
  end.

(** Points [q1; q2; ...] met one after the other by a ray going forward from [p]
    along the direction [u]. *)
Fixpoint forward_chain (u p : vec3) (qs : list vec3) : Prop :=
  match qs with
  | [] => True
  | q :: qs => (exists t, 0 <= t /\ q = vadd p (vscale t u)) /\ forward_chain u q qs
  end.

(** Fraction of the intensity kept between leaving the previous surface at the ray
    [r_in] and leaving the surface [s] at the ray [r_out]: Beer's law over the
    distance travelled, times the efficiency of the material and of the rulings
    for the ray arriving at the surface. *)
Definition arriving (s : surface) (r : ray) : ray :=
  surface_incident s (apply_inverse (sf_transformation s) r).

Definition kept_fraction (s : surface) (r_in r_out : ray) : option R :=
  let* x_in := r_position r_in in
  let* x_out := r_position r_out in
  let arr := arriving s r_in in
  let normal := obind (omap (local_point s) (r_position r_out)) (sag_normal (sf_sag s)) in
  let* e := mat_efficiency (sf_material s) arr normal in
  let* e' := match sf_rulings s with
             | None => Some 1
             | Some g => rul_efficiency g arr normal
             end in
  Some (exp (- (r_attenuation r_in * vlen (vsub x_out x_in))) * e * e').

(** Product of the kept fractions along a traced sequence. *)
Fixpoint kept_product (ss : list surface) (r_in : ray) (outs : list ray) : option R :=
  match ss, outs with
  | s :: ss, r_out :: outs =>
      let* f := kept_fraction s r_in r_out in
      let* g := kept_product ss r_out outs in
      Some (f * g)
  | _, _ => Some 1
  end.

(** Passive components. *)
Definition passive (s : surface) : Prop :=
  (forall r u e, mat_efficiency (sf_material s) r u = Some e -> 0 <= e <= 1) /\
  (forall r, 0 <= r_attenuation r -> 0 <= mat_attenuation (sf_material s) r) /\
  (forall g, sf_rulings s = Some g ->
     forall r u e, rul_efficiency g r u = Some e -> 0 <= e <= 1).

(** Moving a surface by [t]. *)
Definition move_surface (t : rigid) (s : surface) : surface :=
  mkSurface (sf_sag s) (sf_material s) (sf_aperture s) (sf_rulings s)
    (Some (match sf_transformation s with None => t | Some t' => rigid_compose t t' end)).
