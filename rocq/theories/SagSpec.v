(** Specification of surfaces given by a sag z = f(x, y). *)
From Coq Require Import Reals.
From Coquelicot Require Import Coquelicot.
From Verif Require Import Vec Num RayModel SagModel.
Open Scope R_scope.

Definition value (o : option R) : R := match o with Some x => x | None => 0 end.

(** The sag is defined around (x, y) along both axes and has partial derivatives
    [zx], [zy] there. *)
Definition has_slopes (f : R -> R -> option R) (x y zx zy : R) : Prop :=
  locally x (fun t => f t y <> None) /\ is_derive (fun t => value (f t y)) x zx /\
  locally y (fun t => f x t <> None) /\ is_derive (fun t => value (f x t)) y zy.

(** A unit vector pointing to negative z, perpendicular to both tangent vectors of
    the graph of [f] at (x, y). *)
Definition is_graph_normal (f : R -> R -> option R) (x y : R) (u : vec3) : Prop :=
  norm2 u = 1 /\ vz u < 0 /\
  exists zx zy, has_slopes f x y zx zy /\
    dot u (V3 1 0 zx) = 0 /\ dot u (V3 0 1 zy) = 0.

(** The generating curve of the toroid: the arc of radius [r] through the origin. *)
Definition arc (r y : R) : R := r - rsign r * sqrt (r * r - y * y).

(** Interior of the domain of each class. *)
Definition interior (s : sag_class) (x y : R) : Prop :=
  match s with
  | NoSag => True
  | SphericalSag r => r <> 0 /\ x * x + y * y < r * r
  | ConicSag r k => r <> 0 /\ (1 + k) * (x * x + y * y) < r * r
  | ParabolicSag f => f <> 0
  | CylindricalSag r => r <> 0 /\ x * x < r * r
  | ToroidalSag r R => r <> 0 /\ y * y < r * r /\ x * x < (R - arc r y) * (R - arc r y)
  end.

(** The quadric of each class (the toroid has none). *)
Definition on_quadric (s : sag_class) (q : vec3) : Prop :=
  match s with
  | NoSag => vz q = 0
  | SphericalSag r =>
      vx q * vx q + vy q * vy q + (vz q - r) * (vz q - r) = r * r
  | ConicSag r k =>
      vx q * vx q + vy q * vy q + (1 + k) * (vz q * vz q) = 2 * r * vz q
  | ParabolicSag f => vx q * vx q + vy q * vy q = 4 * f * vz q
  | CylindricalSag r => vx q * vx q + (vz q - r) * (vz q - r) = r * r
  | ToroidalSag _ _ => False
  end.

(** The point lies on the graph of the sag (the vertex sheet). *)
Definition on_graph (f : R -> R -> option R) (q : vec3) : Prop := f (vx q) (vy q) = Some (vz q).

(** The point [q] lies on the line through [o] with direction [u]. *)
Definition on_line (o u q : vec3) : Prop := exists t, q = vadd o (vscale t u).

(** The rays and parameters for which the closed forms are not on a degenerate
    branch.  Sphere: the ray is not parallel to the xy plane.  Conic: the
    coefficient of t^2 is at least the threshold 1e-12, or exactly zero.
    Parabola: the direction is away from the axis by more than the threshold, and
    not perpendicular to the axis; or exactly along the axis.  Cylinder: the
    ray is not parallel to the xy plane, and it crosses the cylinder (its distance
    from the cylinder axis is less than the radius). *)
Definition regular (s : sag_class) (o u : vec3) : Prop :=
  match s with
  | NoSag => True
  | SphericalSag r => r <> 0 /\ is_unit u /\ vz u <> 0
  | ConicSag r k =>
      let a := 1 / r * (vx u * vx u + vy u * vy u + (1 + k) * (vz u * vz u)) in
      r <> 0 /\ is_unit u /\ (a = 0 \/ 1 / 10 ^ 12 <= Rabs a)
  | ParabolicSag f =>
      f <> 0 /\ vz u <> 0 /\
      (vx u = 0 /\ vy u = 0 \/ 1 / 10 ^ 10 < vx u * vx u + vy u * vy u)
  | CylindricalSag r =>
      r <> 0 /\ vz u <> 0 /\
      (vx o * vz u - (vz o - r) * vx u) * (vx o * vz u - (vz o - r) * vx u)
      < (vx u * vx u + vz u * vz u) * (r * r)
  | ToroidalSag _ _ => False
  end.

(** A surface moved by the rigid motion [t]. *)
Definition moved_surface (f : R -> R -> option R) (t : rigid) (q : vec3) : Prop :=
  exists p, on_graph f p /\ q = rigid_point t p.

(** Rigid motions that only translate, and that map horizontal planes to themselves. *)
Definition is_translation (t : rigid) : Prop := rg_mat t = mid.
Definition keeps_height (t : rigid) : Prop :=
  is_rigid t /\ forall p, vz (rigid_point t p) = vz p.

(** [q] is the point where the line meets the surface z nearest to [o], and the only
    one at that distance. *)
Definition strictly_nearest (z : R -> R -> option R) (o u q : vec3) : Prop :=
  on_line o u q /\ on_graph z q /\
  forall q', on_line o u q' -> on_graph z q' -> q' <> q -> norm2 (vsub q o) < norm2 (vsub q' o).


Definition is_toroid (s : sag_class) : Prop := exists r r', s = ToroidalSag r r'.
