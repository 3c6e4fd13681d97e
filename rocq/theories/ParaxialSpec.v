(** Gaussian optics: rays near the axis of a centred system, to first order.  Nothing here computes an
    intercept, a normal or a direction. *)
From Coq Require Import Reals List.
From Coquelicot Require Import Coquelicot.
From Verif Require Import Vec Num RayModel SurfaceModel SagModel.
Import ListNotations.
Open Scope R_scope.

(** A ray near the axis to first order, in the textbook's convention: [px_index] is the index of refraction, negative
    if the light runs against the axis; at the place [px_z] on the axis it is at the height [px_h] with the
    slope [px_w] = dh/dz. *)
Record paraxial := mkPx { px_index : R; px_z : R; px_h : R; px_w : R }.

(** A surface in the textbook: its place, its curvature at the vertex and the index behind it. *)
Record vertex := mkVertex { vt_z : R; vt_curvature : R; vt_index : R }.

(** The textbook's formulas for the way to the next surface and its refraction or reflection. *)
Definition gauss_step (v : vertex) (s : paraxial) : paraxial :=
  let h := px_h s + (vt_z v - px_z s) * px_w s in
  mkPx (vt_index v) (vt_z v) h
    ((px_index s * px_w s - (vt_index v - px_index s) * vt_curvature v * h) / vt_index v).
Definition gauss (l : list vertex) (s : paraxial) : paraxial := fold_left (fun s v => gauss_step v s) l s.

(** A family of rays that contains the axis as the member 0, and moves away from it to first order as [sx] says in
    the plane of x and [sy] in the plane of y. *)
Definition near_axis (f : R -> ray) (sx sy : paraxial) : Prop :=
  px_index sx <> 0 /\ px_index sy = px_index sx /\ px_z sy = px_z sx /\
  exists x d : R -> vec3,
    locally 0 (fun t => r_position (f t) = Some (x t) /\ r_direction (f t) = Some (d t) /\ r_index (f t) = Rabs (px_index sx)) /\
    x 0 = V3 0 0 (px_z sx) /\ d 0 = V3 0 0 (rsign (px_index sx)) /\
    is_derive (fun t => vx (x t)) 0 (px_h sx) /\ is_derive (fun t => vy (x t)) 0 (px_h sy) /\
    is_derive (fun t => vx (d t)) 0 (rsign (px_index sx) * px_w sx) /\ is_derive (fun t => vy (d t)) 0 (rsign (px_index sx) * px_w sy) /\
    continuous (fun t => vz (x t)) 0 /\ continuous (fun t => vz (d t)) 0.

(** The curvatures of the shapes at the vertex in the planes of x and y.  (The toroid is left out, as its intercept is found by a
    numerical search; for conics that are too close to a paraboloid [ConicSag] solves another equation.) *)
Definition class_curvature (k : sag_class) (cx cy : R) : Prop :=
  match k with
  | NoSag => cx = 0 /\ cy = 0
  | SphericalSag r => r <> 0 /\ cx = 1 / r /\ cy = 1 / r
  | ConicSag r k => r <> 0 /\ 1 / 10 ^ 12 < Rabs ((1 + k) / r) /\ cx = 1 / r /\ cy = 1 / r
  | ParabolicSag f => f <> 0 /\ cx = 1 / (2 * f) /\ cy = 1 / (2 * f)
  | CylindricalSag r => r <> 0 /\ cx = 1 / r /\ cy = 0
  | ToroidalSag _ _ => False
  end.

(** The surface has its vertex at [z] on the axis, and its coordinates are those of the system or turned by half
    turns or mirrored; [e] is the sense of its own axis. *)
Definition centred (s : surface) (z e : R) : Prop :=
  (e = 1 \/ e = -1) /\
  ((sf_transformation s = None /\ z = 0 /\ e = 1) \/
   exists e1 e2, (e1 = 1 \/ e1 = -1) /\ (e2 = 1 \/ e2 = -1) /\
     sf_transformation s = Some (mkRigid (M3 (V3 e1 0 0) (V3 0 e2 0) (V3 0 0 e)) (V3 0 0 z))).

(** It is a mirror, or the surface of a medium of the index [n']. *)
Definition bounds (s : surface) (n n' : R) : Prop :=
  (mat_is_mirror (sf_material s) = true /\ (forall r, mat_index (sf_material s) r = r_index r) /\ n' = - n) \/
  (mat_is_mirror (sf_material s) = false /\ n' <> 0 /\ (forall r, mat_index (sf_material s) r = Rabs n') /\ rsign n' = rsign n).

(** The surface [s] of the shape [k], without rulings, is [vx] in the plane of x and [vy] in the plane of y, for
    light that comes with the index [n]. *)
Definition is_vertex (solver : vec3 -> vec3 -> option R) (s : surface) (n : R) (v v' : vertex) : Prop :=
  exists k cx cy e, sf_sag s = make_sag solver k None /\ sf_rulings s = None /\ centred s (vt_z v) e /\ class_curvature k cx cy /\
    vt_curvature v = e * cx /\ vt_curvature v' = e * cy /\ vt_z v' = vt_z v /\ vt_index v' = vt_index v /\ bounds s n (vt_index v).

(** A sequence of surfaces is the sequence of these vertices. *)
Inductive are_vertices (solver : vec3 -> vec3 -> option R) : R -> list surface -> list vertex -> list vertex -> Prop :=
| no_vertex : forall n, are_vertices solver n [] [] []
| next_vertex : forall n s ss v v' l l', is_vertex solver s n v v' -> are_vertices solver (vt_index v) ss l l' ->
    are_vertices solver n (s :: ss) (v :: l) (v' :: l').

(** The invariant of Lagrange of two rays. *)
Definition invariant (a b : paraxial) : R := px_index a * (px_h a * px_w b - px_h b * px_w a).
