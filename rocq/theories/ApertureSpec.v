(** Specifications for apertures. *)
From Coq Require Import Reals List Bool ZArith.
From Verif Require Import Vec Num RayModel SurfaceModel ApertureModel.
Import ListNotations.
Open Scope R_scope.

Definition in_box (lo hi p : vec3) : Prop :=
  vx lo <= vx p <= vx hi /\ vy lo <= vy p <= vy hi /\ vz lo <= vz p <= vz hi.

(** A convex combination of points: weights and points, weights summing to one. *)
Definition combination (ws : list (R * vec3)) : vec3 :=
  fold_right (fun wv acc => vadd (vscale (fst wv) (snd wv)) acc) vzero ws.
Definition in_hull (vs : list vec3) (p : vec3) : Prop :=
  exists ws, (forall w v, In (w, v) ws -> 0 <= w /\ In v vs) /\
             rsum (map fst ws) = 1 /\ combination ws = p.

(** A test of points in polygons accepts only points of the convex hull of the vertices. *)
Definition sound_pip (pip : list vec3 -> R -> R -> bool) : Prop :=
  forall vs x y, (forall v, In v vs -> vz v = 0) -> pip vs x y = true -> in_hull vs (V3 x y 0).

(** The angle [theta], up to whole turns, is between [a0] and [a1]. *)
Definition angle_between (a0 a1 theta : R) : Prop :=
  exists k : Z, a0 <= theta + 2 * PI * IZR k <= a1.
Definition angle_strictly_between (a0 a1 theta : R) : Prop :=
  exists k : Z, a0 < theta + 2 * PI * IZR k < a1.

(** A point on the segment from [a] to [b]. *)
Definition on_segment (a b p : vec3) : Prop :=
  exists t, 0 <= t <= 1 /\ p = vadd a (vscale t (vsub b a)).

(** Position [i] of a closed polygon and the next one. *)
Definition next_vertex (vs : list vec3) (i : nat) : vec3 :=
  nth (Nat.modulo (S i) (length vs)) vs vzero.
Definition on_polygon (vs : list vec3) (p : vec3) : Prop :=
  exists i, (i < length vs)%nat /\ on_segment (nth i vs vzero) (next_vertex vs i) p.

(** First and last points coincide. *)
Definition closed_curve (l : list vec3) : Prop :=
  exists p, hd_error l = Some p /\ hd_error (rev l) = Some p.

(** The point in the frame of the aperture, and the aperture plane. *)
Definition ap_local (t : option rigid) (p : vec3) : vec3 :=
  match t with None => p | Some t => rigid_point (rigid_inv t) p end.
Definition in_plane (t : option rigid) (p : vec3) : Prop := vz (ap_local t p) = 0.
Definition rigid_or_none (t : option rigid) : Prop :=
  match t with None => True | Some t => is_rigid t end.

(** [lo, hi] is contained in every box that contains all points satisfying [P]. *)
Definition smallest_box (P : vec3 -> Prop) (lo hi : vec3) : Prop :=
  forall lo' hi', (forall p, P p -> in_box lo' hi' p) ->
    vx lo' <= vx lo /\ vy lo' <= vy lo /\ vz lo' <= vz lo /\
    vx hi <= vx hi' /\ vy hi <= vy hi' /\ vz hi <= vz hi'.

(** All vertices are in the aperture plane. *)
Definition planar (s : ap_shape) : Prop := forall v, In v (ap_vertices s) -> vz v = 0.
Definition is_sector (s : ap_shape) : Prop := exists r a b, s = Sector r a b.
Definition accepted_in_plane pip a p : Prop :=
  in_plane (ao_transformation a) p /\ aperture_call pip a (Some p) = true.

(** At least one vertex. *)
Definition has_vertices (s : ap_shape) : Prop :=
  match s with
  | Polygonal vs => vs <> []
  | RegularPolygon _ n => n <> 0%nat
  | _ => True
  end.
(** Number of straight or curved segments a wire is divided into. *)
Definition segments (s : ap_shape) : nat :=
  match s with
  | Circular _ | Elliptical _ _ => 0
  | Sector _ _ _ => 3
  | _ => length (ap_vertices s)
  end.
(** The boundary curve of each class. *)
Definition on_boundary (s : ap_shape) (p : vec3) : Prop :=
  vz p = 0 /\
  match s with
  | Circular r => vx p * vx p + vy p * vy p = r * r
  | Elliptical rx ry => (ry * vx p) * (ry * vx p) + (rx * vy p) * (rx * vy p) = (rx * ry) * (rx * ry)
  | Sector r a0 a1 => exists th rho, vx p = rho * cos th /\ vy p = rho * sin th /\
      (rho = r /\ (a0 <= th <= a1 \/ a1 <= th <= a0) \/
       (0 <= rho <= r \/ r <= rho <= 0) /\ (th = a0 \/ th = a1))
  | s => on_polygon (ap_vertices s) p
  end.
(** The classes whose test includes their boundary, with their usual parameters. *)
Definition wire_accepting (s : ap_shape) : Prop :=
  match s with
  | Circular r => 0 <= r
  | Elliptical rx ry => rx <> 0 /\ ry <> 0
  | Rectangular hx hy => 0 <= hx /\ 0 <= hy
  | _ => False
  end.

(** The documentation of [inverted], _apertures.py:51-57: whether light should pass at a point. *)
Definition documented_pass (inverted : bool) (interior : Prop) : Prop := if inverted then interior else ~ interior.
