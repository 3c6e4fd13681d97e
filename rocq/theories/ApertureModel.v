(** optika/apertures/_apertures.py, for one aperture and one point.

    [point_in_polygon] is a function of the dependency [named_arrays]; it enters as the
    argument [pip] (list of vertices, x, y). *)
From Coq Require Import Reals List Bool ZArith.
From Verif Require Import Vec Num Trig RayModel SurfaceModel.
Import ListNotations.
Open Scope R_scope.

(** The classes; OctagonalAperture (lines 1053-1080) is [RegularPolygon r 8]. *)
Inductive ap_shape :=
| Circular (radius : R)                              (* 220-355 *)
| Sector (radius angle_start angle_stop : R)         (* 358-594 *)
| Elliptical (rx ry : R)                             (* 597-721 *)
| Polygonal (vertices : list vec3)                   (* 838-856 *)
| Rectangular (hx hy : R)                            (* 859-986 *)
| RegularPolygon (radius : R) (num_vertices : nat)   (* 989-1050 *)
| Trapezoid (x_left x_right angle : R).              (* 1082-1193 *)

(** Angles [i * stop / num], numpy.linspace(0, stop, num, endpoint=False). *)
Definition linspace_open (stop : R) (num : nat) : list R :=
  map (fun i => INR i * (stop / INR num)) (seq 0 num).
(** numpy.linspace(0, stop, num); one point gives [0]. *)
Definition linspace_closed (stop : R) (num : nat) : list R :=
  map (fun i => INR i * (stop / INR (num - 1))) (seq 0 num).
Definition linspace (stop : R) (num : nat) (endpoint : bool) : list R :=
  if endpoint then linspace_closed stop num else linspace_open stop num.

(** [vertices]: 970-986, 1009-1027, 1109-1134; the circle, sector and ellipse have none. *)
Definition ap_vertices (s : ap_shape) : list vec3 :=
  match s with
  | Circular _ | Sector _ _ _ | Elliptical _ _ => []
  | Polygonal vs => vs
  | Rectangular hx hy =>
      map (fun a => let az := a + PI / 4 in V3 (sqrt 2 * cos az * hx) (sqrt 2 * sin az * hy) 0)
          (linspace_open (2 * PI) 4)
  | RegularPolygon r n =>
      map (fun a => V3 (r * cos a) (r * sin a) 0) (linspace_open (2 * PI) n)
  | Trapezoid xl xr angle =>
      let m := tan (angle / 2) in
      let upper := [V3 xl (m * xl) (0 * xl); V3 xr (m * xr) (0 * xr)] in
      upper ++ map (fun v => V3 (vx v * 1) (vy v * -1) (vz v * 1)) (rev upper)
  end.

Definition rle (a b : R) : bool := if Rle_dec a b then true else false.
Definition rlt (a b : R) : bool := if Rlt_dec a b then true else false.

(** [position.xy.length] *)
Definition xy_length (p : vec3) : R := sqrt (vx p * vx p + vy p * vy p).

(** The mask of each class before [inverted] and [active] are applied: 309, 466-475, 658,
    752-758, 962-963. *)
Definition shape_mask (pip : list vec3 -> R -> R -> bool) (s : ap_shape) (p : vec3) : bool :=
  match s with
  | Circular r => rle (xy_length p) r
  | Sector r a0 a1 =>
      let mask_radius := rle (xy_length p) r in
      let angle := atan2 (vy p) (vx p) in
      let ap := rmod angle (2 * PI) in
      let an := rmod angle (- (2 * PI)) in
      let mask_positive := rlt a0 ap && rlt ap a1 in
      let mask_negative := rlt a0 an && rlt an a1 in
      mask_radius && (mask_positive || mask_negative)
  | Elliptical rx ry =>
      match odiv (vx p) rx, odiv (vy p) ry with
      | Some a, Some b => rle (a * a + b * b) 1
      | _, _ => false
      end
  | Rectangular hx hy =>
      (rle (- hx) (vx p) && rle (vx p) hx) && (rle (- hy) (vy p) && rle (vy p) hy)
  | Polygonal _ | RegularPolygon _ _ | Trapezoid _ _ _ => pip (ap_vertices s) (vx p) (vy p)
  end.

(** AbstractAperture (31-66): the shape with its flags, its transformation, and whether its
    dimensions are lengths. *)
Record aperture_obj := mkApertureObj {
  ao_shape : ap_shape;
  ao_active : bool;
  ao_inverted : bool;
  ao_transformation : option rigid;
  ao_is_length : bool;
}.

(** [__call__]: 292-314, 438-480, 640-663, 739-778, 941-968.  [None] is a NaN position: every
    comparison with it is false. *)
Definition aperture_call (pip : list vec3 -> R -> R -> bool) (a : aperture_obj) (p : option vec3)
    : bool :=
  let p := match ao_transformation a with
           | None => p
           | Some t => omap (rigid_point (rigid_inv t)) p
           end in
  let mask := match p with None => false | Some p => shape_mask pip (ao_shape a) p end in
  let mask := if ao_inverted a then negb mask else mask in
  if negb (ao_active a) then true else mask.

(** The aperture as used by a surface; the unit test of [clip_rays] (93-99). *)
Definition as_aperture (pip : list vec3 -> R -> R -> bool) (a : aperture_obj) : aperture :=
  mkAperture (ao_is_length a) (aperture_call pip a).

(** ** Bounds *)
Definition transform (t : option rigid) (p : vec3) : vec3 :=
  match t with None => p | Some t => rigid_point t p end.
Definition vconst (r : R) : vec3 := V3 r r r.
(** component-wise minimum and maximum over a non-empty list; [None] for the empty list,
    where numpy raises *)
Definition vmin2 (a b : vec3) : vec3 := V3 (Rmin (vx a) (vx b)) (Rmin (vy a) (vy b)) (Rmin (vz a) (vz b)).
Definition vmax2 (a b : vec3) : vec3 := V3 (Rmax (vx a) (vx b)) (Rmax (vy a) (vy b)) (Rmax (vz a) (vz b)).
Definition reduce {A} (f : A -> A -> A) (l : list A) : option A :=
  match l with [] => None | a :: l => Some (fold_left f l a) end.

(** CircularAperture, 316-336 *)
Definition circle_center (t : option rigid) : vec3 := transform t vzero.
(** EllipticalAperture, 665-702 *)
Definition ellipse_half (rx ry : R) (t : option rigid) : vec3 :=
  let c := transform t vzero in
  let a := match t with None => V3 rx 0 0 | Some _ => vsub (transform t (V3 rx 0 0)) c end in
  let b := match t with None => V3 0 ry 0 | Some _ => vsub (transform t (V3 0 ry 0)) c end in
  V3 (sqrt (vx a * vx a + vx b * vx b)) (sqrt (vy a * vy a + vy b * vy b))
     (sqrt (vz a * vz a + vz b * vz b)).
(** CircularSectorAperture._bound_extrema, 482-536: the candidates for one component with
    center [c] and coefficients [a], [b]. *)
Definition sector_candidates (a0 a1 c a b : R) : list R :=
  let span := rmod (a1 - a0) (2 * PI) in
  let at_angle x := c + a * cos x + b * sin x in
  let point_start := at_angle a0 in
  let crit := atan2 b a in
  let interior x := if rle (rmod (x - a0) (2 * PI)) span then at_angle x else point_start in
  [c; point_start; at_angle a1; interior crit; interior (crit + PI)].
Definition sector_bound (f : R -> R -> R) (r a0 a1 : R) (t : option rigid) : vec3 :=
  let apex := transform t vzero in
  let a := match t with None => V3 r 0 0 | Some _ => vsub (transform t (V3 r 0 0)) apex end in
  let b := match t with None => V3 0 r 0 | Some _ => vsub (transform t (V3 0 r 0)) apex end in
  let comp g := match sector_candidates a0 a1 (g apex) (g a) (g b) with
                | [] => 0 | x :: l => fold_left f l x end in
  V3 (comp vx) (comp vy) (comp vz).

(** [bound_lower], [bound_upper]; polygons 780-792. *)
Definition bound_lower (a : aperture_obj) : option vec3 :=
  let t := ao_transformation a in
  match ao_shape a with
  | Circular r => Some (vsub (circle_center t) (vconst r))
  | Elliptical rx ry => Some (vsub (transform t vzero) (ellipse_half rx ry t))
  | Sector r a0 a1 => Some (sector_bound Rmin r a0 a1 t)
  | s => reduce vmin2 (map (transform t) (ap_vertices s))
  end.
Definition bound_upper (a : aperture_obj) : option vec3 :=
  let t := ao_transformation a in
  match ao_shape a with
  | Circular r => Some (vadd (circle_center t) (vconst r))
  | Elliptical rx ry => Some (vadd (transform t vzero) (ellipse_half rx ry t))
  | Sector r a0 a1 => Some (sector_bound Rmax r a0 a1 t)
  | s => reduce vmax2 (map (transform t) (ap_vertices s))
  end.

(** ** Wires (local coordinates; the transformation is then applied to every point) *)
(** int(): truncation towards zero *)
Definition rtrunc (x : R) : Z := if Rle_dec 0 x then Int_part x else (- Int_part (- x))%Z.

(** The loop of 794-834 (and 548-594 with three segments): [num_v] for [v], [v+1], ...,
    [n] left, in exact arithmetic. *)
Fixpoint side_counts (per_side : R) (n : nat) (v cumulative : Z) : list Z :=
  match n with
  | O => []
  | S n => let num_v := rtrunc (IZR (v + 1) * per_side - IZR cumulative) in
           num_v :: side_counts per_side n (v + 1) (cumulative + num_v)
  end.
Definition counts (num n : nat) : list Z := side_counts (INR num / INR n) n 0 0.

(** One side: [vertex_left + diff * t]. *)
Definition side_points (a b : vec3) (num : nat) (endpoint : bool) : list vec3 :=
  map (fun t => vadd a (vscale t (vsub b a))) (linspace 1 num endpoint).
(** Pairs (vertex, next vertex), the last one followed by the first. *)
Definition sides (vs : list vec3) : list (vec3 * vec3) :=
  match vs with [] => [] | v :: l => combine vs (l ++ [v]) end.
(** All sides; [cum] is [num_cumulative] before the side. *)
Fixpoint polygon_points (num : nat) (ss : list (vec3 * vec3)) (ks : list Z) (cum : Z) : list vec3 :=
  match ss, ks with
  | (a, b) :: ss, k :: ks =>
      let cum := (cum + k)%Z in
      side_points a b (Z.to_nat k) (Z.eqb cum (Z.of_nat num)) ++ polygon_points num ss ks cum
  | _, _ => []
  end.
Definition polygon_wire (vs : list vec3) (num : nat) : list vec3 :=
  polygon_points num (sides vs) (counts num (length vs)) 0.

(** CircularSectorAperture.wire, 548-594: three segments. *)
Definition sector_point (r a0 a1 : R) (s : nat) (t : R) : vec3 :=
  match s with
  | 0%nat => V3 (r * t * cos a0) (r * t * sin a0) 0
  | 1%nat => let a := a0 + (a1 - a0) * t in V3 (r * cos a) (r * sin a) 0
  | _ => V3 (r * (1 - t) * cos a1) (r * (1 - t) * sin a1) 0
  end.
Fixpoint sector_points (num : nat) (r a0 a1 : R) (s : nat) (ks : list Z) (cum : Z) : list vec3 :=
  match ks with
  | [] => []
  | k :: ks =>
      let cum := (cum + k)%Z in
      map (sector_point r a0 a1 s) (linspace 1 (Z.to_nat k) (Z.eqb cum (Z.of_nat num)))
      ++ sector_points num r a0 a1 (S s) ks cum
  end.

(** [wire]: 338-355, 548-594, 704-721, 794-834. *)
Definition wire (a : aperture_obj) (num : nat) : list vec3 :=
  map (transform (ao_transformation a))
    (match ao_shape a with
     | Circular r => map (fun az => V3 (r * cos az) (r * sin az) 0) (linspace_closed (2 * PI) num)
     | Elliptical rx ry =>
         map (fun az => V3 (rx * cos az) (ry * sin az) 0) (linspace_closed (2 * PI) num)
     | Sector r a0 a1 => sector_points num r a0 a1 0 (counts num 3) 0
     | s => polygon_wire (ap_vertices s) num
     end).
