(** Specification of the Rowland circle.  Nothing here computes an intercept, a normal or a direction. *)
From Coq Require Import Reals List.
From Coquelicot Require Import Coquelicot.
From Verif Require Import Vec Num RayModel SurfaceModel RulingModel SagModel SagSpec FocusSpec FermatSpec.
Open Scope R_scope.

(** The circle across the grooves that touches a sphere of radius [r] in its vertex, the origin, and has the radius of the
    sphere as its diameter; the vertex itself is left out. *)
Definition rowland (r : R) (p : vec3) : Prop :=
  vy p = 0 /\ vx p * vx p + (vz p - r / 2) * (vz p - r / 2) = r / 2 * (r / 2) /\ p <> V3 0 0 0.

(** The distance of the point [p] from the line through [x] along the unit vector [b]. *)
Definition distance (p x b : vec3) : R := vlen (cross (vsub p x) b).

(** A family of rays of one wavelength from the point [a], whose directions turn at the rate [d'] from a direction across the grooves. *)
Definition pencil (f : R -> ray) (a : vec3) (n w : R) (d : R -> vec3) (d' : vec3) : Prop :=
  locally 0 (fun t => r_position (f t) = Some a /\ r_direction (f t) = Some (d t) /\ r_index (f t) = n /\ r_wavelength (f t) = w /\ is_unit (d t)) /\
  vy (d 0) = 0 /\ moves d (d 0) d'.

(** A mirror of the shape [k] with straight grooves along y, at the distance [P x] where they cross the coordinate [x]. *)
Definition ruled_surface (solver : vec3 -> vec3 -> option R) (s : surface) (k : sag_class) (P : R -> R) : Prop :=
  sf_transformation s = None /\ sf_sag s = make_sag solver k None /\ reflects s /\
  exists g, sf_rulings s = Some g /\ forall q n, rul_spacing g q n = Some (V3 (P (vx q)) 0 0).

(** Planes, spheres, paraboloids and cylinders, and their curvatures across and along the grooves.  [dx] is the component across the
    grooves of the direction of the light: rays that are nearly, but not exactly, along the axis of a paraboloid are left out. *)
Definition round (k : sag_class) (dx cx cy : R) : Prop :=
  match k with
  | NoSag => cx = 0 /\ cy = 0
  | SphericalSag r => r <> 0 /\ cx = 1 / r /\ cy = 1 / r
  | ParabolicSag f => f <> 0 /\ (dx = 0 \/ 1 / 10 ^ 10 < dx * dx) /\ cx = 1 / (2 * f) /\ cy = 1 / (2 * f)
  | CylindricalSag r => r <> 0 /\ cx = 1 / r /\ cy = 0
  | _ => False
  end.

(** A spherical mirror with grooves at the constant distance [c]. *)
Definition concave_grating (solver : vec3 -> vec3 -> option R) (s : surface) (r c : R) : Prop :=
  sf_transformation s = None /\ sf_sag s = make_sag solver (SphericalSag r) None /\ reflects s /\
  exists g, sf_rulings s = Some g /\ rul_spacing g = constant_spacing c (V3 1 0 0).

(** The rays that the grating sends out are [b] from [x]. *)
Definition leaves (s : surface) (f : R -> ray) (x b : R -> vec3) : Prop :=
  locally 0 (fun t => r_position (surface_propagate s (f t)) = Some (x t) /\ r_direction (surface_propagate s (f t)) = Some (b t) /\
    is_unit (b t)).
