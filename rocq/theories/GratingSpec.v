(** Specification of the optical length of paths over gratings. *)
From Coq Require Import Reals List.
From Coquelicot Require Import Coquelicot.
From Verif Require Import Vec Num RayModel SurfaceModel SagModel SagSpec SequenceSpec FocusSpec FermatSpec.
Import ListNotations.
Open Scope R_scope.

(** [N] numbers the grooves on a surface of shape [k]: along every curve in the surface it grows by
    the velocity across the grooves divided by their spacing.  The spacing of the code is a vector
    across the grooves, as long as their distance. *)
Definition numbers (k : sag_class) (spacing : vec3 -> vec3 -> option vec3) (N : vec3 -> R) : Prop :=
  forall c x v n kappa, moves c x v -> class_normal k x = Some n -> dot n v = 0 ->
  spacing x n = Some kappa -> vlen kappa <> 0 ->
  is_derive (fun t => N (c t)) 0 (dot (vscale (1 / vlen kappa) kappa) v / vlen kappa).

(** A surface with or without rulings, the rulings numbered by [N]. *)
Record ruled := mkRuled { ru_class : sag_class; ru_surface : surface; ru_number : vec3 -> R }.
Definition ruled_shaped (solver : vec3 -> vec3 -> option R) (u : ruled) : Prop :=
  sf_sag (ru_surface u) = make_sag solver (ru_class u) None /\ rigid_surface (ru_surface u) /\
  match sf_rulings (ru_surface u) with None => True | Some g => numbers (ru_class u) (rul_spacing g) (ru_number u) end.

(** What a groove adds to the optical length of the ray [r] that goes on as [r']: the order times
    the wavelength, the other way round if the ray comes from the other side of the surface;
    nothing without rulings. *)
Definition groove_length (u : ruled) (r r' : ray) (w : R) : Prop :=
  match sf_rulings (ru_surface u) with
  | None => w = 0
  | Some g => exists d x n, r_direction r = Some d /\ r_position r' = Some x /\
      class_normal (ru_class u) (local_point (ru_surface u) x) = Some n /\
      w = (if Rlt_dec (dot (local_vector (ru_surface u) d) n) 0 then -1 else 1) * rul_order g * r_wavelength r
  end.
Fixpoint groove_lengths (l : list ruled) (r : ray) (rays : list ray) (ws : list R) : Prop :=
  match l, rays, ws with
  | [], [], [] => True
  | u :: l, r' :: rays, w :: ws => groove_length u r r' w /\ groove_lengths l r' rays ws
  | _, _, _ => False
  end.

(** The sum of the groove numbers of the points, each times the length that a groove adds. *)
Fixpoint groove_sum (l : list ruled) (ws : list R) (ps : list vec3) : R :=
  match l, ws, ps with
  | u :: l, w :: ws, p :: ps => w * ru_number u (local_point (ru_surface u) p) + groove_sum l ws ps
  | _, _, _ => 0
  end.

(** Nowhere does the ray graze a ruled surface. *)
Fixpoint not_grazing (l : list ruled) (r : ray) (rays : list ray) : Prop :=
  match l, rays with
  | u :: l, r' :: rays =>
      (sf_rulings (ru_surface u) <> None ->
       forall d x n, r_direction r = Some d -> r_position r' = Some x ->
         class_normal (ru_class u) (local_point (ru_surface u) x) = Some n ->
         dot (local_vector (ru_surface u) d) n <> 0) /\
      not_grazing l r' rays
  | _, _ => True
  end.

(** The beam of a recording source: its phase grows with the distance from the source if it
    diverges and falls if it converges. *)
Definition beam_length (diverging : bool) (source p : vec3) : R :=
  if diverging then vlen (vsub p source) else - vlen (vsub p source).
