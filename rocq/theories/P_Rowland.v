(** C122: the foci of concave gratings and the Rowland circle. *)
From Coq Require Import Reals List.
From Coquelicot Require Import Coquelicot.
From Verif Require Import Vec Num RayModel SurfaceModel SagModel SagSpec RulingModel RowlandSpec RowlandProofs FocusExamples RowlandExamples.
Open Scope R_scope.

(** C122.  Light from a point [a] of the Rowland circle of a spherical grating falls on its vertex and goes on along [b0].  On the
    line of [b0] there is another point of the circle; and only a point of the circle can be where the distance from the neighbouring
    diffracted rays vanishes to first order.  If these rays are across the grooves, it does; if they also leave that plane, only if
    sin^2(alpha) / rho + sin^2(beta) / k is 0, with the distances [rho] of the source before the vertex and [k] of the image behind
    it: the image of a real source is astigmatic. *)
Theorem C122_rowland : forall solver s r c n w a f d d' b0, concave_grating solver s r c -> c <> 0 -> 0 < n -> rowland r a -> pencil f a n w d d' ->
  vx d' <> 0 -> on_line a (d 0) (V3 0 0 0) -> r_direction (surface_propagate s (f 0)) = Some b0 -> vz b0 <> 0 ->
  (exists i, on_line (V3 0 0 0) b0 i /\ rowland r i) /\
  exists x b, leaves s f x b /\ x 0 = V3 0 0 0 /\
    forall p, on_line (V3 0 0 0) b0 p -> p <> V3 0 0 0 ->
    is_derive (fun t => distance p (x t) (b t)) 0 0 <->
    rowland r p /\ (vy d' = 0 \/ vx (d 0) * vx (d 0) / dot (vopp a) (d 0) + vx b0 * vx b0 / dot p b0 = 0).
Proof. exact rowland_focus. Qed.
Print Assumptions C122_rowland.

Example C122_nonvacuous : concave_grating no_solver rowland_grating 5 (5/7) /\ rowland 5 slit /\ pencil slit_light slit 1 1 fan (V3 (4/5) 0 (3/5)) /\
  on_line slit (fan 0) (V3 0 0 0) /\ r_direction (surface_propagate rowland_grating (slit_light 0)) = Some (V3 (-4/5) 0 (3/5)) /\
  rowland 5 (V3 (-12/5) 0 (9/5)).
Proof. exact ex_rowland. Qed.

(** C122.  The focal equations: if the distance of the grooves is [P x], and the curvatures of the plane, sphere, paraboloid or cylinder are [cx]
    across and [cy] along the grooves, the light from a point at the distance [rho] before the vertex comes together at the
    distance [k] along the diffracted ray exactly if, unless the rays do not turn across the grooves,
    cos^2(alpha) / rho + cos^2(beta) / k - (cos(alpha) + cos(beta)) cx = (sin(beta) - sin(alpha)) P'(0) / P(0)
    and, unless they do not turn along the grooves, 1 / rho + 1 / k - (cos(alpha) + cos(beta)) cy = 0. *)
Theorem C122_focal_equations : forall solver s kl cx cy P P1 n w rho a f d d' b0,
  ruled_surface solver s kl P -> round kl (vx (d 0)) cx cy -> P 0 <> 0 -> is_derive P 0 P1 -> 0 < n -> pencil f a n w d d' ->
  rho <> 0 -> a = vscale (- rho) (d 0) -> vz (d 0) <> 0 -> r_direction (surface_propagate s (f 0)) = Some b0 -> vz b0 <> 0 ->
  exists x b, leaves s f x b /\ x 0 = V3 0 0 0 /\
    forall k, k <> 0 -> is_derive (fun t => distance (vscale k b0) (x t) (b t)) 0 0 <->
      (vx d' = 0 \/ vz (d 0) * vz (d 0) / rho + vz b0 * vz b0 / k + (vz (d 0) - vz b0) * cx = (vx b0 - vx (d 0)) * P1 / P 0) /\
      (vy d' = 0 \/ 1 / rho + 1 / k + (vz (d 0) - vz b0) * cy = 0).
Proof. exact focal_equation. Qed.
Print Assumptions C122_focal_equations.

(** C122.  The polynomial spacing of the package is of this kind. *)
Theorem C122_polynomial : forall solver s k l g, sf_transformation s = None -> sf_sag s = make_sag solver k None -> FocusSpec.reflects s ->
  sf_rulings s = Some g -> rul_spacing g = polynomial_spacing l (V3 1 0 0) None -> ruled_surface solver s k (polynomial l).
Proof. exact polynomial_ruled. Qed.
Print Assumptions C122_polynomial.

Example C122_varied_nonvacuous : ruled_surface no_solver varied_grating (SphericalSag 5) (polynomial growing) /\ round (SphericalSag 5) (vx (fan 0)) (1/5) (1/5) /\ polynomial growing 0 = 5/7 /\
  is_derive (polynomial growing) 0 (1/49) /\
  slit = vscale (-4) (fan 0) /\ r_direction (surface_propagate varied_grating (slit_light 0)) = Some (V3 (-4/5) 0 (3/5)) /\
  -4/5 * (-4/5) / 4 + 3/5 * (3/5) / (9/2) + (-4/5 - 3/5) * (1/5) = (-4/5 - 3/5) * (1/49) / (5/7).
Proof. exact ex_varied. Qed.

(** The same grooves on a plane, where the image is virtual, and on a cylinder and a paraboloid. *)
Example C122_plane_nonvacuous : ruled_surface no_solver plane_grating NoSag (polynomial growing) /\ round NoSag (vx (fan 0)) 0 0 /\
  r_direction (surface_propagate plane_grating (slit_light 0)) = Some (V3 (-4/5) 0 (3/5)) /\
  -4/5 * (-4/5) / 4 + 3/5 * (3/5) / (-9/5) + (-4/5 - 3/5) * 0 = (-4/5 - 3/5) * (1/49) / (5/7) /\ round (CylindricalSag 5) (vx (fan 0)) (1/5) 0 /\
  round (ParabolicSag (5/2)) (vx (fan 0)) (1/5) (1/5).
Proof. exact ex_plane. Qed.

(** C122.  The virtual images of a plane grating with grooves at a constant distance: along the grooves the image of a point is as far as
    the point, as in a mirror; across them it is (cos(beta) / cos(alpha))^2 times as far. *)
Theorem C122_plane : forall solver s c n w rho a f d d' b0, ruled_surface solver s NoSag (fun _ => c) -> c <> 0 -> 0 < n -> pencil f a n w d d' ->
  rho <> 0 -> a = vscale (- rho) (d 0) -> vz (d 0) <> 0 -> r_direction (surface_propagate s (f 0)) = Some b0 -> vz b0 <> 0 ->
  exists x b, leaves s f x b /\ x 0 = V3 0 0 0 /\
    forall k, k <> 0 -> is_derive (fun t => distance (vscale k b0) (x t) (b t)) 0 0 <->
      (vx d' = 0 \/ k = - rho * ((vz b0 / vz (d 0)) * (vz b0 / vz (d 0)))) /\ (vy d' = 0 \/ k = - rho).
Proof. exact plane_images. Qed.
Print Assumptions C122_plane.

Example C122_flat_nonvacuous : ruled_surface no_solver flat_grating NoSag (fun _ => 5/7) /\ pencil slit_light slit 1 1 fan (V3 (4/5) 0 (3/5)) /\
  slit = vscale (-4) (fan 0) /\ vz (fan 0) <> 0 /\ r_direction (surface_propagate flat_grating (slit_light 0)) = Some (V3 (-4/5) 0 (3/5)).
Proof. exact ex_flat. Qed.
