(** C84: drawings and DXF files. *)
From Coq Require Import Reals List Bool.
From Verif Require Import Vec Num RayModel SurfaceModel SequenceSpec SystemModel DrawModel DrawSpec DrawProofs DrawExamples.
Import ListNotations.
Open Scope R_scope.

(** The file contains exactly the outlines of the apertures, on the sag of their surfaces and
    where these are in the room, and the paths of the rays that reach the end of the system. *)
Theorem C84_drawing_partial : forall outer look sys inputs, rigid_system sys ->
  exists outlines, system_to_dxf outer look sys inputs = Some (outlines ++
    map (fun r => map (fun r' => omap (place outer) (r_position r')) (room_path sys r)) (filter (arrives sys) inputs)) /\
  forall line, In line outlines <-> exists s o, In s (surfaces_all sys) /\
    (lk_aperture (look (st_surface s)) = Some o \/ lk_mechanical (look (st_surface s)) = Some o) /\ ol_length o = true /\
    line = map (fun p => omap (fun h => room_point outer sys (st_surface s) (V3 (vx p) (vy p) h)) (lk_sag (look (st_surface s)) p)) (ol_wire o).
Proof. exact whole_drawing. Qed.
Print Assumptions C84_drawing_partial.

(** Those rays are the ones that every aperture lets through. *)
Theorem C84_arrives_partial : forall sys r, rigid_system sys -> arrives sys r = true <->
  r_unvignetted r = true /\ forall i s r', nth_error (surfaces_all sys) i = Some s -> nth_error (room_path sys r) i = Some r' ->
    passes (in_room sys (st_surface s)) r' = true.
Proof. exact arrives_iff. Qed.
Print Assumptions C84_arrives_partial.

(** Each vertex of a path lies on the drawn surface. *)
Theorem C84_on_surface_partial : forall outer look sys r i s r' v, rigid_system sys -> nth_error (surfaces_all sys) i = Some s ->
  sound_sag (st_surface s) (look (st_surface s)) ->
  nth_error (room_path sys r) i = Some r' -> omap (place outer) (r_position r') = Some v ->
  exists p, on_sag (look (st_surface s)) p /\ v = room_point outer sys (st_surface s) p.
Proof. exact ray_on_surface. Qed.
Print Assumptions C84_on_surface_partial.

(** The plot shows the same, with all rays or with none if this is asked for. *)
Theorem C84_plot_partial : forall outer look sys vignetted inputs, rigid_system sys ->
  exists outlines, system_plot outer look sys true vignetted inputs = Some (outlines ++
    map (fun r => map (fun r' => omap (place outer) (r_position r')) (room_path sys r))
      (if vignetted then inputs else filter (arrives sys) inputs)) /\
  system_plot outer look sys false vignetted inputs = Some outlines /\
  system_to_dxf outer look sys [] = Some outlines.
Proof. exact whole_plot. Qed.
Print Assumptions C84_plot_partial.

(** Moving the drawing moves each of its vertices. *)
Theorem C84_moved_partial : forall t look sys inputs lines, system_to_dxf None look sys inputs = Some lines ->
  system_to_dxf (Some t) look sys inputs = Some (map (map (omap (rigid_point t))) lines).
Proof. exact drawing_moves. Qed.
Print Assumptions C84_moved_partial.

(** Rays on their own cannot be written: [to_dxf] of an array of rays always raises an error. *)
Theorem C84_rays_refuted : exists t paths, paths <> [] /\ (forall p, In p paths -> exists r, In r p /\ r_unvignetted r = true) /\
  rays_to_dxf t paths = None.
Proof. exact rays_alone. Qed.
Print Assumptions C84_rays_refuted.

Example C84_nonvacuous : rigid_system drawn_system /\
  (forall s, In s (surfaces_all drawn_system) -> sound_sag (st_surface s) (flat_look (st_surface s))) /\
  arrives drawn_system (mkRay 1 (Some (V3 0 0 0)) (Some (V3 0 0 1)) (Some 1) 0 1 true) = true /\
  arrives drawn_system (mkRay 1 (Some (V3 0 0 0)) (Some (V3 0 0 1)) (Some 1) 0 1 false) = false.
Proof. exact drawn_meets. Qed.
