(** Drawings of a system: optika/apertures/_apertures.py:132-217, optika/surfaces.py:200-279,
    optika/systems/_sequential.py:1584-1661 and 1793-1823, optika/rays/_ray_vectors.py:188-236
    and optika/mixins.py:251-266.  A drawing, on the axes of matplotlib or in a DXF file, is the
    list of the polylines handed to [na.plt.plot] or [dxf.add_polyline]; a vertex is [None] if
    it is NaN.  Colours and other keyword arguments are not modelled, and the unit of the file
    is the unit of the model. *)
From Coq Require Import Reals List Bool.
From Verif Require Import Vec Num RayModel SurfaceModel SystemModel.
Import ListNotations.
Open Scope R_scope.
Open Scope opt_scope.

Definition polyline := list (option vec3).

(** What a surface is drawn with, besides the attributes by which it propagates rays: its sag as
    a function of position ([__call__]), and the wires of its two apertures.  [ol_length] is the
    outcome of the unit tests at _apertures.py:146 and 191: apertures in angles are not drawn. *)
Record outline := mkOutline { ol_length : bool; ol_wire : list vec3 }.
Record looks := mkLooks {
  lk_sag : vec3 -> option R;
  lk_aperture : option outline;
  lk_mechanical : option outline;
}.

(** [transformation(x)] if it is not [None] *)
Definition place (t : option rigid) (p : vec3) : vec3 :=
  match t with None => p | Some t => rigid_point t p end.

(** [transformation @ self.transformation] with [None] for the identity: surfaces.py:214-219 and
    253-257, _sequential.py:1619-1623 and 1801-1805. *)
Definition within (outer own : option rigid) : option rigid :=
  match own with
  | None => outer
  | Some t => match outer with None => Some t | Some o => Some (rigid_compose o t) end
  end.

(** _apertures.py:132-165 and 167-217; [sag] is [None] if the aperture is drawn on its own. *)
Definition draw_outline (t : option rigid) (sag : option (vec3 -> option R)) (o : outline) : list polyline :=
  if ol_length o then
    [map (fun p =>
       let* p := match sag with
                 | None => Some p
                 | Some z => let* h := z p in Some (V3 (vx p) (vy p) h)
                 end in
       Some (place t p)) (ol_wire o)]
  else [].

(** surfaces.py:200-243 and 245-279 *)
Definition draw_surface (outer : option rigid) (s : surface) (l : looks) : list polyline :=
  let t := within outer (sf_transformation s) in
  (match lk_aperture l with Some o => draw_outline t (Some (lk_sag l)) o | None => [] end) ++
  (match lk_mechanical l with Some o => draw_outline t (Some (lk_sag l)) o | None => [] end).

(** The polyline of the positions of a ray along the axis of surfaces. *)
Definition ray_path (t : option rigid) (path : list ray) : polyline :=
  map (fun r => omap (place t) (r_position r)) path.

(** _ray_vectors.py:188-236: [None] is the ValueError for a missing axis, or the IndexError for
    an axis without elements.  [axis] tells whether the argument is given. *)
Fixpoint draw_rays (axis : bool) (t : option rigid) (paths : list (list ray)) : option (list polyline) :=
  if axis then
    match paths with
    | [] => Some []
    | path :: rest =>
        let* last := last_of path in
        let* lines := draw_rays axis t rest in
        Some (if r_unvignetted last then ray_path t path :: lines else lines)
    end
  else None.

(** _sequential.py:1793-1823; [inputs] are the rays from which [raytrace] starts, [look] is
    the appearance of each surface. *)
Definition system_to_dxf (outer : option rigid) (look : surface -> looks) (sys : system) (inputs : list ray)
    : option (list polyline) :=
  let t := within outer (sys_transformation sys) in
  let surfaces := flat_map (fun s => draw_surface t (st_surface s) (look (st_surface s))) (surfaces_all sys) in
  let* rays := draw_rays true t (map (trace sys) inputs) in
  Some (surfaces ++ rays).

(** _sequential.py:1584-1661; [where] selects the rays that [na.plt.plot] draws. *)
Definition system_plot (outer : option rigid) (look : surface -> looks) (sys : system) (plot_rays vignetted : bool)
    (inputs : list ray) : option (list polyline) :=
  let t := within outer (sys_transformation sys) in
  let surfaces := flat_map (fun s => draw_surface t (st_surface s) (look (st_surface s))) (surfaces_all sys) in
  if plot_rays then
    let* rays := if vignetted then Some (map (ray_path t) (map (trace sys) inputs))
                 else draw_rays true t (map (trace sys) inputs) in
    Some (surfaces ++ rays)
  else Some surfaces.

(** mixins.py:254-266: [to_dxf] passes no axis, so that for rays (_ray_vectors.py:197) there is none. *)
Definition rays_to_dxf (t : option rigid) (paths : list (list ray)) : option (list polyline) :=
  draw_rays false t paths.
