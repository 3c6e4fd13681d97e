(** optika/systems/_sequential.py:1514-1582, [_rayfunction_and_axes]: the rays from which
    [distortion] and [vignetting] are fitted, and the axes along which they are reduced.

    Only the names of the axes are modelled: a grid is the list of axes of each of its components.
    The trace itself is taken not to raise an exception. *)
From Coq Require Import String List Bool Arith.
From Verif Require Import Num SystemModel.
Import ListNotations.
Open Scope opt_scope.

(** The axes of an [ObjectVectorArray]. *)
Record shapes := mkShapes { sh_wavelength : list string; sh_field : list string; sh_pupil : list string }.

(** The attributes of a system that matter: [shape] (lines 2125-2132), [axis_wavelength],
    [axis_field], [axis_pupil] (lines 2084-2108); [ax_stop] gives the axes of the extent of the
    stop rays solved at a wavelength with the given axes (lines 761-785). *)
Record axis_config := mkAxisConfig {
  ax_shape : list string;
  ax_wavelength : option string;
  ax_field : option (list string);
  ax_pupil : option (list string);
  ax_stop : list string -> list string;
}.

(** The axes of the sum or product of two arrays, by named_arrays. *)
Definition join_axes (a b : list string) : list string := a ++ minus_axes b a.

(** [_denormalize_grid], lines 748-787 *)
Definition denormalize_axes (c : axis_config) (normalized_field normalized_pupil : bool) (g : shapes) : shapes :=
  let extent := ax_stop c (sh_wavelength g) in
  mkShapes (sh_wavelength g)
    (if normalized_field then join_axes extent (sh_field g) else sh_field g)
    (if normalized_pupil then join_axes extent (sh_pupil g) else sh_pupil g).

(** [grid_input] and the grids of the rays kept by the cached properties [_rayfunction_input]
    (lines 830-834) and [rayfunction_default] (lines 990-1000). *)
Record axis_state := mkAxisState {
  as_grid : shapes;
  as_input : option shapes;
  as_default : option shapes;
}.

(** The arguments [wavelength], [field], [pupil] and the two flags. *)
Record axis_args := mkAxisArgs {
  aa_wavelength : option (list string);
  aa_field : option (list string);
  aa_pupil : option (list string);
  aa_normalized_field : bool;
  aa_normalized_pupil : bool;
}.
Definition no_grids (a : axis_args) : bool :=
  negb (given (aa_wavelength a)) && negb (given (aa_field a)) && negb (given (aa_pupil a)).

(** Lines 263-293: [axis_wavelength_], [axis_field_], [axis_pupil_]. *)
Definition own_axes (order : list string -> list string) (c : axis_config) (g : shapes)
    : option (list string * list string * list string) :=
  let* w := normalize_axis_wavelength order (ax_wavelength c) (sh_wavelength g) (ax_shape c) in
  let* f := normalize_axis_field order (ax_field c) w (sh_field g) (ax_shape c) in
  let* p := normalize_axis_pupil order (ax_pupil c) f w (sh_pupil g) (ax_shape c) in
  Some (w, f, p).

(** [rayfunction_default] without the rays: lines 889-890 and 990-1000. *)
Definition default_axes (c : axis_config) (s : axis_state) : axis_state * shapes :=
  match as_default s with
  | Some d => (s, d)
  | None =>
      let i := match as_input s with
               | Some i => i
               | None => denormalize_axes c true true (as_grid s)
               end in
      (mkAxisState (as_grid s) (Some i) (Some i), i)
  end.

(** Lines 891-903 *)
Definition requested (s : axis_state) (a : axis_args) : shapes :=
  mkShapes (default_to (aa_wavelength a) (sh_wavelength (as_grid s)))
           (default_to (aa_field a) (sh_field (as_grid s)))
           (default_to (aa_pupil a) (sh_pupil (as_grid s))).

(** Lines 1557-1582: the new state, and the grid of the rays with the three groups of axes;
    [None] is ValueError. *)
Definition rayfunction_and_axes (order : list string -> list string) (c : axis_config)
    (s : axis_state) (a : axis_args)
    : axis_state * option (shapes * (list string * list string * list string)) :=
  if no_grids a then
    let (s, rays) := default_axes c s in
    (s, let* axes := own_axes order c (as_grid s) in Some (rays, axes))
  else
    let rays := denormalize_axes c (aa_normalized_field a) (aa_normalized_pupil a) (requested s a) in
    (s, let* w := normalize_axis_wavelength order None (sh_wavelength rays) (ax_shape c) in
        let* f := normalize_axis_field order None w (sh_field rays) (ax_shape c) in
        let* p := normalize_axis_pupil order None f w (sh_pupil rays) (ax_shape c) in
        Some (rays, (w, f, p))).

(** What a program can do. *)
Inductive axis_action :=
| Fit (a : axis_args)           (* system.distortion(...), system.vignetting(...) *)
| SetShapes (g : shapes)        (* system.grid_input = g *)
| DropDefault                   (* del system.rayfunction_default *)
| DropInput.                    (* del system._rayfunction_input *)
Definition axis_step (order : list string -> list string) (c : axis_config) (s : axis_state) (a : axis_action)
    : axis_state :=
  match a with
  | Fit a => fst (rayfunction_and_axes order c s a)
  | SetShapes g => mkAxisState g (as_input s) (as_default s)
  | DropDefault => mkAxisState (as_grid s) (as_input s) None
  | DropInput => mkAxisState (as_grid s) None (as_default s)
  end.
Definition axis_history order c (g : shapes) (l : list axis_action) : axis_state :=
  fold_left (axis_step order c) l (mkAxisState g None None).
