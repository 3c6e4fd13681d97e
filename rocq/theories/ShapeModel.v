(** Shapes: optika/_util.py:21-38 and the [shape] properties of the classes. *)
From Coq Require Import List String Bool Arith.
From Verif Require Import Num.
Import ListNotations.
Open Scope string_scope.
Open Scope opt_scope.

(** [dict[str, int]]: axis and size, in order; the axes of a dictionary are distinct. *)
Definition shape := list (string * nat).
Fixpoint lookup (axis : string) (s : shape) : option nat :=
  match s with
  | [] => None
  | (a, n) :: rest => if String.eqb axis a then Some n else lookup axis rest
  end.
(** Assignment of an item that exists *)
Fixpoint assign (axis : string) (n : nat) (s : shape) : shape :=
  match s with
  | [] => []
  | (a, m) :: rest => if String.eqb axis a then (a, n) :: rest else (a, m) :: assign axis n rest
  end.
(** [dict.pop] *)
Definition pop (axis : string) (s : shape) : shape := filter (fun an => negb (String.eqb axis (fst an))) s.

(** [named_arrays.broadcast_shapes] (external): the axes of the shapes are merged; equal sizes
    agree, a size of one is stretched, other sizes are a [ValueError].  New axes are put in
    front, from the last to the first; no theorem about this function depends on that order. *)
Definition merge_axis (result : shape) (an : string * nat) : option shape :=
  let (a, n) := an in
  match lookup a result with
  | None => Some ((a, n) :: result)
  | Some m =>
      if Nat.eqb m n then Some result
      else if Nat.eqb n 1 then Some result
      else if Nat.eqb m 1 then Some (assign a n result)
      else None
  end.
Fixpoint merge (result : shape) (axes : list (string * nat)) : option shape :=
  match axes with
  | [] => Some result
  | an :: rest => let* r := merge_axis result an in merge r rest
  end.
Definition broadcast2 (a b : shape) : option shape := merge a (rev b).
Fixpoint broadcast_from (result : shape) (shapes : list shape) : option shape :=
  match shapes with
  | [] => Some result
  | s :: rest => let* r := broadcast2 result s in broadcast_from r rest
  end.
Definition broadcast_shapes (shapes : list shape) : option shape := broadcast_from [] shapes.

(** The value of an attribute: an array, a transformation or another object with a shape; a
    sequence of values; a dictionary with values; or anything else ([None], a number, a
    string, a chemical formula, ...). *)
Inductive value :=
  | Shaped (s : shape)
  | Sequence (vs : list value)
  | Mapping (vs : list value)
  | Plain.

(** optika/_util.py:21-38, [optika.shape] *)
Definition optika_shape (v : value) : shape := match v with Shaped s => s | _ => [] end.

(** ** The [shape] properties *)

(** One argument of [na.broadcast_shapes] in a [shape] property. *)
Inductive argument :=
  | One (a : string)                      (* optika.shape(self.a) *)
  | Each (a : string)                     (* *[optika.shape(x) for x in self.a] *)
  | EachOrOne (a : string)                (* the same, optika.shape(self.a) after a TypeError *)
  | Pop (a axis : string)                 (* shape = optika.shape(self.a); shape.pop(axis) *)
  | PopAxes (a b : string).               (* ... for ax in self.b.axes: shape.pop(ax, None) *)

Definition object := string -> value.

Definition argument_shapes (o : object) (g : argument) : option (list shape) :=
  match g with
  | One a => Some [optika_shape (o a)]
  | Each a => match o a with Sequence vs => Some (map optika_shape vs) | _ => None end
  | EachOrOne a =>
      match o a with Sequence vs => Some (map optika_shape vs) | v => Some [optika_shape v] end
  | Pop a axis =>
      match lookup axis (optika_shape (o a)) with
      | Some _ => Some [pop axis (optika_shape (o a))]
      | None => None
      end
  | PopAxes a b => Some [fold_left (fun s an => pop (fst an) s) (optika_shape (o b)) (optika_shape (o a))]
  end.
Fixpoint arguments_shapes (o : object) (gs : list argument) : option (list shape) :=
  match gs with
  | [] => Some []
  | g :: rest => let* s := argument_shapes o g in let* t := arguments_shapes o rest in Some (s ++ t)%list
  end.
Definition object_shape (gs : list argument) (o : object) : option shape :=
  let* s := arguments_shapes o gs in broadcast_shapes s.

(** The arguments of [na.broadcast_shapes] in the [shape] property of each class, in order. *)
Definition class_shape : list (string * list argument) :=
  [ (* optika/apertures/_apertures.py:284, 428, 632, 848, 933, 1043, 1073, 1185 *)
    ("CircularAperture", [One "radius"; One "active"; One "inverted"; One "transformation"]);
    ("CircularSectorAperture", [One "radius"; One "angle_start"; One "angle_stop"; One "active"; One "inverted"; One "transformation"]);
    ("EllipticalAperture", [One "radius"; One "active"; One "inverted"; One "transformation"]);
    ("PolygonalAperture", [Pop "vertices" "vertex"; One "active"; One "inverted"; One "transformation"]);
    ("RectangularAperture", [One "half_width"; One "active"; One "inverted"; One "transformation"]);
    ("RegularPolygonalAperture", [One "radius"; One "active"; One "inverted"; One "transformation"]);
    ("OctagonalAperture", [One "radius"; One "active"; One "inverted"; One "transformation"]);
    ("IsoscelesTrapezoidalAperture", [One "x_left"; One "x_right"; One "angle"; One "active"; One "inverted"; One "transformation"]);
    (* optika/chemicals/_chemicals.py:260 *)
    ("Chemical", [One "formula"; One "is_amorphous"; One "table"]);
    (* optika/materials/_layers.py:195, 437, 584 *)
    ("Layer", [One "chemical"; One "thickness"; One "interface"]);
    ("LayerSequence", [Each "layers"]);
    ("PeriodicLayerSequence", [Each "layers"]);
    (* optika/materials/_materials.py:88, 170, 268, 414 *)
    ("Vacuum", []);
    ("Mirror", [One "substrate"]);
    ("MeasuredMirror", [PopAxes "efficiency_measured.outputs" "efficiency_measured.inputs.wavelength"; One "substrate"; One "serial_number"]);
    ("Glass", [One "b1"; One "b2"; One "b3"; One "c1"; One "c2"; One "c3"]);
    (* optika/materials/_multilayers.py:891, 1112 *)
    ("MultilayerFilm", [EachOrOne "layers"]);
    ("MultilayerMirror", [EachOrOne "layers"; One "substrate"]);
    (* optika/materials/_thin_films.py:132, optika/materials/meshes.py:61 *)
    ("ThinFilmFilter", [One "layer"; One "layer_oxide"; One "mesh"]);
    ("Mesh", [One "chemical"; One "efficiency"; One "pitch"]);
    (* optika/materials/profiles.py:208, 307, 410, 518 *)
    ("ErfInterfaceProfile", [One "width"]);
    ("ExponentialInterfaceProfile", [One "width"]);
    ("LinearInterfaceProfile", [One "width"]);
    ("SinusoidalInterfaceProfile", [One "width"]);
    (* optika/metrology/_roughness.py:25, optika/metrology/_slope_error.py:25 *)
    ("RoughnessParameters", [One "period_min"; One "period_max"]);
    ("SlopeErrorParameters", [One "step_size"; One "kernel_size"]);
    (* optika/rulings/_rulings.py:240, 276, 397, 541, 698, 842, 1000 *)
    ("Rulings", [One "spacing"; One "diffraction_order"]);
    ("MeasuredRulings", [One "spacing"; One "diffraction_order"; PopAxes "efficiency_measured.outputs" "efficiency_measured.inputs.wavelength"]);
    ("SinusoidalRulings", [One "spacing"; One "depth"; One "diffraction_order"]);
    ("SquareRulings", [One "spacing"; One "depth"; One "diffraction_order"]);
    ("SawtoothRulings", [One "spacing"; One "depth"; One "diffraction_order"]);
    ("TriangularRulings", [One "spacing"; One "depth"; One "diffraction_order"]);
    ("RectangularRulings", [One "spacing"; One "depth"; One "ratio_duty"; One "diffraction_order"]);
    (* optika/rulings/_spacing.py:59, 102, 287 *)
    ("ConstantRulingSpacing", [One "constant"; One "normal"]);
    ("Polynomial1dRulingSpacing", [One "coefficients"; One "normal"; One "transformation"]);
    ("HolographicRulingSpacing", [One "x1"; One "x2"; One "is_diverging_1"; One "is_diverging_2"]);
    (* optika/sags/_conic.py:244, _cylindrical.py:66, _flat.py:19, _parabolic.py:23,
       _spherical.py:91, _toroidal.py:28 *)
    ("ConicSag", [One "radius"; One "conic"; One "transformation"; One "parameters_slope_error"; One "parameters_roughness"; One "parameters_microroughness"]);
    ("CylindricalSag", [One "radius"; One "transformation"; One "parameters_slope_error"; One "parameters_roughness"; One "parameters_microroughness"]);
    ("NoSag", [One "parameters_slope_error"; One "parameters_roughness"; One "parameters_microroughness"]);
    ("ParabolicSag", [One "focal_length"; One "transformation"; One "parameters_slope_error"; One "parameters_roughness"; One "parameters_microroughness"]);
    ("SphericalSag", [One "radius"; One "transformation"; One "parameters_slope_error"; One "parameters_roughness"; One "parameters_microroughness"]);
    ("ToroidalSag", [One "radius"; One "radius_of_rotation"; One "transformation"; One "parameters_slope_error"; One "parameters_roughness"; One "parameters_microroughness"]);
    (* optika/sensors/_sensors.py:492, sensors/materials/_materials.py:2280,
       sensors/materials/depletion/_depletion.py:148 *)
    ("ImagingSensor", [One "name"; One "width_pixel"; One "num_pixel"; One "timedelta_exposure"; One "read_noise"; One "transformation"]);
    ("BackIlluminatedSiliconSensorMaterial", []);
    ("JanesickDepletionModel", [One "thickness"; One "thickness_substrate"; One "width_pixel"; One "mcc_measured"]);
    (* optika/surfaces.py:387 *)
    ("Surface", [One "name"; One "sag"; One "material"; One "aperture"; One "rulings"; One "transformation"]);
    (* optika/systems/_sequential.py:2126 *)
    ("SequentialSystem", [Each "surfaces"; One "object"; One "sensor"; One "transformation"]) ].
