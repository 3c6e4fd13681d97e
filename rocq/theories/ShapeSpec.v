(** Sizes along an axis, and the attributes that influence the behaviour of each class. *)
From Coq Require Import List String Bool Arith.
From Verif Require Import ShapeModel.
Import ListNotations.
Open Scope string_scope.

(** The keys of a dictionary are distinct. *)
Definition dict (s : shape) : Prop := NoDup (map fst s).

(** Equality of dictionaries does not depend on the order. *)
Definition same (a b : shape) : Prop := forall axis, lookup axis a = lookup axis b.
Definition same_result (a b : option shape) : Prop :=
  match a, b with
  | Some a, Some b => same a b
  | None, None => True
  | _, _ => False
  end.

(** The rule of broadcasting, for one axis: [None] is an axis that is missing. *)
Inductive fits : option nat -> option nat -> option nat -> Prop :=
  | fits_missing_l b : fits None b b
  | fits_missing_r a : fits a None a
  | fits_same n : fits (Some n) (Some n) (Some n)
  | fits_one_l n : fits (Some 1) (Some n) (Some n)
  | fits_one_r n : fits (Some n) (Some 1) (Some n).

(** The axes along which a value varies. *)
Fixpoint varies (v : value) (axis : string) (n : nat) : Prop :=
  match v with
  | Shaped s => lookup axis s = Some n
  | Sequence vs => fold_right (fun w P => varies w axis n \/ P) False vs
  | Mapping vs => fold_right (fun w P => varies w axis n \/ P) False vs
  | Plain => False
  end.

(** Nothing with a shape itself: a sequence, a dictionary, a plain value. *)
Definition unshaped (v : value) : Prop := forall s, v <> Shaped s.

(** The types of attributes: something with a shape (or a plain value); a sequence, or a
    dictionary, of such things. *)
Inductive kind := Array | Seq | Dict | SeqOrArray.
Definition is_array (v : value) : Prop := v = Plain \/ exists s, v = Shaped s /\ dict s.
Definition has_kind (v : value) (k : kind) : Prop :=
  match k with
  | Array => is_array v
  | Seq => exists vs, v = Sequence vs /\ Forall is_array vs
  | Dict => exists vs, v = Mapping vs /\ Forall is_array vs
  | SeqOrArray => is_array v \/ exists vs, v = Sequence vs /\ Forall is_array vs
  end.

(** The attributes that influence the behaviour (the propagation of rays, efficiencies,
    clipping, exposures): read by other methods than [shape], plotting and exporting.  (The
    names and the mechanical aperture of a surface, and plotting options, are only plotted;
    the input grid of a system is its argument.) *)
Definition base_aperture : list (string * kind) := [("active", Array); ("inverted", Array); ("transformation", Array)].
Definition base_sag : list (string * kind) :=
  [("transformation", Array); ("parameters_slope_error", Array); ("parameters_roughness", Array); ("parameters_microroughness", Array)].
Definition class_fields : list (string * list (string * kind)) :=
  [ ("CircularAperture", ("radius", Array) :: base_aperture);
    ("CircularSectorAperture", ("radius", Array) :: ("angle_start", Array) :: ("angle_stop", Array) :: base_aperture);
    ("EllipticalAperture", ("radius", Array) :: base_aperture);
    ("RectangularAperture", ("half_width", Array) :: base_aperture);
    ("RegularPolygonalAperture", ("radius", Array) :: base_aperture);
    ("OctagonalAperture", ("radius", Array) :: base_aperture);
    ("IsoscelesTrapezoidalAperture", ("x_left", Array) :: ("x_right", Array) :: ("angle", Array) :: base_aperture);
    ("Chemical", [("formula", Array); ("is_amorphous", Array); ("table", Array)]);
    ("Layer", [("chemical", Array); ("thickness", Array); ("interface", Array)]);
    ("LayerSequence", [("layers", Seq)]);
    ("PeriodicLayerSequence", [("layers", Seq)]);
    ("Mirror", [("substrate", Array)]);
    ("Glass", [("b1", Array); ("b2", Array); ("b3", Array); ("c1", Array); ("c2", Array); ("c3", Array)]);
    ("MultilayerFilm", [("layers", SeqOrArray)]);
    ("MultilayerMirror", [("layers", SeqOrArray); ("substrate", Array)]);
    ("ThinFilmFilter", [("layer", Array); ("layer_oxide", Array); ("mesh", Array)]);
    ("Mesh", [("chemical", Array); ("efficiency", Array); ("pitch", Array)]);
    ("ErfInterfaceProfile", [("width", Array)]);
    ("ExponentialInterfaceProfile", [("width", Array)]);
    ("LinearInterfaceProfile", [("width", Array)]);
    ("SinusoidalInterfaceProfile", [("width", Array)]);
    ("RoughnessParameters", [("period_min", Array); ("period_max", Array)]);
    ("SlopeErrorParameters", [("step_size", Array); ("kernel_size", Array)]);
    ("Rulings", [("spacing", Array); ("diffraction_order", Array)]);
    ("SinusoidalRulings", [("spacing", Array); ("depth", Array); ("diffraction_order", Array)]);
    ("SquareRulings", [("spacing", Array); ("depth", Array); ("diffraction_order", Array)]);
    ("SawtoothRulings", [("spacing", Array); ("depth", Array); ("diffraction_order", Array)]);
    ("TriangularRulings", [("spacing", Array); ("depth", Array); ("diffraction_order", Array)]);
    ("RectangularRulings", [("spacing", Array); ("depth", Array); ("ratio_duty", Array); ("diffraction_order", Array)]);
    ("ConstantRulingSpacing", [("constant", Array); ("normal", Array)]);
    ("Polynomial1dRulingSpacing", [("coefficients", Dict); ("normal", Array); ("transformation", Array)]);
    ("HolographicRulingSpacing", [("x1", Array); ("x2", Array); ("wavelength", Array); ("is_diverging_1", Array); ("is_diverging_2", Array); ("transformation", Array)]);
    ("ConicSag", ("radius", Array) :: ("conic", Array) :: base_sag);
    ("CylindricalSag", ("radius", Array) :: base_sag);
    ("NoSag", base_sag);
    ("ParabolicSag", ("focal_length", Array) :: base_sag);
    ("SphericalSag", ("radius", Array) :: base_sag);
    ("ToroidalSag", ("radius", Array) :: ("radius_of_rotation", Array) :: base_sag);
    ("ImagingSensor", [("width_pixel", Array); ("num_pixel", Array); ("timedelta_exposure", Array); ("read_noise", Array); ("material", Array); ("transformation", Array)]);
    ("BackIlluminatedSiliconSensorMaterial", [("temperature", Array); ("thickness_oxide", Array); ("thickness_implant", Array); ("thickness_substrate", Array); ("roughness_oxide", Array); ("roughness_substrate", Array); ("cce_backsurface", Array); ("depletion", Array)]);
    ("JanesickDepletionModel", [("thickness", Array); ("thickness_substrate", Array); ("chemical_substrate", Array); ("width_pixel", Array)]);
    ("Surface", [("sag", Array); ("material", Array); ("aperture", Array); ("rulings", Array); ("transformation", Array)]);
    ("SequentialSystem", [("surfaces", Seq); ("object", Array); ("sensor", Array); ("transformation", Array)]) ].

(** An object of a class with attributes of the right types. *)
Definition instance (fields : list (string * kind)) (o : object) : Prop :=
  forall a k, In (a, k) fields -> has_kind (o a) k.

(** Every axis of an attribute is an axis of the shape, with the same size, unless the size
    is one and another attribute stretches it. *)
Definition contributes (v : value) (s : shape) : Prop :=
  forall axis n, varies v axis n -> exists m, lookup axis s = Some m /\ (n = m \/ n = 1).

(** Whatever is passed to [optika.shape] has the type it is expected to have. *)
Definition typed (gs : list argument) (o : object) : Prop :=
  forall g, In g gs -> match g with
    | One a => is_array (o a)
    | Each a => has_kind (o a) Seq
    | EachOrOne a => has_kind (o a) SeqOrArray
    | Pop a _ | PopAxes a _ => is_array (o a) end.

(** The attributes that influence the behaviour of an object, but not its shape. *)
Definition omitted : list (string * string) :=
  [ ("NoSag", "transformation");
    ("HolographicRulingSpacing", "wavelength"); ("HolographicRulingSpacing", "transformation");
    ("Polynomial1dRulingSpacing", "coefficients");
    ("ImagingSensor", "material");
    ("JanesickDepletionModel", "chemical_substrate");
    ("BackIlluminatedSiliconSensorMaterial", "temperature");
    ("BackIlluminatedSiliconSensorMaterial", "thickness_oxide");
    ("BackIlluminatedSiliconSensorMaterial", "thickness_implant");
    ("BackIlluminatedSiliconSensorMaterial", "thickness_substrate");
    ("BackIlluminatedSiliconSensorMaterial", "roughness_oxide");
    ("BackIlluminatedSiliconSensorMaterial", "roughness_substrate");
    ("BackIlluminatedSiliconSensorMaterial", "cce_backsurface");
    ("BackIlluminatedSiliconSensorMaterial", "depletion") ].
