# Formal model of optika in Rocq (Coq 8.16.1)

This document says what is modelled, how each property of `properties.jsonl`
is stated and proved, and what has to be trusted.  It was written before the
proofs and is kept current as the model grows.

## 1. Layout

* `rocq/theories/*Model.v`  executable or mathematical definitions, function by
  function, each with a comment citing the file and lines of `/repo` it models
  and naming every simplification.  No proofs.
* `rocq/theories/*Spec.v`   small independent specifications (what a normal, a
  bounding box, a probability distribution ... is).  No reference to the model.
* `rocq/theories/*Proofs.v` (or `*Lemmas.v`) lemmas and proofs.
* `rocq/theories/P_*.v`     the property theorems only, each closed by
  `exact ...`, followed by `Print Assumptions` and by a non-vacuity `Example`.
* `MANIFEST.json`           property -> theorem names and status.
* `ASSUMPTIONS.md`          axioms of each theorem.
* `seeded/LOG.jsonl`        log of the wrong-program experiments.

## 2. Number model

* Floating-point numbers are modelled by the real numbers of the standard
  library (`R`), complex numbers by Coquelicot's `C`.  **Rounding is not
  modelled**, except where a property is about it (the point count of aperture
  wires, which is modelled bit-exactly with the standard library's `SpecFloat`).
* NaN is modelled by `None`: wherever numpy would take the square root of a
  negative number, divide zero by zero, or propagate a NaN, the model returns
  `None` instead of using the totalised `sqrt`/`/` of the standard library.
* Where infinities matter (`radius = inf`, "no intersection" encoded as
  `t = inf`) an explicit extended-real type with IEEE arithmetic is used.
* Units (astropy) are not modelled: quantities are numbers in one consistent
  unit system.  The places where the code tests for a unit (`is_equivalent`)
  are modelled by an explicit tag.
* Arrays: the library is vectorised through `named_arrays`; the model describes
  one element (one ray, one pixel, one wavelength), and uses lists where the
  code reduces over an axis (histograms, means, products of layers).

## 3. What is trusted

1. Coq's kernel (8.16.1) and the axioms printed by `Print Assumptions` for each
   theorem.  The only axioms used are those of the standard library:
   `ClassicalDedekindReals.sig_forall_dec`, `ClassicalDedekindReals.sig_not_dec`,
   `FunctionalExtensionality.functional_extensionality_dep` and
   `Classical_Prop.classic`.  `ASSUMPTIONS.md` (written by
   `tools/assumptions.py`) lists them theorem by theorem; theorems about
   discrete parts (shapes, strings, axis names, stop indices, floating-point
   witnesses) are closed.
2. The reading of the Python source: the code is not run; every definition
   cites the lines it models.
3. The behaviour of the dependencies, as described by the model where they are
   called.  None of this is an axiom: it is either written out as a definition,
   or an argument of the model over which the theorems quantify.

   Written out as definitions:
   * numpy and numba elementary functions are the real functions; `erf` is its
     integral, `scipy.special.jv` the Bessel integral; `numpy.sign(0) = 0`;
     comparisons with NaN are false;
   * the complex square root is the principal one; signed zeros are not
     modelled, so statements exclude the branch cut where it matters;
   * `named_arrays` broadcasting is element-wise; `broadcast_shapes` joins maps
     from axis names to sizes (for C118 it puts the axis `num_electron` last, as
     `_electrons_measured_quantity` needs it; `broadcast_to` stretches axes of
     the size one, and the last axis of `ndarray` runs fastest); the power and the inverse of a matrix are the
     repeated product and the adjugate over the determinant;
   * `Cartesian3dRotationX/Y/Z` are the right-handed rotations, `Translation`
     adds, `@` composes (right operand first), `inverse` inverts; positions are
     mapped affinely and directions linearly;
   * `na.histogram` puts a value in the half-open bin that contains it (last
     bin closed) and drops values outside and NaN positions; a NaN weight makes
     its bin NaN; `na.interp` is numpy.interp as documented; `volume_cell`,
     `cell_centers(random=True)` and `solid_angle_cell` are as documented;
   * `copy_shallow` and `dataclasses.replace` copy an object and share its
     attributes; `functools.cached_property` stores the first value in the
     instance dictionary until it is deleted; python resolves methods by C3;
   * `joblib.Memory.cache` keeps, per function and arguments, the text of the
     function and its pickled result, uses the result while the text is the same,
     and makes a new object for every call;
   * `re.sub("\d")` works on ASCII digits; ezdxf and matplotlib draw the
     polylines they are given;
   * a `numba.prange` loop interleaves its iterations arbitrarily, each array
     increment being a load followed by a store.

   Arguments of the model (the theorems hold for every one that meets the
   hypotheses stated in them):
   * root finders: `root_secant` for toroids and `root_newton` for the stops are
     functions; where their result matters the hypothesis is that it is a root;
   * random draws (`numpy.random`): arbitrary inputs where the claim is about
     every run, finite distributions with the stated moments where it is about
     expectations; the gamma distribution of `electrons_measured_approx` is a
     distribution function with its first two moments;
   * `point_in_polygon` of named_arrays: a function assumed to accept only
     points of the convex hull (`PolygonTest.v` proves this of the
     crossing-number test);
   * least squares (`PolynomialFitFunctionArray`): any solver whose result
     minimises the sum of squares over the points that are not masked;
   * `numpy.loadtxt` and the contents of the table files (the three tables of
     pair-production probabilities are also included as data, for C103); the order in which
     python iterates over a set (a permutation); `scipy.optimize.minimize_scalar`
     (only its objective is modelled) and `minimize` (any that finds a least value); the renderer of
     the resolution target;
   * what `named_arrays` answers before the methods of a ray are asked
     (`super().__array_matmul__`, `super().__array_ufunc__`): a function that
     leaves mixed operands to the ray.

## 4. What is modelled and what is not, file by file

Paths are relative to `/repo/optika`.  Documentation strings, `_tests` and
`__init__` files are not modelled.

| file | modelled in | not modelled |
|------|-------------|--------------|
| `_util.py` | `ShapeModel`, `AngleModel` | |
| `propagators.py` | `SurfaceModel` (accumulate, propagate) | |
| `mixins.py` | `MixinModel` (moving), `DrawModel` (`to_dxf`), `PrintModel` (printing) | abstract declarations |
| `surfaces.py` | `SurfaceModel` (`propagate_rays`), `DrawModel` (`plot`, `to_dxf`), `ShapeModel` | |
| `sags/*` | `SagModel`, `SagInfModel` (infinite radius), `SagFloatModel` (conic in binary64) | iterations of `root_secant` |
| `apertures/_apertures.py` | `ApertureModel` (all classes: test, bounds, wires, vertices), `WireFloatModel`, `DrawModel` | |
| `rulings/_rulings.py`, `_spacing.py` | `RulingModel` | |
| `materials/_snells_law.py` | `SnellModel`, `LayerModel` (scalar form) | the numba/numpy dispatch |
| `materials/_materials.py` | `MaterialModel` | |
| `materials/matrices.py`, `_layers.py`, `_multilayers.py`, `_thin_films.py`, `meshes.py` | `LayerModel`, `CoatingModel` (as materials) | `plot`, `plot_layers` |
| `materials/profiles.py` | `ProfileModel` | `plot` |
| `metrology/*` | `ShapeModel` | the classes hold parameters only |
| `chemicals/_chemicals.py` | `FormulaModel`, `TableModel`, `ChemicalModel` (the tables of `Si.nk`, `SiO2_llnl_cxro_rodriguez.nk`, `Si_palik.nk` and `AlAs.nk` in `ChemicalData`, written by `tools/mkchem.py` as exact decimals) | the other `.nk` files |
| `radiometry/_effective_area.py` | `TableModel` | |
| `radiometry/_vignetting.py` | `FitModel`, `SystemModel` | `plot` |
| `distortion/_distortion.py` | `DistortionModel`, `FitModel` | `plot`, `plot_residual` |
| `rays/*`, `vectors/*` | `RayModel`, `RayOpsModel` (arithmetic), `CellModel`, `DrawModel` | `from_scalar`, `type_*` |
| `sensors/_sensors.py` | `SensorModel`, `ImageModel`, `MeasureModel` (`measure` without noise), `ReadoutModel` (read noise) | readout timing |
| `sensors/materials/_materials.py` | `SensorModel`, `QuantumModel`, `ApproxModel` | iterations of `fit_eqe` |
| `sensors/materials/_diffusion.py` | `DiffusionModel` | |
| `sensors/materials/_ramanathan_2020` | `RamanathanModel`, `ParallelModel`, `ExposureModel` (axes of the arguments), `PairTableModel` (the tables themselves in `PairData`, written by `tools/mkpairs.py` from the `.dat` files as exact decimals) | rounding of the decimals to floats by `loadtxt` |
| `sensors/materials/depletion` | `DiffusionModel`, `DepletionModel` (fit and data of both chips) | iterations of scipy in `fit_mcc` |
| `sensors/materials/_e2v_*`, `_tektronix_*`, `_caching.py` | `FactoryModel` (fit, cache, temperature) | measured efficiencies of particular chips |
| `systems/_sequential.py` | `SystemModel`, `StopRayModel`, `CornerModel`, `ImageModel`, `FitModel`, `DrawModel`, `SpotModel` (`spot_diagram`: points), `MeasureModel` (`image` to the electrons), `AxesModel` (`_rayfunction_and_axes`, `axis_*_`) | labels of `spot_diagram` |
| `targets/_airforce` | `TargetModel` (values, files) | the drawing and its rendering (an argument) |

Also not modelled anywhere: rounding errors (except in the two `*FloatModel`
files), overflow, performance, units (except `C71`), and the propagation of
uncertainties (`na.UncertainScalarArray`).

## 5. Plan per property

| id | model and proof plan |
|----|----------------------|
| C01 | `snells_law` of one ray as `option vec3`; algebra: the squared length of `r(a+du)` is one. |
| C02 | tangential part, sign of the normal component, closed form for mirrors; algebra. |
| C03 | substitute the output in the reversed call; the radicand becomes the square of the old normal component. |
| C04 | principal complex square root; invariant `n^2(1-cos^2)` by induction over the list of layers. |
| C05 | sag and normal of each class; tangent vectors by Coquelicot derivatives. |
| C06 | intercepts of the five classes as `option`; substitution in the quadric; refutations on the threshold branches. |
| C07 | algebraic characterisation of the vertex sheet `z(c r^2 - z) >= 0`; nearest-root selection. |
| C08 | both roots of the sphere; `sign(r uz)` picks the vertex hemisphere. |
| C09 | rewriting of the closed forms. |
| C10 | refuted for the curved sags, whose value and normal are not transformed back; proved for NoSag's intercept and for translations along z of the normal. |
| C11 | extended-real evaluation of the expressions with `radius = inf`; ConicSag yes, SphericalSag NaN. |
| C12 | exponential law, induction over the segments. |
| C13 | folds over lists. |
| C14 | invariant by induction over the list of surfaces. |
| C15 | invariant by induction over the list of surfaces. |
| C16 | C01 lifted by induction, rigid transformations preserve length. |
| C17 | refuted: the code multiplies the wavelength by n2/n1; what is conserved is wavelength/n. |
| C18 | conjugation of each step by the rigid motion; induction. |
| C19 | `atan2` from the standard library's `atan`; `asin`. |
| C20 | case analysis. |
| C21 | Cauchy-Schwarz for the circle and ellipse, convexity for polygons. |
| C22 | floor-based modulus on R; refuted at the boundary angles and for the full circle, proved inside. |
| C23 | `A cos + B sin` on an arc; refuted for the full circle. |
| C24 | telescoping floor sums; boundary membership; bit-exact refutation of the count. |
| C25 | trigonometric identities. |
| C26 | algebra on top of C02. |
| C27 | bounds per class; Sinusoidal refuted. |
| C28 | refuted with a witness; proved for rays orthogonal to the rulings. |
| C29 | case analysis on the parity of the order. |
| C30 | vector algebra, composition of three modules. |
| C31 | refuted for the forward transformation; reduction to the constant model. |
| C32 | 2x2 complex matrices. |
| C33 | induction over the periods. |
| C34 | flux telescoping by induction over the layers. |
| C35 | flux monotonicity through an absorbing layer by induction over the layers. |
| C36 | telescoping; negative index refuted. |
| C37 | monotonicity and limits per profile. |
| C38, C39 | lists of flags; loop by recursion on the two index lists. |
| C40, C41 | affine map; frame bookkeeping; C41 refuted. |
| C42, C43 | state machine of a system object with its instance dictionary and shared objects; refuted with traces, positive part by induction over histories. |
| C44 | refuted; the result is in the frame of the system. |
| C45 | lists of names as sets. |
| C46 | finite sums. |
| C47, C48 | rays as a list, histogram as a function of the pixel; double sums. |
| C49 | C04's no-op lemma and field algebra. |
| C50 | monotonicity of the square root. |
| C51, C57 | Coquelicot integrals. |
| C52 | finite distributions and their moments; compound Poisson by its first two moments. |
| C53, C54 | the loop nest as a fold over draws, permutations of slices. |
| C55 | exponential/logarithm monotonicity. |
| C56 | refuted: strict inequality between truncated and untruncated means. |
| C58 | `erf` as an integral, convexity of its primitive, Gaussian integral bound. |
| C59 | `Rpower`. |
| C60 | 3x3 affine algebra. |
| C61 | induction over the table. |
| C62 | lists of characters. |
| C63 | telescoping sums. |
| C64 | finite maps from names to sizes. |
| C65 | C07's sheet lemma for regular rays; refuted below the threshold and bit-exactly in binary64. |
| C66 | refuted by evaluation; the code is the negation of the documentation at every point. |
| C67 | case analysis on the aperture flags; refuted for obscurations. |
| C68 | Fourier integrals of the groove profiles by Coquelicot; Triangular refuted. |
| C69 | C26's algebra; refuted on a tilted surface. |
| C70 | refuted by evaluation; induction over the stack: reversing the normal swaps the rows of the transfer matrix, so reflectivities become reciprocals. |
| C71 | refuted by evaluation with two units. |
| C72 | integration by parts, improper integrals; refuted for the sinusoidal profile. |
| C73 | induction over the pairs of the stop loop; refuted with two field stops. |
| C74 | reversal of one plane, induction; the same for mirrors of any figure whose intercept depends on the line only (shown of every sag class but the toroid, for regular lines); refuted for glass and for a sphere under grazing incidence, of which the other point is taken on the way forth. |
| C75 | boundary conditions of plane waves as a linear system; induction over the layers; p polarization refuted for absorbing media. |
| C76 | conditional expectation over the draws; refuted with a field-free region. |
| C77 | sums of a cumulative distribution; refuted without an implant. |
| C78 | evaluation at zero width; kernel refuted. |
| C79 | derivative of the capture, injectivity. |
| C80 | lists of strings. |
| C81 | normal equations; polynomial identities under a shift of the centre; refuted for masked NaN points. |
| C82 | C15 and C47 summed over the cells; refuted in a medium and for decreasing grids. |
| C83 | C3 linearisation by induction; rotation matrices. |
| C84 | C18 for the outlines, C14 for the rays; refuted for rays alone. |
| C85 | C34-C36 for the substrate, integral of the collection efficiency; refuted with roughness and behind an opaque oxide. |
| C86 | The residual is zero at a root; blank rays stay blank; every joining ray is a root. |
| C87 | Induction on values; refuted for arrays in lists and objects in tuples. |
| C88 | Snell's law with equal indices; sums of Sellmeier terms; interval bounds on the square. |
| C89 | C18 for the residual; refuted by a quarter turn that brings the rays into the plane of their starts. |
| C90 | Windows keep a ray on its line; refuted by a half turn of the first stop. |
| C91 | Invariant of the cached stop rays; refuted by assigning `grid_input` after a corner has been read. |
| C92 | C73, C74 and C86 composed; rays on one line take one path through planes, and through curved mirrors of which each line strikes one point; refuted for glass before the first stop. |
| C93 | cases of the dispatch; refuted for operations that fall through to None. |
| C94 | The markers are positions minus one common point; refuted for vignetted rays, which enter that point. |
| C95 | Invariant of the two caches, set reasoning on axes; refuted by assigning `grid_input`. |
| C96 | Each part commutes with the change of unit, then induction over the surfaces and layers; refuted for the thresholds that carry a unit. |
| C97 | Each part commutes with the symmetry (invariants of rotations about z), then induction over the surfaces; refuted by the scalar subtracted in the cosine of the grooves. |
| C98 | Bessel's inequality, by induction over the orders on the part of the wave that is left, from the Fourier integrals of C68 (C68 is extended to every order of triangular grooves); refuted for amplitudes (sinusoidal) and on a spherical grating. |
| C99 | Direct: Snell's law with equal indices, case analysis on what the coating returns. |
| C100 | The matrix of a matched layer is the propagation matrix; modulus of the complex exponential. |
| C101 | Both matrices as the same product; Snell's law for vectors against that for cosines. The absorbing counterexample compares traces. |
| C102 | Values of the interpolation beyond its last node, then intervals; the documentation's constant and the chord of the Fano factor refuted. |
| C103 | The rows are checked by computation on whole numbers, then every energy and temperature by convexity of the interpolation; agreement of the two methods cell by cell; refuted between the temperatures and below the gap. |
| C104 | A loop fails exactly if a step does; the only step that can fail is the binomial draw after a negative normal draw. |
| C105 | The three tables are lists of rationals; order and ranges are decided by `vm_compute`, a convex property of the rows is inherited by the interpolated values, and interpolation is a sum of clamped lines. |
| C106 | Partial fractions of 1/sin² by halving the angle, with an explicit rest; the Fourier sum of a pulse from a finite sum over the odd roots of unity (second difference in the duty cycle), carried to every duty cycle by continuity; refuted for triangular grooves by comparison with the square ones. |
| C107 | a heap of sensors and a disk with one entry of the cache; invariant of all histories: the disk is empty or has what the program computes; the fit by the equivalence of its objective with the residual. |
| C108 | a picture as lists; maximum, reversal; programs as small state machines over a shared directory, invariant of all interleavings. |
| C109 | the quadric in terms of its foci, the normal as a multiple of its gradient; reflection by direct computation, refraction by the uniqueness of Snell's law (C01); induction over the chain of mirrors. |
| C110 | the change of n d at a surface is along the normal (Snell), the normal of a surface symmetric about a line has no moment about it; the moment under rigid motions is multiplied by the determinant; induction over the sequence. |
| C111 | captured charge at least (1 - w/pixel)^2 (monotonicity of the sum of erf and 1/x, limit of erf) and the width at most the field-free region; the objective increases beyond a thickness where all predictions are too large; continuity and compactness for the existence of a minimum. |
| C112 | shortest path through planes: Cauchy-Schwarz on every segment with the unit direction of the ray, the terms at the planes cancel since the change of n d is along the normal; induction over the sequence with a moved start. First variation: derivative of the length of a segment, the velocity of a curve in a surface is perpendicular to the normal that the code computes (derivative of the sag along the curve), induction; Fermat and Malus-Dupin follow. |
| C113 | as C112, with the kick of the rulings in the change of n d; the groove numbers by differentiating the distances to the recording sources (holographic), the integral of one over the polynomial, or the distance along the rulings. Refuted for polynomial spacings whose transformation turns the rulings: around a square the numbers would have to change by 1/2 on one side and 1/3 on the opposite side (mean value theorem). |
| C114 | the field of C75 constructed from the characteristic matrices (`front_fields`, complex numbers), unique by `coefficients_field` and existing by `ideal_efficiency`; quarter waves by induction over the plates, periods by C33, total reflection from the vanishing real part of the cosine and C34; angles by trigonometry. |
| C115 | the matrix of the reversed stack is the mirror image (`flip`) of the matrix times the ratio of the factors of the two media: induction over the layers, appending at the other end; opaque layers by the mask; the rough interface by computing one film both ways. |
| C116 | `bare_substrate` with the real factor of the ambient medium; the real part of the factor of the chemical is positive since the imaginary part of the square of its wavenumber is; interpolation stays between rows (C61); the rows of AlAs are checked by computation. |
| C117 | functions continuous at 0, and functions vanishing at 0 with a derivative, under the operations of the intercepts, normals and Snell's law; induction over the surfaces; for `ConicSag` with conic -1 the linear root of a ray to the vertex is on the wrong side. |
| C118 | the number of an element is that of its place in mixed radix, by induction over the axes; moving the two axes of the pixels to the end makes it (i nx + x) ny + y. Arguments whose sizes are those of the whole or one are accepted: the number of an element is then below the length of the data. |
| C119 | a surface commutes with dimming a ray, so the flux of each ray is linear in its cell's radiance and histograms add up; the mean cosine of the sum is the flux-weighted mean; (1 - exp(-x))/x is strictly convex (tangents of exp under the integral). Witness: beams along the axis and at sine 3/5 on one pixel of index 0.6 + 0.64i. |
| C120 | the bins of increasing edges partition the range, the last edge included, so the sum over a pixel splits into the sums over its bins; each bin is exposed at its own centre, the integrated pixel at the centre of the range. |
| C121 | the variance-to-mean ratio is positive (it contains yield times efficiency), so the square root is a number exactly for electrons that are not negative. |
| C122 | planes, spheres, paraboloids and cylinders: all functions of the family get a value and a derivative at the chief ray; the component of the light along the surface changes by the amounts in the focal equation, and the grooves add the change of their density; on the Rowland circle these changes cancel. |

## 6. Refuted properties

A property that is false of the model has a theorem `Cxx_..._refuted` with a
concrete witness, and `_partial` theorems for what does hold; `MANIFEST.json`
then says `partial` and the note says what is false.  Most of the partial
claims are of this kind, that is findings about the code, not gaps in proofs.

## 7. Wrong programs

`tools/mutate.py FILE OLD NEW` edits a model in a scratch copy and rebuilds
everything that depends on it; `tools/mklog.py` assembles `seeded/LOG.jsonl`
from the records.  An edit that breaks the English claim and no theorem leads
to a stronger theorem, recorded under `tightened`.
