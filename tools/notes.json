{
 "C01": "Full statement: existence exactly when the tangential condition holds, unit length for any incident vector.",
 "C02": "Snell's law, side, uniqueness, mirror formula, independence of the sign of the normal.",
 "C03": "Reversibility needs a non-grazing outgoing ray (strict inequality): at exact grazing the sign of zero is not defined.",
 "C04": "All parts proved, also for the direction returned by transfer for nested and periodic stacks.",
 "C05": "Every class, every interior point; tangent vectors are Coquelicot derivatives of the class's own sag.",
 "C06": "On the line always; on the quadric for regular rays. False otherwise: sphere with u_z = 0, conic and parabola below their thresholds, cylinder missed by the ray.",
 "C07": "Full statement outside the threshold (a = 0 exactly is included).",
 "C08": "Full statement, and the stronger one that any vertex-hemisphere intersection is enough.",
 "C09": "Sag and normal agree everywhere. Intercepts agree when strictly nearest; refuted when the line meets the vertex sheet twice: ConicSag takes the nearest point, the dedicated classes the lower one.",
 "C10": "Intercepts move correctly (not for the toroid); sag and normal are not transformed back, so they are right only for translations / height-preserving motions. Four refutations.",
 "C100": "Proved along the normal (transmission and reflection) and, for reflection, at every angle. Refuted for transmission at every angle.",
 "C101": "Proved for transparent slabs that refract the light and, for every index, along the normal. Refuted by total reflection (always NaN) and by an absorbing slab of index 2 + i.",
 "C102": "Band gap law with the constant of the code, pair energy, yield and, at the temperatures of the tables, Fano factor proved; refuted for the documented 1.192 eV and for the Fano factor between those temperatures.",
 "C103": "Tables, interpolated distributions, yield and energy balance proved for every energy and temperature; the Fano factor and the agreement of the two methods within 1.1 per mille from 1.2 eV on. Refuted: Fano factor of photons that make no pairs, equality of the two methods between the temperatures of the tables, and photons below the gap, which make twenty pairs in the Monte Carlo method.",
 "C104": "The run fails exactly when the normal draw of a photon above 50 eV is below -1/2, which is more than ten standard deviations below its mean; otherwise it finishes, for all tables, grids and draws. Refuted with one photon of 100 eV.",
 "C105": "The tables are included as exact rationals and checked by evaluation in the kernel; interpolation of every table with increasing wavelengths is proved continuous, and with a repeated wavelength not. Below 11199.6 Angstrom silicon absorbs and all efficiencies exist; from there to 25001 Angstrom all of them are NaN.",
 "C106": "Proved for square, sawtooth (depths at which no order has 0/0) and rectangular grooves, from the partial fractions of 1/sin^2 and the finite Fourier sum of a pulse. Refuted for the triangular grooves of the code, whose denominator has a plus sign where thin-grating theory has a minus sign.",
 "C107": "False in two ways, both proved. joblib.Memory decides by the text of the cached function alone whether its stored result is used, so a ready-made sensor stays the old one when the measurements, the depletion model or fit_eqe itself change (C107_stale_refuted, with another depletion model; C107_changed_partial: a changed text is noticed). The signal of a sensor without depletion model, which is the default, is an AttributeError even for the noiseless signal, in which the depletion region has no part (C107_default_refuted), and with the default implant of thickness zero the efficiency is NaN everywhere (C107_implant_refuted). Proved: the fitted sensor is physical and the best one for every minimiser that finds a least value within the bounds (C107_best); changing the temperature afterwards changes no efficiency (C107_temperature); after any history with one version of the program a call gives a new object with the fitted attributes and the requested temperature, and no call changes an object made earlier (C107_fresh_partial).",
 "C108": "The values are as claimed (C108_values; without any light they are NaN, C108_black) and an undisturbed call depends on no file (C108_alone_partial). But the picture goes through the file tmp.png of the working directory: a file of that name is overwritten and left behind (C108_files_refuted), and programs that run at the same time get each other's picture (C108_together_refuted; always that of one of them, C108_together_partial, and their own when they run one after the other, C108_serial_partial). The renderer is an argument of the model, and saving a file is one step.",
 "C109": "Exact statements about sag, intercept, normal, Snell and propagation together: any slip in one of them destroys the sharp image. Rays for which the intercept of the code is not on the surface (C06, C65) are excluded by [hits].",
 "C11": "Sag and normal agree; ConicSag and CylindricalSag intercepts agree in exact arithmetic; SphericalSag's intercept is NaN for every ray at its default radius; in binary64 ConicSag at its default radius loses rays (bit-exact witness).",
 "C110": "Conservation laws over whole sequences. For spheres, cylinders and toroids the ray must meet the surface itself ([met]), as the code's normal is the normal of the surface only there; planes and conics need no such hypothesis. Gratings are left out (they do change the invariants).",
 "C111": "The measurements of both csv files and the silicon table of the package are part of the model. scipy.optimize.minimize_scalar is an argument; it is assumed to find a least value within the bounds only where the theorem says so, and such a minimiser is shown to exist.",
 "C112": "First variation of the optical length along whole sequences. The points must be inside the domain of the sag (interior), where the surface has a tangent plane; the curves are any differentiable ones within the surface. Rulings are added in C113.",
 "C113": "Proved for sequences of any length; the spacing models are treated one by one. Refuted for Polynomial1dRulingSpacing with a transformation that turns the rulings: the position is turned and the direction across the rulings is not, and no pattern of grooves has such a spacing (the partial theorem asks that the transformation keeps the direction). The wavelength is the one the ray carries, which the code changes between media (C17).",
 "C114": "Proved for stacks of lossless media with perfect interfaces; the bare absorbing substrate at normal incidence only, as p polarization at an angle to an absorbing medium is wrong in the code (C75_p_refuted). The matrices are compared with the field (C75) and the energy (C34).",
 "C115": "Proved for any sequence of smooth passive layers, lossy or not, none exactly at its critical angle, also where the code cuts off opaque layers. False with a rough interface (C115_rough_refuted: 0.782 against 0.817, no absorption): the code reduces only the reflection of the interface by the transform of its profile and leaves the transmission as it is, and takes the wavenumber on the side the light comes from. Periodic layers enter as the sequences they stand for (C33).",
 "C116": "Proved for every table whose rows are positive and in order of wavelength (repeated wavelengths allowed), and for silicon below 11199.6 Angstrom. Refuted by the table of aluminium arsenide (AlAs.nk, AlAs_palik.nk): index zero in 13 rows, hence a perfect mirror with a positive absorption coefficient. Of the 521 files these two are the only ones with an index that is not positive (counted outside Coq).",
 "C117": "Refuted for a paraboloid made with ConicSag (conic = -1): a ray to its vertex at less than a microradian from the axis takes the degenerate linear root, whose point fails the test for the sheet of the vertex, and is lost. Proved for all sequences of centred surfaces without rulings of the other shapes (for conics, |(1 + k) / r| > 1e-12; the toroid's search is not modelled): the derivatives of the traced rays are those of Gaussian optics; with the invariant of Lagrange, the equation for images and magnification of one surface or mirror, and the lensmaker's equation.",
 "C118": "For all arguments, axes and draws for which the call returns a result (distinct axes, none called num_electron, the two axes of the pixels different); C118_accepted and C118_single_accepted show that arguments whose sizes are those of the whole or one give a result unless the simulation of some grid of pixels, or pixel, fails. That named_arrays puts the axis of the pair numbers behind the others is assumed (the order is what the code's reshape needs; the library is not available).",
 "C119": "Photons, ideal sensors and scaling proved for all systems whose surfaces do not read the intensity. The full claim is refuted for silicon sensors (two beams at different angles on one pixel: the charge collection is convex in the absorption and the code evaluates it at the flux-weighted mean cosine); the partial theorem gives the direction of the error and exactly when there is none.",
 "C12": "Beer factor, bounds, and splitting of a straight path at any number of surfaces (induction).",
 "C120": "Photons and ideal sensors proved for all systems and increasing wavelengths. The full claim is refuted for silicon sensors (light of wavelength 3/2 in the range 1 to 3 is given the quantum yield of wavelength 2); the partial theorem gives the exact difference.",
 "C121": "Refuted: a pixel with 3 electrons, read noise 4 and the draw -1 is measured as -1 electrons and has the uncertainty NaN. The partial theorems say exactly which pixels have an uncertainty. The draws of numpy are arguments; that a normal draw is as likely as its opposite is not modelled.",
 "C122": "To first order, around a ray that falls across the grooves on the vertex, for a grating without transformation (C18 covers rigid motions). The shapes are the plane, the sphere, the paraboloid and the cylinder; on a paraboloid the ray is along the axis or its direction differs by more than 1e-5 (below that the code takes the intercept of a ray along the axis).",
 "C13": "Any propagators, any ray type; induction over the list.",
 "C14": "Any sequence of surfaces with rigid transformations; apertures and sags arbitrary.",
 "C15": "kept_product is the product over the surfaces of path transmission, material and ruling efficiency; stated when the final intensity is not NaN.",
 "C16": "Any sequence, rulings and materials; sag classes give unit normals by C05.",
 "C17": "False as stated: surfaces.py multiplies the wavelength by n2/n1, and materials read it as the vacuum wavelength. Proved instead: wavelength/index is conserved, hence the wavelength is preserved by sequences that return to the initial index.",
 "C18": "Any sequence and rigid motion; final and intermediate rays.",
 "C19": "Full statement; the cases parallel to the y axis are included.",
 "C20": "Full statement, also for NaN positions.",
 "C21": "Enclosure proved for every class under any rigid motion, with the polygon test of the dependency an argument assumed to accept only hull points (the crossing-number test is proved to be one). Minimality proved for ellipse and rectangle; for the circle only in x and y (refuted in z: the box is a cube).",
 "C22": "Proved with strict inequalities at the edge angles; refuted at the edges (a full circle rejects the positive x axis) and at the apex.",
 "C23": "Proved when the span is less than a full turn; refuted for the full circle, whose span modulo 2 pi is zero and whose box is a segment.",
 "C24": "Count proved in exact arithmetic, refuted in binary64 (7 sides, 61 points); closed when num exceeds the number of segments, refuted for num = 4 on a rectangle; boundary proved; acceptance proved for circle, ellipse, rectangle, refuted for the sector.",
 "C25": "Full statement.",
 "C26": "Grating equation for incident_effective followed by snells_law, and for the whole surface.",
 "C27": "Square, Rectangular, Triangular, Measured and ideal rulings are physical. Refuted for Sawtooth at the blaze condition (0/0) and for Sinusoidal (the Bessel function is not squared: negative in order -1 for every shallow grating; only its modulus is bounded by one).",
 "C28": "Holds for rays in the dispersion plane. Refuted in general: the code subtracts the scalar direction @ parallel_rulings from all three components; the cosine even exceeds one.",
 "C29": "Exact equality for every order, including NaN.",
 "C30": "Proved when the recording beam arrives against the normal. Refuted when it arrives along the normal (order 1 becomes evanescent) and where the spacing is infinite.",
 "C31": "Polynomial and constant spacings as documented. The transformation of the holographic model is ignored by the code.",
 "C32": "Refraction between equal media, zero thickness, splitting and the empty stack are proved; the split needs layers that are not opaque, because Layer.transfer stops at the factor 10^10. C32_refuted: splitting an opaque layer changes t from 0 to a non-zero value.",
 "C33": "Proved for num_periods >= 1 (for 1, the code also evaluates a second period, which has to be defined). C33_refuted: for num_periods = 0 the index behind the sequence is that of the last layer instead of the ambient one.",
 "C34": "Proved for nested and periodic stacks, also with evanescent layers; media exactly at the critical angle are excluded (the matrices divide by zero there).",
 "C35": "Proved for ideal interfaces, a lossless ambient medium and rays against the normal. Refuted without each of these hypotheses: rough interface of an absorbing film (T = 20/17), absorbing ambient medium (R + T = 29/17), ray along the normal (R = 9).",
 "C36": "Proved for stacks without opaque layers and non-negative indices; the index -1 gives minus the sum of the other absorbances. Refuted: layers below an opaque layer are counted again; index -1.",
 "C37": "Transition property, Fourier transform (improper integral), bound, evenness and value one proved; refuted for the linear profile at zero width or grazing incidence (NaN) and for the sinusoidal profile at one frequency (NaN), which are the only exceptions. Between equal media the factor in transmission is one (NaN for the linear profile), and the factor of a reflection is that of the passage into the reversed wave.",
 "C38": "Full statement for every list and flag pattern.",
 "C39": "Termination unconditional. The surface is right unless one surface is both a pupil and a field stop; refuted for that case.",
 "C40": "Full statement for one component; the code applies it to both components of field and pupil.",
 "C41": "Refuted for an object beside the axis (_calc_rayfunction_input applies the object transformation to coordinates that are already global) and for a system moved along its axis (the rays start in the plane z = 0 of the global coordinates, not on the object). Proved for flat objects on the axis at any distance, in systems that may be turned around the axis and moved across it.",
 "C42": "Refuted: an implicit call with an intensity changes the cached input rays. Proved for every history without such calls and without assignments to grid_input, and for explicit calls in every state.",
 "C43": "Refuted: _rayfunction_input stays cached. Proved if that cache is deleted too, or was never filled.",
 "C44": "Refuted: the rays are returned in the coordinates of the system. The theorem states what holds.",
 "C45": "Full statement; the order of a Python set is an arbitrary permutation.",
 "C46": "Illumination: scale factor, mean one over lit field points, NaN if there are none. Effective area bounded by the pupil area; a blocked ray can be left out.",
 "C47": "Conservation, one pixel per ray and no other contribution proved for rays whose intensity is a number; refuted for a masked ray of NaN intensity, whose NaN (NaN times False) erases its pixel.",
 "C48": "Weighted mean, convex hull, scale invariance and the value 1 of an empty pixel proved; refuted for a masked ray without a direction, which makes the cosine of its pixel NaN although its flux is zero.",
 "C49": "Proved for the ideal material and for silicon with an implant layer; refuted for the default thickness_implant = 0, where every exposure is NaN.",
 "C50": "Proved for every material; C50_defined shows that the variance-to-mean ratio is not negative.",
 "C51": "Depth mean, range, monotonicity and limit proved for a positive implant thickness; refuted at zero thickness (the default), where the efficiency is NaN.",
 "C52": "Law of total variance proved with the Fano factor at 300 K; refuted at other temperatures because vmr_signal calls fano_factor(wavelength) without the temperature.",
 "C53": "Every element counts exactly the electrons whose final position is on its pixel; totals with and without wrapping; the draws are arbitrary, except that a binomial draw lies between zero and its number of trials.",
 "C54": "Interleaving semantics with non-atomic increments (load, then store) and private registers; every finished schedule leaves the result of the sequential slices, and every schedule can be finished.",
 "C55": "Range, monotonicity, inverse of the truncated exponential distribution, limit of zero absorption, range of the collection probability.",
 "C56": "False: the closed form averages the efficiency over all depths while the Monte Carlo method samples depths inside the substrate (truncation_refuted), and where the table has no pairs the Monte Carlo method frees the largest tabulated number (bandgap_refuted). The partial theorem gives the exact difference at tabulated energies and temperatures whose probabilities sum to one.",
 "C57": "The mean is taken over the exponential distribution of depths restricted to the substrate, and equally over the depths drawn by electrons_measured.",
 "C58": "The one-dimensional kernel is shown to be the probability of a pixel (Gaussian cloud around a photon uniform in the central pixel), positive, with limit sum one; the normalised 3x3 kernel is positive, symmetric and sums to one, and its centre exceeds mean_charge_capture.",
 "C59": "Range, monotonicity, yield one, and the binomial meaning for whole numbers of pairs.",
 "C60": "The named_arrays matrix product and inverse are modelled as the 3x3 product and the adjugate over the determinant.",
 "C61": "numpy.interp is modelled from its documentation; about 100 of the shipped chemical tables repeat a wavelength, for which the last row counts (C61_chemical_repeated).",
 "C62": "False: the second and further digits of a number are not rendered as subscripts, as in the shipped chemical C10H8O4 (subscripts_refuted). The markup is right for numbers of one digit and the first digit of every number.",
 "C63": "Additivity is false for pupils that depend on the wavelength (additive_refuted) and holds for every unfolded separable grid and along the pupil. The solid angle of angular grids is an argument of the model, for which only the sign is claimed.",
 "C64": "False for ten attributes (attributes_refuted); every other class includes all of its attributes (attributes_partial).",
 "C65": "Proved for regular rays; refuted below the threshold (k=-1+1e-10, R=1000, axis ray) and in binary64 (R=100, k=0, axis ray from z=-1), because the sheet test z*(c r^2 - z) >= 0 has no tolerance.",
 "C66": "Refuted: the code does the opposite of the attribute's documentation, and C66_opposite_partial says so for every active aperture, flag, transformation and point.",
 "C67": "Proved for non-inverted apertures, refuted for obscurations.",
 "C68": "Square and Rectangular exactly; Sawtooth away from the blaze condition; Triangular exactly in order zero and at most the thin-grating power in every order (the code has +i^2 where theory and docstring have -i^2); Sinusoidal returns the amplitude, not its square.",
 "C69": "Proved for grooves tangent to the surface, refuted on a tilted surface.",
 "C70": "Refuted: reversing the normal changes the efficiency of bare glass from 1/9 to 9, because the cosine is not made positive. Proved for every stack whose first surface is smooth: the reflectivity of each polarization becomes its reciprocal and the transmissivity becomes negative, so that the two signs agree for a perfect mirror only; the state in which the light arrives in the substrate does not depend on the sign.",
 "C71": "Refuted: x.value drops the scale of the unit (profiles.py:429); holds when the units multiply to one.",
 "C72": "Proved for three classes and for the documented sinusoidal curve; refuted for the sinusoidal class: the square root in a = pi/sqrt(pi^2-8) is missing in the code (profiles.py:526, 536).",
 "C73": "Refuted with one pupil stop followed by two field stops. Proved when no other stop of the later kind lies between the two reported stops.",
 "C74": "Refuted for a plane of glass before the first stop (surfaces are traversed backwards with their forward index) and, in vacuum, for a spherical mirror under grazing incidence (on the way forth the other intersection with the sphere is taken). Proved for planes, and for curved mirrors of any sag class but the toroid as long as the line leaving each surface strikes it nowhere else.",
 "C75": "C75_field_partial: the coefficients are the unique solution of the boundary conditions, for s polarization in any media and for p polarization while the cosine is real in every medium. C75_p_refuted (finding): matrices.refraction takes the complex conjugate of the cosine for p polarization, so in an absorbing medium at oblique incidence the amplitudes differ from the documented ones; the witness has reflectivity below 1/5 by the boundary conditions and above 2/5 by the code. Not covered: rough interfaces and layers treated as opaque.",
 "C76": "False for a field-free region and positive pixel width: the dummy grid of one pixel loses electrons that diffuse (no_grid_refuted). True with wrap, without a field-free region or with zero pixel width.",
 "C77": "The gamma distribution is an argument with its first two moments. Without an implant layer the function fails (no_implant_refuted).",
 "C78": "False for the kernel: a zero width gives NaN at all nine pixels (kernel_refuted); the width and the capture are right (capture_partial).",
 "C79": "scipy.optimize.minimize_scalar is external: the theorem is about its objective.",
 "C80": "numpy.loadtxt is an argument of the model.",
 "C81": "Least squares over all polynomials of the degree (C81_best_partial), exactness forwards and backwards, affine round trip, independence of masked points and illumination proved; a least-squares solver satisfying the hypothesis is constructed and verified (FitSolver.v). Refuted: C81_masked_refuted (the centre of the inverse fit averages the NaN positions of excluded field points, so undistort is NaN everywhere) and C81_center_refuted (illumination normalised to mean one, not to one at the centre as documented). The named_arrays fit is modelled by its specification: polynomial in the coordinates minus the centre, least squares over the selected points.",
 "C82": "C82_conserved_partial: total of the integrated image equals the sum of flux times throughput over the arriving cells, bounded by the scene's flux, for increasing wavelengths and paths that end in vacuum. C82_spectral_partial: wavelength bins are independent. Refuted in general: C82_immersed_refuted (a silicon sensor behind water loses the whole image, because collect bins by the wavelength in the medium) and C82_decreasing_refuted (negative image).",
 "C83": "Python's C3 linearisation is modelled and shown to give the bases in order followed by Transformable.",
 "C84": "Proved: contents of DXF file and plot, vertices on the surfaces, transformation. Refuted: RayVectorArray.to_dxf always raises ValueError (DxfWritable.to_dxf has no axis argument). ezdxf and matplotlib are taken to draw the polylines they are given.",
 "C85": "Proved for smooth interfaces (roughness zero), passive media and a lossless ambient medium, for both polarizations. Refuted with roughness: an absorbing rough oxide transmits 20/17 of the light (the roughness factor multiplies the reflection terms of the interface matrix only). Refuted for method='exact' behind an opaque oxide: the transmittance is 0 while the substrate is said to absorb 4/5. The methods of the material are proved with their defaults of direction and normal. The minimiser of fit_eqe is not modelled; its objective is, and is proved to be the root mean square difference.",
 "C86": "Arrival and the direction at the start are proved for every system and every dependable root finder, the starting point for borders with a length and for an untransformed first stop with an angular border. Refuted for an angular first stop with a transformation: the solver overwrites x, y and z of the position in the coordinates of the system with z = sag(x, y) taken in them, so the position lies on the surface as if it were not transformed (for an object surface the later propagation back onto it repairs this).",
 "C87": "Proved for trees whose other values have no line break and whose arrays directly inside lists fit on a line; the printing of named_arrays and numpy.array2string is given by their lines and the length of the prefix. Refuted for arrays in lists (field_str is the indentation of the list, not of the item) and for objects in tuples (repr ignores the indentation).",
 "C88": "The wavelength a Glass reads is the one in the medium in front of it (see C17).",
 "C89": "Proved for borders with a length and motions after which the ray goes up. Refuted for an object at infinity: turned by a right angle the rays run in the plane z = 0 in which the solver moves their starting points, so no start reaches the target and the solver raises.",
 "C90": "Proved for a first stop that is only shifted (any number of shifted or turned windows up to the last stop) and for an untransformed plane first stop with an angular border. Refuted for a first stop turned by a half turn: the guess is made to point up in the coordinates of the stop, then its z is recomputed as positive in the coordinates of the system, which mirrors the guess instead of reversing it. Also proved where the first guess goes when a surface with power lies between the stops, or when the border of the last stop is an angle: through the vertex of the first such surface.",
 "C91": "Proved for a system whose grid_input is not reassigned, after any reads, and after every reassignment followed by deleting rayfunction_stops; the box is proved without condition. Refuted otherwise: rayfunction_stops is a cached property, so once a corner has been read, later assignments of grid_input do not reach the corners (C91_stale), while the ray trace uses stop rays at the new wavelength. The stop rays are an arbitrary function of the wavelength, as in the other theorems about systems; the witness is such a function and not the stop rays of a particular set of surfaces.",
 "C92": "Composition of C73, C74 and C86: a ray reported by _calc_rayfunction_stops, traced forward, meets both borders. Proved for planes and plane mirrors in vacuum, and for curved mirrors whose lines strike each surface once. Refuted for glass before the first stop, because the way back refracts into the wrong medium.",
 "C93": "Proved for the supported operations. Refuted for unsupported ones: __array_ufunc__ of AbstractRayVectorArray ends without a return statement for every function other than np.add that its parent declines, so numpy takes None for the result (also for ray @ vector, whose NotImplemented from __array_matmul__ is turned into None). The behaviour of named_arrays is an argument; the hypothesis is that it has no operation of its own between a ray and a vector or matrix. Methods of an operation other than its call (np.add.reduce etc.) evaluate to None likewise.",
 "C94": "Positive parts proved: unvignetted rays are drawn, distances are kept, and the spot is centred when no ray is vignetted. Refuted in general: position.mean(axis_pupil) averages over vignetted rays too (spot moved off the origin), and one NaN ray blanks the whole spot although it is masked. distortion() of the same class averages only the unvignetted rays.",
 "C95": "Proved when a grid is given (for undeclared axes) and when grid_input has not been assigned since the rays were cached. Refuted: after system.grid_input = g and del system.rayfunction_default (the documented procedure) the rays still come from the old grid, through the second cache _rayfunction_input, while the axes come from the new one; and declared axes are ignored when any grid is given, so naming the default pupil raises ValueError.",
 "C96": "Proved for every list of surfaces whose parts are the same in the other unit, and that the sags, apertures, rulings, profiles, spacings, glasses, mirrors and multilayer coatings with scaled parameters are. Refuted for ConicSag: a paraboloid of 1 m radius entered in nanometres is struck more than 0.1 mm from the right point, since the threshold 1e-12 is in the unit of the radius; and for the tolerance of the stop solver, which is 1e-9 of the unit of the aperture when that is less than one unit wide.",
 "C97": "Proved for every orthogonal map and every list of surfaces with that symmetry, including their transformations, coatings, apertures and grooves; paths are symmetric whatever the efficiencies. Refuted for the efficiencies of grooved profiles: square grooves reflect more than half of a ray and nothing of its mirror image (the defect of C69).",
 "C98": "Proved for square, sawtooth, triangular and rectangular grooves, for one ray and for the rays leaving a surface with grooves that lie in it. Refuted for sinusoidal grooves (the code returns the Bessel function, not its square; orders 0 and 1 of every shallow groove add up to more than 1) and for a spherical mirror with square grooves of constant spacing (Surface asks for the efficiency with the effective direction, which has another angle of incidence in each order unless the groove vector is tangent to the surface).",
 "C99": "For surfaces without rulings and without a transformation of their own."
}