{"id": "C01", "title": "Refracted and reflected directions are unit vectors", "statement": "snells_law(direction, n1, n2, is_mirror, normal) returns a vector of length exactly one whenever the normal is a unit vector and the square-root argument is non-negative, even when the incident vector is the non-unit effective direction produced by rulings; when the square-root argument is negative (total internal reflection or an evanescent order) no direction is returned (NaN).", "quantifier": "every incident 3-vector, every positive index pair, every unit normal, mirror or not", "why_tests_cant": "The tests check a grid of directions for a few surfaces; the claim is an identity over a continuum of vectors and indices, including the non-unit vectors made by gratings.", "anchors": ["optika/materials/_snells_law.py::snells_law", "optika/materials/_snells_law.py::_snells_law_numba"]}
{"id": "C02", "title": "Snell's law and the law of reflection hold for every ray", "statement": "The returned direction b satisfies n2*b_tangential = n1*a_tangential; a transmitted ray leaves on the side it was heading to and a reflected ray leaves on the opposite side; for a mirror with equal indices and a unit incident ray b = a - 2(a.u)u; flipping the sign of the normal does not change b when a.u is not zero.", "quantifier": "every incident vector with a.u != 0, every positive index pair, every unit normal", "why_tests_cant": "A finite grid cannot cover all angles, indices and both signs of the normal; sign errors show up only on particular combinations.", "anchors": ["optika/materials/_snells_law.py::snells_law"]}
{"id": "C03", "title": "Refraction is reversible and reflection is an involution", "statement": "Sending the reversed output ray back through the same interface with the two indices exchanged returns the reversed input ray, and reflecting twice from the same mirror with the same index returns the original ray.", "quantifier": "every unit incident ray not parallel to the surface, every positive index pair without total internal reflection, every unit normal", "why_tests_cant": "Round-trip law over a continuum of inputs; tests never run it.", "anchors": ["optika/materials/_snells_law.py::snells_law"]}
{"id": "C04", "title": "The cosine inside a layer depends only on the ambient medium", "statement": "Applying snells_law_scalar layer after layer through any stack gives, in the last medium, the same cosine as one direct application from the ambient medium (complex indices and evanescent waves included), and applying it between equal indices returns the cosine unchanged whenever its real part is positive.", "quantifier": "every list of complex non-zero indices of any length, every complex incident cosine", "why_tests_cant": "The number of layers is unbounded and the principal branch of the complex square root makes sampled checks miss the branch cut.", "anchors": ["optika/materials/_snells_law.py::snells_law_scalar", "optika/materials/_layers.py::Layer.transfer", "optika/materials/_multilayers.py::multilayer_efficiency"]}
{"id": "C05", "title": "Surface normals are unit vectors perpendicular to the sag", "statement": "For SphericalSag, ConicSag, ParabolicSag, CylindricalSag, ToroidalSag and NoSag without a transformation, sag.normal(p) has unit length, has negative z component and is orthogonal to both tangent vectors (1,0,dz/dx) and (0,1,dz/dy) of the surface z = sag(x,y) at every interior point of the domain.", "quantifier": "every radius (either sign), every conic constant, every point inside the domain of the sag", "why_tests_cant": "The normal is hand-derived; tests compare a handful of points or only shapes.", "anchors": ["optika/sags/_spherical.py::SphericalSag.normal", "optika/sags/_conic.py::ConicSag.normal", "optika/sags/_parabolic.py::ParabolicSag.normal", "optika/sags/_cylindrical.py::CylindricalSag.normal", "optika/sags/_toroidal.py::ToroidalSag.normal", "optika/sags/_flat.py::NoSag.normal"]}
{"id": "C06", "title": "The intercept lies on the ray and on the surface", "statement": "For the closed-form intercepts (NoSag, SphericalSag, ConicSag, ParabolicSag, CylindricalSag), the returned position is the ray position plus a multiple of the ray direction and, whenever it is finite, lies on the quadric of the surface.", "quantifier": "every ray and every surface parameter for which the returned point is finite", "why_tests_cant": "The code contains tolerance switches (1e-12, 1e-10, disc > 0, sign(0)) that change formula on measure-zero or thin sets of rays that sampled tests do not hit.", "anchors": ["optika/sags/_flat.py::NoSag.intercept", "optika/sags/_spherical.py::SphericalSag.intercept", "optika/sags/_conic.py::ConicSag.intercept", "optika/sags/_parabolic.py::ParabolicSag.intercept", "optika/sags/_cylindrical.py::CylindricalSag.intercept"]}
{"id": "C07", "title": "The intercept is on the vertex sheet: its z equals sag(x,y)", "statement": "Whenever ConicSag.intercept returns a finite point through its quadratic branch, the point satisfies z = sag(x,y) (the vertex sheet, not the far side of the ellipsoid or the second sheet of the hyperboloid), it is the candidate nearest to the ray origin among the vertex-sheet candidates, and if the line meets the vertex sheet at all, a finite point is returned.", "quantifier": "every ray, radius and conic constant outside the degenerate threshold", "why_tests_cant": "Choosing the wrong root only shows for particular origins and directions; the claim ranges over all of them.", "anchors": ["optika/sags/_conic.py::ConicSag.intercept", "optika/sags/_conic.py::ConicSag.__call__"]}
{"id": "C08", "title": "The sphere intercept chooses the vertex hemisphere", "statement": "If a ray with u_z != 0 meets the hemisphere that carries the vertex of a SphericalSag exactly once, SphericalSag.intercept returns that point, so that z = sag(x,y).", "quantifier": "every radius of either sign, every ray position and unit direction", "why_tests_cant": "The sign rule sign(r*u_z) is a heuristic, correct only under geometric conditions that random tests rarely probe.", "anchors": ["optika/sags/_spherical.py::SphericalSag.intercept", "optika/sags/_spherical.py::SphericalSag.__call__"]}
{"id": "C09", "title": "Special conics agree with their dedicated classes", "statement": "ConicSag with conic=0 agrees with SphericalSag and ConicSag with conic=-1 agrees with ParabolicSag of focal length r/2: same sag, same normal, and the same intercept when that intercept is finite and on the vertex sheet.", "quantifier": "every radius and every point or ray in the domain", "why_tests_cant": "An equivalence of two independent implementations over a continuum.", "anchors": ["optika/sags/_conic.py::ConicSag", "optika/sags/_spherical.py::SphericalSag", "optika/sags/_parabolic.py::ParabolicSag"]}
{"id": "C10", "title": "A sag with a transformation is the transformed surface", "statement": "Giving a sag a rigid transformation T moves its surface by T: the point (x, y, sag(x,y)) lies on the transformed surface, the normal at a point is the rotated normal, and the intercept lies on sag.", "quantifier": "every sag class, every rigid transformation, every point or ray", "why_tests_cant": "Tests use few transformations and check types or shapes.", "anchors": ["optika/sags/_spherical.py::SphericalSag.__call__", "optika/sags/_spherical.py::SphericalSag.normal", "optika/sags/_conic.py::ConicSag.__call__", "optika/sags/_flat.py::NoSag"]}
{"id": "C11", "title": "A sag of infinite radius behaves as a plane", "statement": "With radius = inf (the default of SphericalSag and ConicSag), sag, normal and intercept coincide with those of NoSag for every ray that is not parallel to the plane.", "quantifier": "every point and every ray with u_z != 0", "why_tests_cant": "Depends on the IEEE treatment of infinities in intermediate expressions, for all rays.", "anchors": ["optika/sags/_spherical.py::SphericalSag", "optika/sags/_conic.py::ConicSag"]}
{"id": "C12", "title": "Attenuation along a path is multiplicative and never amplifies", "statement": "Propagating a ray to a surface multiplies its intensity by exp(-attenuation*distance); the factor is in (0,1] for non-negative attenuation, and splitting a straight path at any number of intermediate points gives the same total factor.", "quantifier": "every attenuation >= 0, every path split into any number of collinear segments", "why_tests_cant": "Induction over the number of segments and all real lengths.", "anchors": ["optika/sags/_abc.py::AbstractSag.propagate_rays"]}
{"id": "C13", "title": "Accumulated and final rays agree", "statement": "accumulate_rays over n propagators returns n ray sets, the i-th being the result of propagate_rays through the first i+1 propagators, so its last element equals propagate_rays; tracing through a concatenation of two lists equals tracing through the first and then the second; a single propagator behaves as a list of length one.", "quantifier": "every list of propagators of any length and every ray set", "why_tests_cant": "Unbounded list length and arbitrary propagators.", "anchors": ["optika/propagators.py::propagate_rays", "optika/propagators.py::accumulate_rays"]}
{"id": "C14", "title": "Vignetting is monotone along the optical path", "statement": "A ray marked vignetted by any surface stays vignetted through every later surface, and at the end of a sequence a ray is unvignetted if and only if it was unvignetted at the start and passed the aperture test of every surface that has an active aperture.", "quantifier": "every sequence of surfaces of any length and every ray", "why_tests_cant": "Invariant over unbounded histories of surfaces.", "anchors": ["optika/surfaces.py::AbstractSurface.propagate_rays", "optika/apertures/_apertures.py::AbstractAperture.clip_rays"]}
{"id": "C15", "title": "Throughput is the product of the surface efficiencies and never exceeds the input", "statement": "After any sequence of surfaces the intensity equals the initial intensity times the product of the material efficiency, ruling efficiency and path transmission of every surface; if all efficiencies lie in [0,1], attenuations are non-negative and the input is non-negative, the output lies between zero and the input.", "quantifier": "every sequence of surfaces of any length, every ray", "why_tests_cant": "Induction over unbounded sequences.", "anchors": ["optika/surfaces.py::AbstractSurface.propagate_rays", "optika/sags/_abc.py::AbstractSag.propagate_rays"]}
{"id": "C16", "title": "Ray directions stay normalised through any sequence of surfaces", "statement": "If the input direction is a unit vector, after any sequence of surfaces with rigid transformations and unit normals the output direction is either undefined (NaN) or a unit vector.", "quantifier": "every sequence of surfaces of any length, any rulings, any materials", "why_tests_cant": "Invariant over unbounded sequences with arbitrary sags, rulings and materials.", "anchors": ["optika/surfaces.py::AbstractSurface.propagate_rays"]}
{"id": "C17", "title": "The vacuum wavelength of a ray is preserved by every surface", "statement": "The wavelength carried by a ray, which every material uses as the vacuum wavelength to look up its index, is the same before and after each surface.", "quantifier": "every surface and every sequence of surfaces", "why_tests_cant": "Only visible when at least two different dispersive media follow each other; tests use single interfaces.", "anchors": ["optika/surfaces.py::AbstractSurface.propagate_rays", "optika/materials/_materials.py::AbstractMaterial", "optika/rulings/_rulings.py"]}
{"id": "C18", "title": "Ray tracing commutes with rigid motions of the whole system", "statement": "If every surface and every input ray is moved by the same rigid transformation, the traced rays are the original traced rays moved by that transformation, with identical wavelength, intensity, index, attenuation and vignetting.", "quantifier": "every sequence of surfaces, every rigid transformation, every ray", "why_tests_cant": "Frame invariance over all rigid motions and unbounded sequences.", "anchors": ["optika/surfaces.py::AbstractSurface.propagate_rays", "optika/rays/_ray_vectors.py::AbstractRayVectorArray.__matmul__"]}
{"id": "C19", "title": "direction and angles are mutually inverse", "statement": "optika.direction(a) is a unit vector for every pair of angles; optika.angles(optika.direction(a)) = a for |a.y| < 90 deg and -180 < a.x < 180 deg; optika.direction(optika.angles(v)) = v for every unit vector v not parallel to the y axis.", "quantifier": "all angle pairs and all unit vectors", "why_tests_cant": "Continuum of inputs with branch cuts of atan2 and arcsin.", "anchors": ["optika/_util.py::direction", "optika/_util.py::angles"]}
{"id": "C20", "title": "inverted and active flags of apertures", "statement": "For every aperture class, an inverted aperture accepts a point exactly when the non-inverted one rejects it, an inactive aperture accepts every point, and clip_rays leaves every field of the ray other than unvignetted unchanged.", "quantifier": "every aperture class and parameters, every point and ray", "why_tests_cant": "All inputs including boundary points.", "anchors": ["optika/apertures/_apertures.py::CircularAperture.__call__", "optika/apertures/_apertures.py::CircularSectorAperture.__call__", "optika/apertures/_apertures.py::EllipticalAperture.__call__", "optika/apertures/_apertures.py::RectangularAperture.__call__", "optika/apertures/_apertures.py::AbstractAperture.clip_rays"]}
{"id": "C21", "title": "bound_lower and bound_upper enclose every point the aperture accepts", "statement": "For a non-inverted active Circular, Elliptical, Rectangular or polygonal aperture under any rigid transformation, every accepted point lying in the aperture plane is inside the box [bound_lower, bound_upper]; for the ellipse (and for the untransformed circle and rectangle) the box is the smallest such box.", "quantifier": "every aperture parameter, every rigid transformation, every accepted point", "why_tests_cant": "Extremal claim over a continuum of points and rotations.", "anchors": ["optika/apertures/_apertures.py::CircularAperture.bound_lower", "optika/apertures/_apertures.py::EllipticalAperture.bound_lower", "optika/apertures/_apertures.py::AbstractPolygonalAperture.bound_lower"]}
{"id": "C22", "title": "The circular sector accepts exactly its angular interval", "statement": "For -2pi <= angle_start <= angle_stop <= 2pi, CircularSectorAperture accepts a point at polar radius rho and angle theta if and only if rho <= radius and some theta + 2 pi k lies between angle_start and angle_stop; in particular a full-circle sector accepts the whole disk.", "quantifier": "every start and stop angle in the documented range, every point of the plane", "why_tests_cant": "Modular arithmetic on angles; boundary angles have measure zero in sampled tests.", "anchors": ["optika/apertures/_apertures.py::CircularSectorAperture.__call__"]}
{"id": "C23", "title": "The bounding box of a circular sector encloses the sector", "statement": "bound_lower and bound_upper of a CircularSectorAperture enclose every accepted point, for every transformation, including the full circle.", "quantifier": "every start and stop angle in the documented range, every affine transformation, every accepted point", "why_tests_cant": "Extremal claim over a continuum with wrap-around at 360 degrees.", "anchors": ["optika/apertures/_apertures.py::CircularSectorAperture._bound_extrema"]}
{"id": "C24", "title": "Aperture wires have the requested number of points, are closed and lie on the boundary", "statement": "aperture.wire(num) returns exactly num points for every num, the first point equals the last, and every point is on the boundary of the aperture, so an untransformed non-inverted aperture accepts it (circle, ellipse, polygon).", "quantifier": "every num, every number of vertices, every aperture parameter", "why_tests_cant": "The count per side is computed by truncation of a running product; off-by-one cases appear only for some (num, vertices) pairs.", "anchors": ["optika/apertures/_apertures.py::AbstractPolygonalAperture.wire", "optika/apertures/_apertures.py::CircularSectorAperture.wire", "optika/apertures/_apertures.py::CircularAperture.wire", "optika/apertures/_apertures.py::EllipticalAperture.wire"]}
{"id": "C25", "title": "Derived polygons have the geometry their parameters promise", "statement": "The vertices of RectangularAperture are the four corners (+-half_width.x, +-half_width.y); the vertices of RegularPolygonalAperture all lie at distance radius from the centre with equal side lengths; the legs of IsoscelesTrapezoidalAperture lie on two lines through a common apex enclosing the angle wedge_angle.", "quantifier": "every parameter value and every number of vertices", "why_tests_cant": "Continuum of parameters, unbounded number of vertices.", "anchors": ["optika/apertures/_apertures.py::RectangularAperture.vertices", "optika/apertures/_apertures.py::RegularPolygonalAperture.vertices", "optika/apertures/_apertures.py::IsoscelesTrapezoidalAperture.vertices"]}
{"id": "C26", "title": "Rulings obey the grating equation", "statement": "After incident_effective and snells_law the tangential momentum of the outgoing ray satisfies n2*b_t = n1*a_t +- m*lambda*g_t/d; diffraction order zero leaves the ray exactly as without rulings; the result does not depend on the sign of the surface normal when m = 0.", "quantifier": "every order, wavelength, groove spacing, groove direction, incident ray and unit normal", "why_tests_cant": "Identity over a continuum of parameters combining two modules.", "anchors": ["optika/rulings/_rulings.py::AbstractRulings.incident_effective", "optika/surfaces.py::AbstractSurface.propagate_rays"]}
{"id": "C27", "title": "Diffraction efficiencies are physical", "statement": "The efficiency of every rulings class is between zero and one for every diffraction order, groove depth, spacing, wavelength and incidence angle.", "quantifier": "every rulings class, every order, every positive depth, spacing, wavelength, every incidence cosine in (0,1]", "why_tests_cant": "Unbounded set of orders and a continuum of parameters.", "anchors": ["optika/rulings/_rulings.py::SinusoidalRulings.efficiency", "optika/rulings/_rulings.py::SquareRulings.efficiency", "optika/rulings/_rulings.py::SawtoothRulings.efficiency", "optika/rulings/_rulings.py::TriangularRulings.efficiency", "optika/rulings/_rulings.py::RectangularRulings.efficiency"]}
{"id": "C28", "title": "Diffraction efficiency depends on the incidence angle only", "statement": "Because the ruling direction is tangent to the surface, removing the component of the ray along the rulings does not change its component along the normal, so two rays with the same angle of incidence have the same efficiency.", "quantifier": "every ray, every ruling direction orthogonal to the normal", "why_tests_cant": "Only rays inclined along the grooves reveal an error; the tests use rays in the dispersion plane.", "anchors": ["optika/rulings/_rulings.py::SquareRulings.efficiency", "optika/rulings/_rulings.py::SinusoidalRulings.efficiency"]}
{"id": "C29", "title": "RectangularRulings with duty cycle one half equals SquareRulings", "statement": "For ratio_duty = 1/2 the efficiency of RectangularRulings equals that of SquareRulings for every order, depth, spacing, wavelength and ray.", "quantifier": "every diffraction order and every parameter", "why_tests_cant": "Equivalence of two implementations over all orders.", "anchors": ["optika/rulings/_rulings.py::RectangularRulings.efficiency", "optika/rulings/_rulings.py::SquareRulings.efficiency"]}
{"id": "C30", "title": "Holographic rulings image one recording source onto the other", "statement": "For a mirror with HolographicRulingSpacing used in order 1 at the recording wavelength, a ray leaving the first recording source is diffracted exactly along the direction of the second recording source, for every point of the surface and every unit normal.", "quantifier": "every pair of source positions, every surface point and normal, both diverging/converging settings", "why_tests_cant": "Composition of three modules over a continuum; tests compare a single geometry numerically.", "anchors": ["optika/rulings/_spacing.py::HolographicRulingSpacing.__call__", "optika/rulings/_rulings.py::AbstractRulings.incident_effective", "optika/materials/_snells_law.py::snells_law"]}
{"id": "C31", "title": "Ruling spacing models respect their transformation", "statement": "ConstantRulingSpacing is independent of position; Polynomial1dRulingSpacing is its polynomial evaluated at the coordinate along the rulings of the transformed position, and reduces to the constant model for a degree-zero polynomial; HolographicRulingSpacing is evaluated in the ruling coordinates its transformation maps surface coordinates to.", "quantifier": "every polynomial, every transformation, every position", "why_tests_cant": "Only a non-trivial transformation exposes a frame error.", "anchors": ["optika/rulings/_spacing.py::ConstantRulingSpacing", "optika/rulings/_spacing.py::Polynomial1dRulingSpacing", "optika/rulings/_spacing.py::HolographicRulingSpacing"]}
{"id": "C32", "title": "Trivial layers are invisible", "statement": "In the transfer-matrix model an interface between identical media has the identity refraction matrix, a zero-thickness propagation matrix is the identity, a layer may be split into two layers of the same medium whose thicknesses add without changing reflectivity or transmissivity, and an empty list of layers with equal media gives r = 0 and t = 1.", "quantifier": "every complex index, cosine, thickness, wavelength and polarization, every stack around the layer", "why_tests_cant": "Algebraic laws over complex parameters and stacks of any length.", "anchors": ["optika/materials/matrices.py::refraction", "optika/materials/matrices.py::propagation", "optika/materials/_layers.py::Layer.transfer", "optika/materials/_multilayers.py::multilayer_coefficients"]}
{"id": "C33", "title": "A periodic layer sequence equals its explicit repetition", "statement": "PeriodicLayerSequence(layers, num_periods=N) has the same transfer matrix, final cosine, final index, thickness and therefore the same reflectivity and transmissivity as LayerSequence(layers*N), for every N.", "quantifier": "every list of layers and every number of periods", "why_tests_cant": "Induction over the number of periods; the code computes it with a matrix power of a different cell.", "anchors": ["optika/materials/_layers.py::PeriodicLayerSequence.transfer", "optika/materials/_layers.py::LayerSequence.transfer", "optika/materials/_layers.py::PeriodicLayerSequence.thickness"]}
{"id": "C34", "title": "Energy conservation for lossless multilayers", "statement": "For real indices and ideal (zero-roughness) interfaces and propagating waves, reflectivity plus transmissivity from multilayer_efficiency equals one exactly, for both polarizations and stacks of any number of layers.", "quantifier": "every list of lossless layers of any length, every wavelength and thickness, every incidence below the critical angles", "why_tests_cant": "Unbounded number of layers and continuum of parameters.", "anchors": ["optika/materials/_multilayers.py::multilayer_efficiency", "optika/materials/matrices.py"]}
{"id": "C35", "title": "Absorbing multilayers never create energy", "statement": "For media with non-negative extinction, R + T <= 1 and R, T >= 0, for both polarizations and stacks of any number of layers, so the efficiency of MultilayerMirror, MultilayerFilm and thin-film filters lies in [0,1].", "quantifier": "every list of absorbing layers of any length, every incidence angle, wavelength and thickness", "why_tests_cant": "Inequality over complex indices and unbounded stacks.", "anchors": ["optika/materials/_multilayers.py::multilayer_efficiency", "optika/materials/_multilayers.py::MultilayerMirror.efficiency", "optika/materials/_multilayers.py::MultilayerFilm.efficiency"]}
{"id": "C36", "title": "Layer absorbances account for all the lost energy", "statement": "The sum over all layers of layer_absorbance, plus the reflectivity and the transmissivity, equals one, and layer_absorbance accepts negative indices as Python sequences do.", "quantifier": "every list of layers of any length, every index", "why_tests_cant": "Telescoping identity over unbounded stacks.", "anchors": ["optika/materials/_multilayers.py::layer_absorbance", "optika/materials/_multilayers.py::multilayer_efficiency"]}
{"id": "C37", "title": "Interface profiles are transition functions and their roughness factors are transforms of them", "statement": "Every interface profile is non-decreasing from 0 to 1 with value 1/2 at the interface and antisymmetric about it; its reflectivity correction is 1 for zero width (or at grazing incidence), even in the spatial frequency, and never exceeds 1 in magnitude.", "quantifier": "every profile class, every depth, width and spatial frequency", "why_tests_cant": "Continuum of depths, widths and frequencies including zero.", "anchors": ["optika/materials/profiles.py::ErfInterfaceProfile", "optika/materials/profiles.py::ExponentialInterfaceProfile", "optika/materials/profiles.py::LinearInterfaceProfile", "optika/materials/profiles.py::SinusoidalInterfaceProfile"]}
{"id": "C38", "title": "Every system has a field stop and the stop indices are the last flagged surfaces", "statement": "surfaces_all is object, surfaces, sensor in order; it always contains a field stop (the first surface is promoted when none is flagged, nothing else changes); index_field_stop never raises and is the largest flagged index; index_pupil_stop is the largest flagged index and raises exactly when none is flagged.", "quantifier": "every list of surfaces with any flags, with or without a sensor", "why_tests_cant": "Unbounded lists and all flag patterns.", "anchors": ["optika/systems/_sequential.py::AbstractSequentialSystem.surfaces_all", "optika/systems/_sequential.py::AbstractSequentialSystem.index_field_stop", "optika/systems/_sequential.py::AbstractSequentialSystem.index_pupil_stop"]}
{"id": "C39", "title": "The stop solver terminates on the surface from which rays are traced back", "statement": "The loop that pairs pupil stops with field stops always terminates, and the surface on which it leaves the rays is the surface from which they are then propagated back to the object, for every arrangement of multiple pupil and field stops.", "quantifier": "every list of surfaces and every pattern of pupil/field flags", "why_tests_cant": "All patterns of flags over unbounded lists; tests have one pupil and one field stop.", "anchors": ["optika/systems/_sequential.py::AbstractSequentialSystem._calc_rayfunction_stops_only", "optika/systems/_sequential.py::AbstractSequentialSystem._calc_rayfunction_stops"]}
{"id": "C40", "title": "Normalized coordinates span exactly the measured range", "statement": "Denormalizing maps -1 to the minimum and +1 to the maximum of the stop ray coordinates, is monotone, maps [-1,1] into [min,max], and leaves physical coordinates untouched when a grid is flagged as physical.", "quantifier": "every set of stop rays and every normalized coordinate", "why_tests_cant": "All real coordinates and all ray sets.", "anchors": ["optika/systems/_sequential.py::AbstractSequentialSystem._denormalize_grid"]}
{"id": "C41", "title": "Normalized rays start on the object at the place the stop rays came from", "statement": "A ray requested with normalized field and pupil coordinates +-1 leaves the object surface where the extreme stop rays do, for every placement of the object surface and of the whole system.", "quantifier": "every rigid transformation of the object surface and of the system", "why_tests_cant": "Tests place the object only along the optical axis.", "anchors": ["optika/systems/_sequential.py::AbstractSequentialSystem._denormalize_grid", "optika/systems/_sequential.py::AbstractSequentialSystem._calc_rayfunction_input", "optika/systems/_sequential.py::AbstractSequentialSystem.raytrace"]}
{"id": "C42", "title": "raytrace does not depend on earlier calls", "statement": "The result of raytrace and rayfunction depends only on the arguments of the call and on the current configuration of the system, not on which raytrace, rayfunction or rayfunction_default calls were made before.", "quantifier": "every history of calls with any arguments", "why_tests_cant": "Ranges over histories; tests build a fresh system or never pass intensity and then omit it.", "anchors": ["optika/systems/_sequential.py::AbstractSequentialSystem.raytrace", "optika/systems/_sequential.py::AbstractSequentialSystem._rayfunction_input", "optika/systems/_sequential.py::AbstractSequentialSystem.rayfunction_default"]}
{"id": "C43", "title": "Clearing the documented cache makes a new grid effective", "statement": "After assigning grid_input and deleting rayfunction_default, as documented, rayfunction_default is the trace of the new grid.", "quantifier": "every history of assignments, deletions and traces", "why_tests_cant": "Ranges over histories of cache operations.", "anchors": ["optika/systems/_sequential.py::AbstractSequentialSystem.rayfunction_default", "optika/systems/_sequential.py::AbstractSequentialSystem._rayfunction_input"]}
{"id": "C44", "title": "raytrace returns global coordinates", "statement": "raytrace returns rays in global coordinates: moving the whole system by its transformation attribute (and the physical input rays with it) moves the returned rays by the same transformation.", "quantifier": "every rigid system transformation, every system and ray", "why_tests_cant": "Only a non-trivial system transformation exposes it.", "anchors": ["optika/systems/_sequential.py::AbstractSequentialSystem.raytrace"]}
{"id": "C45", "title": "Axis inference is unambiguous or an error", "statement": "When an axis argument is None the inferred wavelength, field and pupil axes are disjoint, belong to the corresponding grid, are not axes of the system, and an error is raised unless there are at most one wavelength axis and exactly two field and two pupil axes.", "quantifier": "every combination of grid shapes and system shape", "why_tests_cant": "All sets of axis names.", "anchors": ["optika/systems/_sequential.py::AbstractSequentialSystem._normalize_axis_wavelength", "optika/systems/_sequential.py::AbstractSequentialSystem._normalize_axis_field", "optika/systems/_sequential.py::AbstractSequentialSystem._normalize_axis_pupil"]}
{"id": "C46", "title": "Vignetting and effective area are correctly normalised", "statement": "The illumination used by vignetting() has mean exactly one over the field points that have at least one unvignetted ray and is zero elsewhere; the effective area is non-negative and never exceeds the total area of the pupil grid when every throughput is in [0,1]; rays blocked by an aperture contribute nothing.", "quantifier": "every ray set of any size and any vignetting pattern", "why_tests_cant": "Arbitrary finite sets of rays and patterns.", "anchors": ["optika/systems/_sequential.py::AbstractSequentialSystem.vignetting", "optika/systems/_sequential.py::AbstractSequentialSystem.area_effective"]}
{"id": "C47", "title": "Collecting rays on the sensor conserves flux", "statement": "The sum over pixels of ImagingSensor.collect equals the total intensity of the rays that are unvignetted, selected by where, and inside the pixel and wavelength grid; every such ray is counted in exactly one pixel and no other ray contributes.", "quantifier": "every set of rays, every grid of pixels", "why_tests_cant": "Arbitrary finite ray sets and positions, including rays on pixel edges.", "anchors": ["optika/sensors/_sensors.py::AbstractImagingSensor.collect"]}
{"id": "C48", "title": "The per-pixel cosine is a flux-weighted mean", "statement": "The direction returned by collect for a pixel is the flux-weighted mean of the refracted cosines of its rays, lies in their convex hull, is independent of the overall scale of the flux, and is 1 for a pixel without flux.", "quantifier": "every set of rays with non-negative flux, every pixel", "why_tests_cant": "Arbitrary finite ray sets.", "anchors": ["optika/sensors/_sensors.py::AbstractImagingSensor.collect"]}
{"id": "C49", "title": "photons_absorbed inverts the noiseless exposure", "statement": "For a noiseless exposure (noise=False), ImagingSensor.photons_absorbed applied to the exposed electrons returns the collected photon rate, for ideal and silicon sensor materials, at any per-pixel refracted cosine with positive real part.", "quantifier": "every photon rate, exposure time, wavelength, temperature and refracted cosine", "why_tests_cant": "Round trip over a continuum, with the principal complex square root in between.", "anchors": ["optika/sensors/_sensors.py::AbstractImagingSensor.expose", "optika/sensors/_sensors.py::AbstractImagingSensor.photons_absorbed", "optika/sensors/materials/_materials.py::AbstractBackIlluminatedSiliconSensorMaterial.signal", "optika/sensors/materials/_materials.py::AbstractBackIlluminatedSiliconSensorMaterial.photons_absorbed"]}
{"id": "C50", "title": "Uncertainty adds shot and read noise in quadrature", "statement": "The uncertainty of a pixel is at least the read noise and at least the material noise, equals the read noise for zero electrons, and is non-decreasing in the number of electrons.", "quantifier": "every electron count, read noise and variance-to-mean ratio", "why_tests_cant": "Continuum of inputs.", "anchors": ["optika/sensors/_sensors.py::AbstractImagingSensor.uncertainty", "optika/sensors/materials/_materials.py::AbstractSensorMaterial.uncertainty"]}
{"id": "C51", "title": "Charge collection efficiency is the depth average of the differential efficiency", "statement": "charge_collection_efficiency(absorption, W, eta0) equals the mean of the piecewise-linear differential efficiency over an exponential depth distribution, lies in [eta0, 1], decreases with absorption, tends to 1 as the implant thickness tends to zero and is defined (equal to 1) when there is no implant layer.", "quantifier": "every positive absorption, every implant thickness >= 0, every eta0 in [0,1]", "why_tests_cant": "Identity between an integral and a closed form over a continuum, plus the boundary value W = 0 (the default).", "anchors": ["optika/sensors/materials/_materials.py::charge_collection_efficiency", "optika/sensors/materials/_materials.py::BackIlluminatedSiliconSensorMaterial"]}
{"id": "C52", "title": "The analytic variance-to-mean ratio is the law of total variance", "statement": "vmr_signal with all noise sources equals Var(N)/E(N) of a compound Poisson sum of per-photon binomially thinned pair counts, for every pair-count distribution with the given mean and Fano factor and every collection-efficiency distribution with the given mean and variance; the variance of the collection efficiency is the one of the exponential depth distribution; all quantities are evaluated at the temperature given.", "quantifier": "every discrete pair-count distribution, every depth distribution, every temperature", "why_tests_cant": "Identity over all distributions; tests compare one Monte Carlo run with a loose tolerance.", "anchors": ["optika/sensors/materials/_materials.py::vmr_signal"]}
{"id": "C53", "title": "Monte Carlo electrons are conserved", "statement": "In electrons_measured with wrap=True the number of electrons in the output equals the number of electrons that survived recombination; with wrap=False it is at most that number and equals it when no electron leaves the grid; every pixel count is a non-negative integer and no electron is ever written outside the array.", "quantifier": "every grid size, photon counts and every sequence of random draws", "why_tests_cant": "Ranges over all random draws and grid sizes.", "anchors": ["optika/sensors/materials/_ramanathan_2020/_ramanathan_2020.py::_electrons_measured_numba"]}
{"id": "C54", "title": "The parallel Monte Carlo loop is schedule independent", "statement": "For fixed random draws per slice, the result of electrons_measured does not depend on the order or interleaving in which the parallel loop executes its slices.", "quantifier": "every interleaving of the iterations of the parallel loop", "why_tests_cant": "Ranges over schedules.", "anchors": ["optika/sensors/materials/_ramanathan_2020/_ramanathan_2020.py::_electrons_measured_numba"]}
{"id": "C55", "title": "Photon depths follow the truncated exponential", "statement": "The sampled absorption depth lies in [0, thickness_substrate), is an increasing function of the uniform draw, and inverts the truncated exponential cumulative distribution; the collection probability used for the binomial draw is always in [0,1]; for zero absorption the depth is uniform and is the limit of the absorbing case.", "quantifier": "every absorption >= 0, substrate thickness > 0, implant thickness >= 0 and uniform draw in [0,1)", "why_tests_cant": "Continuum of parameters and draws.", "anchors": ["optika/sensors/materials/_ramanathan_2020/_ramanathan_2020.py::_electrons_measured_numba"]}
{"id": "C56", "title": "The expected method is the mean of the Monte Carlo method", "statement": "signal(method='expected') equals the expectation of signal(method='monte-carlo') for a sensor without charge diffusion.", "quantifier": "every absorption, implant and substrate thickness, back-surface efficiency and photon number", "why_tests_cant": "A comparison of expectations; sampling noise hides the difference in tests.", "anchors": ["optika/sensors/materials/_materials.py::signal", "optika/sensors/materials/_ramanathan_2020/_ramanathan_2020.py::electrons_measured"]}
{"id": "C57", "title": "Charge diffusion width is the depth-averaged width", "statement": "charge_diffusion squared equals the absorption-weighted average of the squared diffusion width of the field-free region; it is real and at most the thickness of the field-free region, zero exactly when there is no field-free region. It is a number exactly when the substrate absorbs and the depletion region is not thicker than the substrate.", "quantifier": "every positive absorption and every depletion thickness between zero and the substrate thickness", "why_tests_cant": "Identity between integrals and a closed form over a continuum.", "anchors": ["optika/sensors/materials/_diffusion.py::charge_diffusion"]}
{"id": "C58", "title": "The diffusion kernel is a probability distribution consistent with mean_charge_capture", "statement": "kernel_diffusion is non-negative, symmetric under both reflections and transposition, sums to one, its unnormalised one-dimensional centre value squared is mean_charge_capture, the unnormalised one-dimensional kernel sums to one over all integer pixels in the limit, and mean_charge_capture lies in [0,1].", "quantifier": "every positive diffusion width and pixel width", "why_tests_cant": "Inequalities and sums with the error function over a continuum.", "anchors": ["optika/sensors/materials/_diffusion.py::kernel_diffusion", "optika/sensors/materials/_diffusion.py::_kernel_1d", "optika/sensors/materials/_diffusion.py::mean_charge_capture"]}
{"id": "C59", "title": "Measurement probability is a probability", "statement": "probability_measurement lies in [0,1], is non-decreasing in both the quantum yield and the collection efficiency, equals the collection efficiency for a yield of one electron and never falls below it for larger yields.", "quantifier": "every quantum yield >= 0 and collection efficiency in [0,1]", "why_tests_cant": "Continuum of inputs with a real power.", "anchors": ["optika/sensors/materials/_materials.py::probability_measurement"]}
{"id": "C60", "title": "Linear distortion models round-trip exactly", "statement": "For a SimpleDistortionModel, undistort(distort(c)) = c and distort(undistort(c)) = c for every coordinate, the wavelength is unchanged by both, and the field centre at the reference wavelength maps to the reference position.", "quantifier": "every non-zero plate scale and dispersion, every angle, every coordinate", "why_tests_cant": "Continuum of parameters.", "anchors": ["optika/distortion/_distortion.py::AbstractLinearDistortionModel", "optika/distortion/_distortion.py::SimpleDistortionModel"]}
{"id": "C61", "title": "Interpolated tables reproduce their calibration points and never overshoot", "statement": "InterpolatedEffectiveAreaModel (and the tabulated chemicals and measured mirrors, which use the same linear interpolation) return the calibration value at every calibration wavelength and between the two neighbouring calibration values elsewhere inside the table.", "quantifier": "every strictly increasing table of any length and every wavelength in range", "why_tests_cant": "Unbounded tables.", "anchors": ["optika/radiometry/_effective_area.py::InterpolatedEffectiveAreaModel.__call__", "optika/chemicals/_chemicals.py::AbstractChemical.n", "optika/materials/_materials.py::MeasuredMirror.efficiency"]}
{"id": "C62", "title": "LaTeX chemical formulas preserve the formula", "statement": "formula_latex wraps every maximal run of digits in a subscript and changes nothing else: deleting the markup gives back the formula, and every digit of a stoichiometric number is rendered as a subscript.", "quantifier": "every formula string", "why_tests_cant": "All strings.", "anchors": ["optika/chemicals/_chemicals.py::AbstractChemical.formula_latex"]}
{"id": "C63", "title": "Cell areas of object grids are the product of their factors", "statement": "ObjectVectorArray.cell_area is the product of the wavelength step and the absolute field and pupil cell areas, non-negative for increasing wavelengths, and the cells of a subdivided grid add up to the area of the whole.", "quantifier": "every grid of any size", "why_tests_cant": "Telescoping over unbounded grids.", "anchors": ["optika/vectors/_vectors_object.py::ObjectVectorArray.cell_area"]}
{"id": "C64", "title": "Shapes broadcast consistently", "statement": "The shape of a composite object is the broadcast of the shapes of all of the attributes that influence its behaviour: broadcasting is associative, commutative up to axis order and idempotent, and every attribute that varies along an axis contributes that axis to the shape of its owner.", "quantifier": "every set of named shapes, every class that computes shape from its attributes", "why_tests_cant": "All shapes; omissions only matter for attributes that are arrays.", "anchors": ["optika/_util.py::shape", "optika/surfaces.py::Surface.shape", "optika/sags/_flat.py::NoSag.shape", "optika/rulings/_spacing.py::HolographicRulingSpacing.shape"]}
{"id": "C65", "title": "A ray that meets the vertex sheet of a conic is never lost", "statement": "If the line of a ray meets the vertex sheet of a ConicSag, ConicSag.intercept returns a finite point, including rays along the axis, rays below the degenerate threshold, and under binary64 rounding.", "quantifier": "every radius, conic constant and ray, in exact arithmetic and in floating point", "why_tests_cant": "The degenerate threshold and the rounding of the sheet test select thin families of rays (for example exactly on the axis) that random grids do not hit; a lost ray becomes an infinity that later steps turn into NaN or drop silently.", "anchors": ["optika/sags/_conic.py:130-162"]}
{"id": "C66", "title": "inverted has the meaning its documentation gives", "statement": "As documented, an aperture with inverted=True lets light pass through its interior and one with inverted=False lets light pass through its exterior.", "quantifier": "every aperture class, every point", "why_tests_cant": "Tests compare the code with itself; the documented meaning is never checked.", "anchors": ["optika/apertures/_apertures.py::AbstractAperture"]}
{"id": "C67", "title": "A ray that missed the surface is never reported as unvignetted", "statement": "If the position of a ray is NaN because the ray missed the surface (or its direction, for an aperture in direction space), clip_rays sets unvignetted to False for every active aperture.", "quantifier": "every aperture class and flags, every ray with a NaN position", "why_tests_cant": "NaN comparisons interact with the inverted flag; tests use finite positions.", "anchors": ["optika/apertures/_apertures.py::AbstractAperture.clip_rays"]}
{"id": "C68", "title": "Groove efficiencies are the Fourier powers of the groove profile", "statement": "For each analytic rulings class the efficiency of order i equals the squared modulus of the i-th Fourier coefficient of exp(j*phase), where the phase is the delay 2*pi*depth/(lambda*cos theta) times the profile of the class (thin-grating theory, the reference the docstrings cite).", "quantifier": "every rulings class, every order, every depth, wavelength and incidence cosine", "why_tests_cant": "The tests only check that efficiencies are numbers; the identity is an integral over the profile for infinitely many orders.", "anchors": ["optika/rulings/_rulings.py::SinusoidalRulings.efficiency", "optika/rulings/_rulings.py::SquareRulings.efficiency", "optika/rulings/_rulings.py::SawtoothRulings.efficiency", "optika/rulings/_rulings.py::TriangularRulings.efficiency", "optika/rulings/_rulings.py::RectangularRulings.efficiency"]}
{"id": "C69", "title": "Groove efficiency is that of the incident ray", "statement": "The groove efficiency a surface applies is the efficiency of the rays incident on the rulings, although the surface evaluates it with the effective direction that already contains the diffraction.", "quantifier": "every rulings class, spacing model, ray and normal", "why_tests_cant": "Only a curved or tilted grating reveals a difference.", "anchors": ["optika/surfaces.py::AbstractSurface.propagate_rays", "optika/rulings/_rulings.py::AbstractRulings.incident_effective"]}
{"id": "C70", "title": "The efficiency of a coating does not depend on the sign of the normal", "statement": "MultilayerMirror.efficiency and MultilayerFilm.efficiency give the same value for a normal and for its negative, as the refracted direction of snells_law does.", "quantifier": "every stack, ray and unit normal", "why_tests_cant": "A continuum of directions; the tests only use normals that point against the rays.", "anchors": ["optika/materials/_multilayers.py::MultilayerMirror.efficiency", "optika/materials/_multilayers.py::MultilayerFilm.efficiency"]}
{"id": "C71", "title": "Roughness factor does not depend on units", "statement": "The roughness factor of a linear interface profile does not depend on the length units in which its width and the wavelength are given.", "quantifier": "every width, spatial frequency and pair of length units", "why_tests_cant": "Tests use one unit for both lengths, where the missing conversion has no effect.", "anchors": ["optika/materials/profiles.py::LinearInterfaceProfile._derivative_fourier_transform"]}
{"id": "C72", "title": "The width of a profile is the standard deviation of its slope", "statement": "The width attribute of every interface profile is the root-mean-square width of the derivative of the profile, and the sinusoidal profile is the documented curve, which has that width.", "quantifier": "every profile class and every positive width", "why_tests_cant": "Needs an improper integral over all depths, for a continuum of widths; tests only compare shapes and ranges.", "anchors": ["optika/materials/profiles.py::SinusoidalInterfaceProfile.__call__", "optika/materials/profiles.py::ErfInterfaceProfile", "optika/materials/profiles.py::ExponentialInterfaceProfile", "optika/materials/profiles.py::LinearInterfaceProfile"]}
{"id": "C73", "title": "Stop rays touch the reported pupil and field stops", "statement": "The rays of rayfunction_stops meet the borders of the surfaces reported by index_pupil_stop and index_field_stop: the last pair of surfaces solved for is exactly that pair.", "quantifier": "every list of surfaces and every pattern of pupil/field flags", "why_tests_cant": "All patterns of flags over unbounded lists; tests have one stop of each kind.", "anchors": ["optika/systems/_sequential.py::AbstractSequentialSystem._calc_rayfunction_stops_only", "optika/systems/_sequential.py::AbstractSequentialSystem.rayfunction_stops"]}
{"id": "C74", "title": "Stop rays retrace their path", "statement": "A stop ray, solved at the first stop and propagated back to the object, meets the first stop at the point and along the line for which it was solved when it is traced forward again through the system.", "quantifier": "every system of surfaces before the first stop, every solved ray, every system transformation", "why_tests_cant": "All surfaces and rays; in the tests the first stop is the object or has only mirrors before it.", "anchors": ["optika/systems/_sequential.py::AbstractSequentialSystem._calc_rayfunction_stops", "optika/surfaces.py::AbstractSurface.propagate_rays"]}
{"id": "C75", "title": "Multilayer amplitudes satisfy Maxwell's boundary conditions", "statement": "For a wave of unit amplitude arriving at a stack of layers on a substrate, the coefficients returned by multilayer_coefficients are the only pair of reflected and transmitted amplitudes for which both tangential field components are continuous at every interface, each layer contributes the phase 2 pi n d cos(theta) / lambda, and there is no wave coming back from the substrate. The documented admittances n cos(theta) (s) and cos(theta)/n (p) hold in every medium.", "quantifier": "every list of layers and substrate with non-zero complex indices and sharp interfaces, every wavelength, every complex cosine in the ambient medium, both polarizations", "why_tests_cant": "The tests check energy bounds, shapes and a few published curves at normal incidence; whether the amplitudes solve the field equations for an arbitrary stack is a statement about infinitely many stacks, and the p polarization differs from the documented formula only for complex cosines.", "anchors": ["optika/materials/matrices.py:23-170", "optika/materials/matrices.py:173-240", "optika/materials/_multilayers.py:33-237"]}
{"id": "C76", "title": "Without a pixel grid there is no charge diffusion", "statement": "electrons_measured with axis_xy=None applies no charge diffusion, as its documentation says: every electron that survives recombination is counted.", "quantifier": "every depletion and substrate thickness, pixel width, wrap flag and random draws", "why_tests_cant": "Tests use the default depletion thickness, for which the field-free region is empty.", "anchors": ["optika/sensors/materials/_ramanathan_2020/_ramanathan_2020.py::electrons_measured", "optika/sensors/materials/_ramanathan_2020/_ramanathan_2020.py::_electrons_measured_numba"]}
{"id": "C78", "title": "No field-free region, no diffusion", "statement": "For a sensor whose depletion region fills the substrate, charge_diffusion is zero, mean_charge_capture is one and kernel_diffusion is the identity kernel.", "quantifier": "every positive absorption, substrate thickness and pixel width", "why_tests_cant": "Tests of the kernel use positive widths.", "anchors": ["optika/sensors/materials/_diffusion.py::charge_diffusion", "optika/sensors/materials/_diffusion.py::mean_charge_capture", "optika/sensors/materials/_diffusion.py::kernel_diffusion"]}
{"id": "C79", "title": "Mean charge capture determines the depletion thickness", "statement": "The mean charge capture of JanesickDepletionModel is strictly increasing in the depletion thickness, so that the objective of fit_mcc for measurements generated by a thickness d0 is zero at d0 and positive at every other admissible thickness.", "quantifier": "every substrate thickness, pixel width, depletion thickness in the substrate and non-empty list of measurements with positive absorption", "why_tests_cant": "Uniqueness of a minimiser over a continuum.", "anchors": ["optika/sensors/materials/depletion/_depletion.py::mean_charge_capture", "optika/sensors/materials/depletion/_depletion.py::fit_mcc"]}
{"id": "C80", "title": "Chemical tables are located and read unambiguously", "statement": "Distinct combinations of formula, amorphous flag and table name give distinct .nk file names for every formula without underscores and hyphens, and reading a file skips exactly the leading lines that start with a semicolon, so that the table consists of the remaining rows.", "quantifier": "every formula, flag, table name and file of any number of lines", "why_tests_cant": "All strings and files of unbounded length.", "anchors": ["optika/chemicals/_chemicals.py::AbstractChemical.file_nk", "optika/chemicals/_chemicals.py::AbstractChemical.n"]}
{"id": "C77", "title": "The approximate electron distribution has the moments of the exact one", "statement": "electrons_measured_approx draws whole numbers of electrons with the mean of the exact Monte Carlo model (thinned pair counts at truncated exponential depths), and with its variance up to half an electron squared however many photons there are, for every implant layer from no layer at all to the whole substrate.", "quantifier": "every absorption, implant and substrate thickness, backsurface efficiency, quantum yield, Fano factor up to one, pair-count and efficiency distribution, and number of photons", "why_tests_cant": "Moments of a mixture of random variables for all parameters; sampling only estimates them.", "anchors": ["optika/sensors/materials/_materials.py::electrons_measured_approx", "optika/sensors/materials/_materials.py::_discrete_gamma"]}
{"id": "C82", "title": "Imaging conserves flux", "statement": "The photons that `image` collects over all pixels of the sensor are exactly the flux of the scene cells (radiance times cell area) whose rays arrive unvignetted on the pixels, each multiplied by the product of the efficiencies and transmissions along its path; the total is non-negative and never more than the flux of the scene, and without `integrate` the photons of one wavelength bin depend only on the radiance of that bin. (Refuted when the medium in front of the sensor is not vacuum, since rays are binned by their wavelength in the medium, and for decreasing wavelength grids, whose images are negative.)", "quantifier": "for all sequential systems with a sensor, all pixel grids, all scenes (wavelength, field and pupil grids of any size and shape), all random draws of the cell points, all non-negative radiances", "why_tests_cant": "the total depends on every cell of the scene and every surface of an arbitrary system; tests look at the image of one system in vacuum", "anchors": ["optika/systems/_sequential.py:1002-1206", "optika/sensors/_sensors.py:374-441", "optika/sensors/materials/_materials.py:1705-1719"]}
{"id": "C81", "title": "Polynomial distortion and vignetting models", "statement": "The polynomial distortion and vignetting models fitted to the rays of a system are the polynomials of least squares at the selected calibration points, however the fit is centred: data that are a polynomial of the model's degree are reproduced exactly, affine distortions are inverted exactly by `undistort`, calibration points excluded by `where` (field points without unvignetted rays) have no influence, the fitted illumination is proportional to the fraction of unvignetted rays with mean one over the field, and `inverse` is its reciprocal. (Refuted: one excluded field point with a lost ray makes `undistort` NaN everywhere; the illumination is not one at the centre of the field, as documented.)", "quantifier": "for all sets of calibration points, masks, degrees, least-squares solvers, bundles of rays and coordinates", "why_tests_cant": "tests fit a few analytic distortions without excluded points; the claims quantify over all point sets, masks and polynomials", "anchors": ["optika/distortion/_distortion.py:273-400", "optika/radiometry/_vignetting.py:20-190", "optika/systems/_sequential.py:1208-1368"]}
{"id": "C85", "title": "Transmittance, absorbance and quantum efficiency of a back-illuminated sensor", "statement": "The light that enters the substrate of a sensor and the light that it reflects are together never more than the incident light; the absorbance is the transmittance times the probability of being absorbed within the thickness of the substrate at the attenuation of the refracted wave, grows with the thickness and tends to the transmittance; the exact and the default method agree for an opaque substrate; the effective quantum efficiency is the unpolarized absorbance times the depth-averaged collection efficiency and never exceeds it; and the factor applied to a ray's intensity lies between zero and one. (Refuted for rough oxides, which transmit more than arrives, and for the exact method behind an opaque oxide, which reports 4/5 where nothing is transmitted.)", "quantifier": "every passive oxide and substrate, thickness, wavelength, lossless ambient medium, angle of incidence off the critical angles, polarization, and implant parameters", "why_tests_cant": "The tests check single chips at a few wavelengths and only that the values are between zero and one; energy balance for every stack, the limit of thick substrates and the agreement of the two methods are statements over continuous families.", "anchors": ["optika/sensors/materials/_materials.py:96-197", "optika/sensors/materials/_materials.py:200-374", "optika/sensors/materials/_materials.py:500-687", "optika/sensors/materials/_materials.py:1791-2028", "optika/sensors/materials/_materials.py:2231-2243"]}
{"id": "C83", "title": "Movable objects", "statement": "A class that derives from any of the mixins Translatable, Pitchable, Yawable and Rollable, in any order, always has a `transformation`, which is the composition of the motions of its bases, the first base applied first; it keeps distances and orientation and is undone by its inverse. The vertex of the object lies at `translation` whenever Translatable is the last of the bases, and not necessarily otherwise.", "quantifier": "for all non-empty lists of distinct mixins as bases, all translations and angles, all points", "why_tests_cant": "tests check the type of the transformation of classes with a single mixin; the cooperative super() chain depends on python's method resolution order for every combination", "anchors": ["optika/mixins.py:166-248"]}
{"id": "C84", "title": "Drawings and DXF files of a system", "statement": "`SequentialSystem.to_dxf` writes exactly the outlines of the apertures and mechanical apertures of all surfaces, lifted to the sag of their surface and placed where the surface is in the room, and one polyline for each ray that all apertures let through, whose vertices lie on the drawn surfaces; `plot` shows the same, with all rays if `plot_rays_vignetted` is set and none if `plot_rays` is not; a transformation moves every vertex and nothing else; and arrays of rays can be written to a file of their own. (The last part is refuted: `to_dxf` of an array of rays always raises an error because it never passes `axis`.)", "quantifier": "for all systems of rigidly placed surfaces, all bundles of rays, all rigid transformations of the drawing", "why_tests_cant": "tests only check that a file is written", "anchors": ["optika/systems/_sequential.py:1584-1661", "optika/systems/_sequential.py:1793-1823", "optika/surfaces.py:200-279", "optika/apertures/_apertures.py:132-217", "optika/rays/_ray_vectors.py:188-236", "optika/mixins.py:251-266"]}
{"id": "C87", "title": "Printed objects are laid out as their tree", "statement": "The text of a Printable (`to_string`, `repr`) is the layout of its tree of values: every field and every list item on lines of its own, four columns further right than what contains it, ended by a comma, the closing bracket under the line of the opening one, the lines of an array one under the other; a `prefix` moves all lines but the first to the right by its length and changes nothing else. (Refuted for arrays of several lines inside a list, which are printed four columns too far left, and for objects inside tuples or dictionaries.)", "quantifier": "for all trees of objects, lists, arrays and other values of any depth, all prefixes", "why_tests_cant": "tests only check that the result is a string", "anchors": ["optika/mixins.py:40-125"]}
{"id": "C88", "title": "Vacuum, mirrors and glass", "statement": "In vacuum, a surface of `Vacuum` without rulings changes nothing about a ray but its position and its vignetting; a `Mirror` reflects it and leaves it in its medium (wavelength, index and attenuation unchanged, intensity reduced by the path only); through any sequence of such surfaces the wavelength, the medium and the intensity are kept. The index of `Glass` is the positive root of the documented Sellmeier equation wherever no wavelength is a resonance, decreases with the wavelength between resonances, and for `n_bk7` and `f2` gives the documented index and Abbe number to all the given digits, the flint having the larger index throughout the visible.", "quantifier": "for all sags, apertures, rays, sequences of surfaces, Sellmeier coefficients and wavelengths", "why_tests_cant": "tests check the type and shape of the results for a few wavelengths", "anchors": ["optika/materials/_materials.py:81-174", "optika/materials/_materials.py:308-455", "optika/surfaces.py:123-198"]}
{"id": "C86", "title": "A solved stop ray joins the borders of the two stops", "statement": "A stop ray starts from its border point of the first stop (at that point of the surface with a unit direction for a border with a length; from a point of the surface along that direction for an angular border) and, sent through the surfaces up to the last stop, arrives at its border point there within 1e-9 of the larger of the border's extent and one unit. Every ray that does so can be the answer of the solver.", "quantifier": "all systems, all placements of the stops, all border points, all root finders whose answers are roots within the tolerance", "why_tests_cant": "tests run a few systems and check shapes; whether the solved position lies on the first stop depends on the placement of the stop, which no test system with an angular first stop varies", "anchors": ["optika/systems/_sequential.py:364-394", "optika/systems/_sequential.py:432-621"]}
{"id": "C89", "title": "Moving the whole system moves its stop rays", "statement": "When all surfaces of a system are moved by one rigid motion, the stop rays of the moved system are the moved stop rays: a ray that the solver can find between two stops is found, moved, between the moved stops.", "quantifier": "all systems, all rigid motions, all border points", "why_tests_cant": "the set of placements is infinite and the failure needs a rotation that brings the rays into the plane in which the solver varies them", "anchors": ["optika/systems/_sequential.py:364-394", "optika/systems/_sequential.py:461-621"]}
{"id": "C90", "title": "Without optical power between the stops the first guess is exact", "statement": "If only planes that let rays pass lie between the two stops, the ray from which the solver starts already joins the border points, whatever the placement of the stops, so a root finder that takes no step returns the straight line between them.", "quantifier": "all placements of the stops and of the planes between them, all border points", "why_tests_cant": "the root finder repairs a wrong guess whenever it converges, so a test of the result does not see it", "anchors": ["optika/systems/_sequential.py:343-361", "optika/systems/_sequential.py:495-546"]}
{"id": "C91", "title": "The corners of field and pupil are the normalized coordinates -1 and 1", "statement": "After any sequence of calls and assignments, field_min, field_max, pupil_min and pupil_max are the physical coordinates to which a ray trace of the current grid maps the normalized coordinates (-1, -1) and (1, 1), and they bound the smallest box around the stop rays.", "quantifier": "all systems, all stop rays, all sequences of reading a corner, assigning grid_input and deleting the cached stop rays", "why_tests_cant": "a test reads the corners of a freshly made system; whether the cached stop rays are still those of the current grid depends on the history of the object", "anchors": ["optika/systems/_sequential.py:680-746", "optika/systems/_sequential.py:748-789"]}
{"id": "C92", "title": "Reported stop rays meet the borders of both stops", "statement": "A ray of rayfunction_stops, traced forward from the object through the whole system, passes the first stop exactly at the border point for which it was solved and the last stop within the tolerance of the root finder of its border point; for angular borders it passes along that line. (Refuted for a refracting surface before the first stop: the reported ray misses its border by more than half a unit.)", "quantifier": "every system of planes and plane mirrors in vacuum up to the last stop, every pattern of stops without a third between the two, every border point, wavelength, system transformation and every root finder whose answers are roots within the tolerance", "why_tests_cant": "The tests check shapes and finiteness for one telescope; whether the ray that is reported comes back to both borders depends on the composition of solving, tracing back, turning round and tracing forward, over all systems.", "anchors": ["optika/systems/_sequential.py:396-623", "optika/systems/_sequential.py:625-680", "optika/propagators.py:19-73"]}
{"id": "C93", "title": "Arithmetic on rays is rigid motion, and unsupported arithmetic raises an error", "statement": "A matrix times a ray maps position and direction and nothing else, a ray times a matrix by the transpose, a vector added on either side moves the position only; matrix then vector is the transformation used by every surface, and is undone by the opposite vector and the transpose; an operation between a ray and a vector or matrix that nobody implements raises a TypeError. (Refuted in its last part: subtracting a vector from a ray, or multiplying a ray with a vector, evaluates to None.)", "quantifier": "every ray, vector, matrix and universal function, every named_arrays behaviour that leaves operations between rays and vectors or matrices to the operands", "why_tests_cant": "The tests apply two transformations to a few rays; nothing looks at the operations that are declined, and the dispatch has many paths.", "anchors": ["optika/rays/_ray_vectors.py:105-140", "optika/rays/_ray_vectors.py:142-166", "optika/rays/_ray_vectors.py:168-186"]}
{"id": "C94", "title": "A spot diagram shows the unvignetted rays around their centroid", "statement": "For each wavelength and field position, spot_diagram draws one point per unvignetted ray; differences between points are differences of positions on the sensor; and the points are centred on the origin, so that every ray that reaches the sensor is shown and the diagram shows the shape of the spot rather than its place. (Refuted: the centre is the mean over all rays, so a vignetted ray moves the spot and a vignetted ray that is NaN blanks it.)", "quantifier": "every bundle of rays, vignetted or not, with NaN positions or without", "why_tests_cant": "The test draws one diagram of one system and looks at the types of the result; what is drawn for vignetted or lost rays is never looked at.", "anchors": ["optika/systems/_sequential.py:1662-1744"]}
{"id": "C95", "title": "Fits reduce the rays along the axes of the grid they were traced on", "statement": "The wavelength, field and pupil axes that _rayfunction_and_axes returns with its rays are axes of the grid on which these rays were traced, are the axes of the requested grid that do not belong to the system, and account for every axis along which the rays vary; axes that the system declares are respected; an error is raised only if there are no such axes. (Refuted after assigning grid_input, even when rayfunction_default is deleted as documented; refuted for declared axes when a grid is given.)", "quantifier": "every system shape, declared axes, grid shapes, arguments and every earlier sequence of fits, assignments and deletions of cached rays", "why_tests_cant": "The tests fit one system with one grid; which cached rays are combined with which axes depends on the history, and the axes of a denormalised grid on the axes of the stop rays.", "anchors": ["optika/systems/_sequential.py:1514-1582", "optika/systems/_sequential.py:262-293", "optika/systems/_sequential.py:748-787"]}
{"id": "C96", "title": "A ray trace does not depend on the unit of length", "statement": "Expressing every length of a system and of its rays in another unit (radii, focal lengths, positions, apertures, groove spacings and depths, layer thicknesses, interface widths, wavelengths; attenuation per length) gives the same trace in that unit: positions and wavelengths times the factor, the same directions, intensities, indices and vignetting, and the same tolerance of the stop rays. (Refuted: ConicSag compares its quadratic coefficient, an inverse length, with 1e-12 of whatever unit the radius has; the tolerance of the stop solver is at least 1e-9 of whatever unit the aperture has.)", "quantifier": "every list of surfaces, every ray, every positive factor between the units", "why_tests_cant": "The tests use one unit per quantity, and pairs of units differ on thresholds only at magnitudes the tests do not reach.", "anchors": ["optika/surfaces.py:123-198", "optika/sags/_conic.py:130-162", "optika/sags/_spherical.py:148-191", "optika/materials/_multilayers.py:772-989", "optika/rulings/_rulings.py:24-204", "optika/systems/_sequential.py:559-566"]}
{"id": "C97", "title": "A ray trace has the symmetries of the surfaces", "statement": "If a rotation about, or a reflection in a plane through, the optical axis leaves every surface of a list unchanged, then it takes the trace of a ray to the trace of the image of the ray, with the same intensity and vignetting; so a ray in a plane of symmetry never leaves it. Planes, spheres, conics, paraboloids and circular apertures have every such symmetry, cylinders, toroids, ellipses and rectangles the two reflections, and gratings the reflection in a plane along their groove vector. (Refuted for the efficiencies of grooved profiles: the incidence angle is computed by subtracting a scalar from every component of the direction.)", "quantifier": "every orthogonal map, every list of surfaces that it leaves unchanged, every ray", "why_tests_cant": "The tests compare single rays with single numbers; the cosine of the grooves is only tested for rays in the plane of dispersion, where the asymmetry vanishes.", "anchors": ["optika/surfaces.py:123-198", "optika/sags/_conic.py:50-170", "optika/sags/_parabolic.py:40-158", "optika/sags/_cylindrical.py:93-160", "optika/sags/_toroidal.py:59-88", "optika/materials/_snells_law.py:303-366", "optika/rulings/_rulings.py:170-204", "optika/rulings/_rulings.py:588-614", "optika/rulings/_spacing.py:44-328", "optika/apertures/_apertures.py:292-314"]}
{"id": "C98", "title": "The orders of a grating share no more than the light that arrives", "statement": "For every set of rulings with an analytic groove profile, the efficiencies of any finite set of distinct diffraction orders, computed for the same ray, add up to at most one; so the rays leaving a grating surface of a perfect material in these orders carry together no more than the ray that arrives. (Refuted for sinusoidal grooves, whose efficiency is an amplitude instead of a power, and for surfaces in which the groove vector is not tangent, such as a sphere with constant spacing, because every order then computes its efficiency at another incidence angle.)", "quantifier": "every groove profile, depth, duty cycle, wavelength, spacing, ray, surface and every finite list of distinct orders", "why_tests_cant": "The tests look at one order at a time; the sum over arbitrarily many orders is Bessel's inequality for the groove profile.", "anchors": ["optika/rulings/_rulings.py:441-457", "optika/rulings/_rulings.py:588-614", "optika/rulings/_rulings.py:741-758", "optika/rulings/_rulings.py:888-911", "optika/rulings/_rulings.py:1048-1073", "optika/surfaces.py:144-193", "optika/rulings/_spacing.py:44-75"]}
{"id": "C99", "title": "A coating changes only how much light goes on", "statement": "A ray that meets a surface with a multilayer film goes on from the intercept in its direction, and one that meets a multilayer mirror is reflected specularly; wavelength, index of refraction and attenuation stay what they were, and the intensity is what is left after the way to the surface times the transmissivity (reflectivity) of the stack, averaged over the two polarizations, for the cosine of the angle of incidence and the complex index of the medium whose wavenumber k satisfies attenuation = 4 pi k / wavelength. A mirror with a measured reflectivity does the same with the measured value at the wavelengths of the measurement.", "quantifier": "every stack, substrate, sag, aperture and ray with a defined direction, intercept, normal and efficiency", "why_tests_cant": "The tests of coatings check types and shapes of the results for a handful of rays.", "anchors": ["optika/materials/_multilayers.py:795-805", "optika/materials/_multilayers.py:855-868", "optika/materials/_multilayers.py:924-937", "optika/surfaces.py:144-193", "optika/materials/_materials.py:176-305"]}
{"id": "C100", "title": "A layer of the medium that surrounds it is not there", "statement": "A layer of the medium in which the light travels, on a substrate of the same medium, reflects nothing and transmits of the light exactly what a ray keeps on the way through the layer, exp(-attenuation * length). (Refuted at an angle: the multilayer code uses the depth times the cosine, a ray travels the depth divided by the cosine.)", "quantifier": "every wavelength, complex index, thickness, polarization and angle of incidence short of the opacity threshold", "why_tests_cant": "Two modules compute the same attenuation by different formulas, and no test compares them.", "anchors": ["optika/materials/_multilayers.py:33-237", "optika/materials/_multilayers.py:240-532", "optika/materials/_multilayers.py:855-858", "optika/sags/_abc.py:109-122"]}
{"id": "C101", "title": "The transfer matrix of a slab is that of the layer", "statement": "matrices.transfer of a slab in vacuum is the matrix that Layer.transfer gives for the same layer followed by vacuum. (Refuted beyond the critical angle, where matrices.transfer is NaN, and for absorbing slabs at an angle, because it refracts with the real part of the index only.)", "quantifier": "every wavelength, unit direction and normal, polarization, thickness and index", "why_tests_cant": "The test of matrices.transfer only checks the type of the result.", "anchors": ["optika/materials/matrices.py:249-356", "optika/materials/_layers.py:229-277", "optika/materials/_snells_law.py:13-38", "optika/materials/_snells_law.py:303-366"]}
{"id": "C102", "title": "Pair production above the tables follows the documented laws", "statement": "For photons above the last energy of the tables of Ramanathan et al. the energy of an electron-hole pair is 1.7 E_g + 0.084 A + 1.3 eV, the yield is the photon energy over it, and the Fano factor is -0.028 E_g + 0.0015 A + 0.14, where A = 5.2 eV^2 and E_g = 1.192 eV - a T^2/(T + b) falls with the temperature. (Refuted in two points: the code starts the band gap at 1.1692 eV, not at the documented 1.192 eV, and the Fano factor is interpolated between its values at 0, 100 and 300 K while the pair energy is that of the temperature itself.)", "quantifier": "every table, wavelength above it and temperature from 0 to 300 K", "why_tests_cant": "The tests check signs and units of the results for a few energies; no test compares with the documented constants.", "anchors": ["optika/sensors/materials/_ramanathan_2020/_ramanathan_2020.py:87-144", "optika/sensors/materials/_ramanathan_2020/_ramanathan_2020.py:147-253", "optika/sensors/materials/_ramanathan_2020/_ramanathan_2020.py:256-418"]}
{"id": "C103", "title": "The tables of pair-production probabilities that the package contains", "statement": "The three tables that the package contains have increasing energies up to 50 eV, one set of pair numbers and, from 1.2 eV on, rows of probabilities that add up to one, and so have the distributions that the Monte Carlo method interpolates from them. With them the quantum yield and the Fano factor are defined for every photon, the pairs never take more energy than the photon has, the tables join the law used beyond them at 50 eV, and the Monte Carlo method makes on average the number of pairs of the closed form. (Refuted in three points: the Fano factor is not a number for photons that make no pairs; the two methods interpolate different quantities, so that they differ, by at most 1.1 per mille, between the temperatures of the tables; and for photons below the band gap, whose probabilities are all zero, the Monte Carlo method makes twenty pairs and the closed form none.)", "quantifier": "every photon energy and temperature from 0 to 300 K, for the tables as they are in the package", "why_tests_cant": "The tests evaluate a few wavelengths in the visible and ultraviolet at one temperature; none looks at the tables, at the end of their range, or at photons below the band gap.", "anchors": ["optika/sensors/materials/_ramanathan_2020/_ramanathan_2020.py:27-84", "optika/sensors/materials/_ramanathan_2020/_ramanathan_2020.py:147-418", "optika/sensors/materials/_ramanathan_2020/_ramanathan_2020.py:421-465", "optika/sensors/materials/_ramanathan_2020/_ramanathan_2020.py:595-663", "optika/sensors/materials/_ramanathan_2020/_ramanathan_2020.py:762-876", "optika/sensors/materials/_ramanathan_2020/p0K.dat:1-979", "optika/sensors/materials/_ramanathan_2020/p100K.dat:1-979", "optika/sensors/materials/_ramanathan_2020/p300K.dat:1-979"]}
{"id": "C104", "title": "A Monte Carlo exposure always finishes", "statement": "For every grid of pixels of a silicon sensor, every number of photons, wavelength and temperature from 0 to 300 K, and whatever the generators draw, the Monte Carlo computation of the electrons finishes without an error. (Refuted: the number of pairs of a photon above 50 eV is rounded from a normal draw without a lower bound, and a negative number of trials is an error of the binomial generator. This is the only way to fail, and takes a draw more than ten standard deviations below the mean.)", "quantifier": "every slice of pixels with a collection efficiency between 0 and 1, with the tables of the package, and every outcome of the draws", "why_tests_cant": "A test draws a few thousand photons; the failing draw is rarer than that by many orders of magnitude, and that there is no other cause of failure cannot be seen from runs that succeed.", "anchors": ["optika/sensors/materials/_ramanathan_2020/_ramanathan_2020.py:595-691", "optika/sensors/materials/_ramanathan_2020/_ramanathan_2020.py:762-876"]}
{"id": "C105", "title": "Silicon sensors have an efficiency at every wavelength with the optical constants of the package", "statement": "The tables of optical constants of silicon and its oxide that the package contains give exactly one complex index at every wavelength, with a positive real part and no gain, which depends continuously on the wavelength; and every smooth back-illuminated silicon sensor made of them has, for every wavelength and angle of incidence, an effective quantum efficiency between zero and one and a finite expected signal. (Refuted: the table of silicon has an extinction coefficient of exactly zero from 11199.6 to 25001 Angstrom, where the efficiency, the signal and the width of the charge diffusion are NaN, although such photons make no electrons; and the table of Palik has two indices at 619.9 Angstrom.)", "quantifier": "every wavelength, angle of incidence, ambient index, thickness and collection efficiency of the back surface; all rows of the three tables", "why_tests_cant": "A test evaluates a few wavelengths in the ultraviolet; whether any of the 3000 rows or the lines between them makes a division by zero or a jump is not visible there.", "anchors": ["optika/chemicals/_chemicals.py:101-178", "optika/chemicals/nk/Si.nk", "optika/chemicals/nk/SiO2_llnl_cxro_rodriguez.nk", "optika/chemicals/nk/Si_palik.nk", "optika/sensors/materials/_materials.py:491-497", "optika/sensors/materials/_materials.py:1660-1666"]}
{"id": "C106", "title": "All orders of a lossless grating together get all the light", "statement": "For every set of rulings with square, sawtooth, triangular or rectangular grooves and every ray for which all diffraction orders have an efficiency, the efficiencies of the orders -N..N tend to one as N grows: nothing is absorbed by the grooves. With square and rectangular grooves the orders beyond N get at most 1/N. (Refuted for triangular grooves: with grooves half a wavelength deep all orders together get less than a quarter of the light.)", "quantifier": "every groove depth, duty cycle, wavelength, spacing and ray; all (infinitely many) orders", "why_tests_cant": "The claim is about the limit of an infinite sum; tests look at single orders.", "anchors": ["optika/rulings/_rulings.py:588-614", "optika/rulings/_rulings.py:741-758", "optika/rulings/_rulings.py:888-911", "optika/rulings/_rulings.py:1048-1073"]}
{"id": "C107", "title": "Fitted, ready-made and default sensors", "statement": "The sensor made by fit_eqe is physical and no sensor with the same substrate agrees better with the measurements, at whatever temperature it is used; every call of a ready-made sensor gives a new object with the requested temperature that is otherwise what the present code computes; a sensor made with the documented defaults has a signal, and a signal that does not depend on the depletion region needs no depletion model.", "quantifier": "all measurements, minimisers that find a least value, temperatures, histories of calls, changes of objects and removals of the cache, and versions of the program", "why_tests_cant": "tests run with one version of the code and one state of the cache in the home directory, and do not change objects between calls", "anchors": ["optika/sensors/materials/_materials.py:2246-2377", "optika/sensors/materials/_materials.py:2093-2139", "optika/_caching.py:8-11", "optika/sensors/materials/_e2v_ccd97/_e2v_ccd97.py:14-49", "optika/sensors/materials/_e2v_ccd97/_e2v_ccd97.py:219-221"]}
{"id": "C108", "title": "The resolution target", "statement": "airforce gives an image of the requested size whose values go linearly from 0 for the brightest to 1 for a black pixel, lowest row first; the result depends on the arguments only, also when several programs make targets in one directory at the same time, and no file of the caller is changed.", "quantifier": "all rendered pictures, contents of the working directory, numbers of programs and interleavings of their steps", "why_tests_cant": "the test makes one target in one process and looks at neither the values nor the files", "anchors": ["optika/targets/_airforce/_airforce.py:50-77"]}
{"id": "C109", "title": "Conic surfaces image their foci sharply", "statement": "Every ray through one focus of a conic mirror (ellipsoid, hyperboloid, sphere) that the code places on the mirror leaves it on a line through the other focus, by equally long ways on an ellipsoid; a paraboloid sends all rays parallel to its axis through its focus and the rays through its focus out parallel to the axis; chains of conic mirrors that share foci keep this; a refracting conic with conic constant -(n1/n2)^2 focuses parallel rays and with -(n2/n1)^2 makes the rays of its focus parallel; a refracting sphere images its aplanatic points onto each other.  This holds wherever the surface is placed and for the three classes with that shape.", "quantifier": "all radii, eccentricities, indices, rigid placements, numbers of mirrors, rays on the surface", "why_tests_cant": "a test traces some rays to a given accuracy; it cannot tell a sharp image from one with a small aberration, nor try all eccentricities and rays", "anchors": ["optika/sags/_conic.py:31-170", "optika/sags/_parabolic.py:32-158", "optika/sags/_spherical.py:100-191", "optika/surfaces.py:123-198", "optika/materials/_snells_law.py:271-366", "optika/propagators.py:19-41"]}
{"id": "C110", "title": "What a ray keeps in a symmetric system", "statement": "In a sequence of planes, spheres, conics, cylinders and toroids, reflecting or refracting and placed anywhere, that are all symmetric about one line, the index of refraction times the moment of the ray about that line (its skewness) is the same behind the system as before it; in a sequence unchanged by shifts along a direction the index times the component of the ray along it is; through parallel planes the index times the tangential direction is and the side changes with every mirror, so a ray that comes back into its first medium is parallel to what it was (even number of mirrors) or to its mirror image (odd); flat mirrors make one mirror image after the other and three perpendicular ones send every ray back.", "quantifier": "all sequences of any length, placements, radii, conic constants, indices, rays that get through", "why_tests_cant": "these are conservation laws over sequences of any length and all placements; a test traces a few systems", "anchors": ["optika/surfaces.py:123-198", "optika/propagators.py:19-41", "optika/sags/_flat.py:41-64", "optika/sags/_spherical.py:125-191", "optika/sags/_conic.py:50-170", "optika/sags/_cylindrical.py:93-160", "optika/sags/_toroidal.py:59-88", "optika/materials/_snells_law.py:271-366"]}
{"id": "C111", "title": "Fitted depletion regions and the ready-made sensors they are used in", "statement": "For measured mean charge captures at wavelengths that silicon absorbs there is a thickness of the depletion region between zero and the substrate with the least root-mean-square difference; fit_mcc returns one if the minimiser finds a least value; it is not thicker (thinner) than any for which all predictions are too large (small), and leaves a field-free region of at least f if all measurements are below (1 - f/pixel)^2. With the measurements that the package contains the depletion regions of e2v_ccd64_thick and e2v_ccd64_thin are at most 12.1 and 6.2 micrometers, which is less than the substrates (14, 16 and 7 micrometers) of the sensors e2v_ccd97, e2v_ccd203 and tektronix_tk512cb that use them, so the width of their charge diffusion is a positive number at every wavelength that silicon absorbs.", "quantifier": "all substrates, pixels, lists of measurements, minimisers, wavelengths", "why_tests_cant": "a test runs one minimiser on one version of scipy; the width is NaN for all wavelengths if a fit returns more than the substrate, which only a bound on all minimisers excludes", "anchors": ["optika/sensors/materials/depletion/_depletion.py:59-145", "optika/sensors/materials/depletion/_e2v_ccd64_thick/_e2v_ccd64_thick.py:87-107", "optika/sensors/materials/depletion/_e2v_ccd64_thin/_e2v_ccd64_thin.py:87-107", "optika/sensors/materials/_diffusion.py:13-257", "optika/sensors/materials/_materials.py:1772-1789"]}
{"id": "C112", "title": "Rays take paths of stationary optical length", "statement": "Let a ray go through a sequence of surfaces (planes, spheres, conics, paraboloids, cylinders, toroids; mirrors or lenses, no rulings) placed anywhere, each next point ahead of the last. If all surfaces are planes and the indices positive, its optical length is less than that of every other broken line through one point of each plane in turn with the same ends. For all shapes, if the points on the surfaces are moved along any differentiable curves within the surfaces, the derivative of the optical length is zero if the ends are fixed (Fermat) and n' d'.v' - n d.v if they move with velocities v and v'. So a ray at right angles to the curve of starting points is at right angles to every curve of ends of equal optical length (Malus and Dupin).", "quantifier": "all sequences of any length, shapes, placements, indices, rays, and all curves within the surfaces", "why_tests_cant": "it compares the traced path to infinitely many neighbouring paths, in systems of any length", "anchors": ["optika/surfaces.py:123-198", "optika/propagators.py:19-77", "optika/sags/_flat.py:41-64", "optika/sags/_spherical.py:125-191", "optika/sags/_conic.py:50-170", "optika/sags/_parabolic.py:40-158", "optika/sags/_cylindrical.py:93-160", "optika/sags/_toroidal.py:59-88", "optika/materials/_snells_law.py:271-366"]}
{"id": "C113", "title": "Rays over gratings take paths of stationary optical length", "statement": "For a sequence of surfaces of any shape with and without rulings, placed anywhere, add to the optical length of a path, for each grating, the number of the groove at its point times the diffraction order times the wavelength of the ray (with the sign of the side it comes from). Moving the points of the traced path along curves within the surfaces does not change this sum to first order if the ends are fixed; if they move, it changes by n' d'.v' - n d.v, so rays stay at right angles to wavefronts. Each ruling spacing of the package numbers grooves: planes at a constant distance, the fringes of the two recording beams for holographic rulings, and the integral of one over the polynomial for polynomial spacings.", "quantifier": "all sequences of any length, shapes, placements, indices, orders, wavelengths, spacings, and all curves within the surfaces", "why_tests_cant": "compares the traced path with infinitely many neighbouring paths; that a spacing belongs to some pattern of grooves at all is a statement about all functions on the surface", "anchors": ["optika/rulings/_rulings.py:24-204", "optika/rulings/_spacing.py:44-328", "optika/surfaces.py:123-198", "optika/propagators.py:19-77", "optika/materials/_snells_law.py:271-366"]}
{"id": "C114", "title": "Coatings obey the classical formulas", "statement": "For a stack of any number of transparent plates, any angle below the critical ones and both polarizations, the reflected and transmitted fractions are those of the product of the characteristic matrices of the plates. Hence: plates of whole half waves can be left out; a quarter wave reflects nothing exactly if its index (tilted) is the geometric mean of the media on both sides; N pairs of quarter waves reflect ((q0 - q x^2N)/(q0 + q x^2N))^2, which comes as close to one as desired if the two plates differ; a bare surface reflects by Fresnel's laws of sines and tangents, no p-polarized light exactly at Brewster's angle, and never more p- than s-polarized light. Beyond the critical angle of the substrate every lossless coating reflects everything. At normal incidence a bare absorbing substrate reflects ((n0-n)^2+k^2)/((n0+n)^2+k^2).", "quantifier": "all numbers of layers and periods, thicknesses, indices, angles, wavelengths", "why_tests_cant": "tests compare a few coatings with tables; the formulas hold for every number of periods and at exact angles and thicknesses that a sample never hits", "anchors": ["optika/materials/_multilayers.py:33-532", "optika/materials/matrices.py:20-246", "optika/materials/_layers.py:229-277", "optika/materials/_layers.py:473-499", "optika/materials/_layers.py:611-645", "optika/materials/_snells_law.py:13-38"]}
{"id": "C115", "title": "A coating transmits the same from both sides", "statement": "For any sequence of layers between two transparent media, light of either polarization that comes from the other side along the refracted ray, through the same layers in the reverse order, is transmitted to the same fraction, even if layers absorb; and it is reflected to the same fraction if none does.", "quantifier": "all numbers of layers, thicknesses, complex indices, angles, wavelengths, both polarizations", "why_tests_cant": "relates two computations with different matrices for every stack; a sample of symmetric or smooth stacks does not show that the reduction of the reflection at rough interfaces breaks it", "anchors": ["optika/materials/_multilayers.py:33-532", "optika/materials/matrices.py:20-246", "optika/materials/_layers.py:229-277", "optika/materials/_layers.py:473-499", "optika/materials/profiles.py:103-126"]}
{"id": "C116", "title": "An absorbing chemical lets light in at its surface", "statement": "The bare smooth surface of a chemical of the package that absorbs at a wavelength reflects less than everything and takes in the rest, for every angle of incidence from every transparent medium and both polarizations. (Refuted for aluminium arsenide, whose table has an index of refraction of exactly zero from 3935.87 to 4350.18 Angstrom.)", "quantifier": "all wavelengths, also between the rows, all angles, ambient indices, polarizations, and all tables with positive rows", "why_tests_cant": "holds for a continuum of wavelengths and angles; the rows with zero are 13 of 241 in 2 of 521 files", "anchors": ["optika/chemicals/_chemicals.py:101-153", "optika/chemicals/nk/AlAs.nk", "optika/chemicals/nk/AlAs_palik.nk", "optika/materials/_multilayers.py:33-532", "optika/materials/matrices.py:20-246"]}
{"id": "C117", "title": "Near its axis a centred system obeys Gaussian optics", "statement": "A family of rays that runs along the axis, followed through any sequence of centred glass surfaces and mirrors without rulings (plane, spherical, conic, parabolic, cylindrical, in any orientation), has to first order the heights and slopes of the textbook's formulas h' = h + d w and n' w' = n w - (n' - n) c h, in both planes. So the invariant of Lagrange is conserved, a surface images a point on the screen where n'/b = n/a + (n' - n) c holds with the magnification n b / (n' a), and a thick lens has the power of the lensmaker's equation. (Refuted for paraboloids made with ConicSag, which lose rays to their vertex; the toroid's numerical search is not modelled.)", "quantifier": "all sequences of surfaces, all distances, curvatures, conic constants, indices and orientations, and all families of rays", "why_tests_cant": "the statement is about derivatives of the traced rays at the axis, for every sequence of surfaces; sampled rays show neither", "anchors": ["optika/surfaces.py:123-198", "optika/propagators.py:19-41", "optika/materials/_snells_law.py:10-121", "optika/sags/_spherical.py:116-191", "optika/sags/_conic.py:77-170", "optika/sags/_parabolic.py:40-158", "optika/sags/_cylindrical.py:80-160", "optika/sags/_flat.py:31-64"]}
{"id": "C118", "title": "Every pixel of an exposure is simulated with its own parameters", "statement": "Whatever axes the arguments of electrons_measured have, in whatever order and wherever they are stretched, the electrons it reports at a place are those that land there in a simulation of the grid of pixels through that place in which each pixel has the photons, wavelength, absorption, thicknesses, width, efficiency, probabilities and numbers of pairs that the arguments have at its place. Places that differ in an axis other than the two of the pixels are simulated independently, and without the two axes every place is a sensor of one pixel.", "quantifier": "all arguments with any number of axes of any sizes, all names of the pixel axes, all draws", "why_tests_cant": "the arrays are flattened and cut again by position; a mistake shows only for particular orders and sizes of axes, and the results are random", "anchors": ["optika/sensors/materials/_ramanathan_2020/_ramanathan_2020.py:595-690", "optika/sensors/materials/_ramanathan_2020/_ramanathan_2020.py:693-759", "optika/sensors/materials/_ramanathan_2020/_ramanathan_2020.py:785-802"]}
{"id": "C119", "title": "The image of two scenes together is the sum of their images", "statement": "Imaged by the same rays without noise, a weighted sum of two scenes gives in every pixel the weighted sum of their photons and of their electrons. (Refuted: a pixel of a silicon sensor is exposed at one mean cosine, so light that arrives at different angles gives fewer electrons together than one by one. The photons, the electrons of an ideal sensor and the scaling of one scene by a positive factor obey the claim; for a silicon sensor the electrons of the sum are never more, and equal only if the back surface collects everything, if one of the scenes leaves the pixel dark or if both are absorbed equally fast.)", "quantifier": "all systems of surfaces that treat rays alike whatever their brightness, all grids, rays, scenes, sensors and pixels", "why_tests_cant": "the loss depends on the angles and absorption in a pixel; for a narrow cone it is below any tolerance a test would allow", "anchors": ["optika/systems/_sequential.py:1087-1206", "optika/sensors/_sensors.py:80-180", "optika/sensors/_sensors.py:184-300", "optika/sensors/_sensors.py:374-428"]}
{"id": "C120", "title": "The integrated image is the sum of the images of the wavelength bins", "statement": "With integrate=True and without noise, image gives in every pixel the photons and the electrons that integrate=False gives in all wavelength bins of that pixel together. (Refuted: the whole range is one bin, exposed at its central wavelength, so a silicon sensor gives light elsewhere in the range the wrong number of electrons, even if it collects all of them. The photons and the electrons of an ideal sensor obey the claim, NaN included; for a silicon sensor the difference is exactly the sum over the bins of the photons times the difference of the electrons per photon.)", "quantifier": "all systems, increasing wavelengths, grids, rays, scenes, sensors and pixels", "why_tests_cant": "tests check the shape and the sign of the image; the error depends on the spectrum and is a systematic factor that no check of one setting compares", "anchors": ["optika/systems/_sequential.py:1190-1206", "optika/sensors/_sensors.py:80-180", "optika/sensors/_sensors.py:184-300", "optika/sensors/_sensors.py:374-428"]}
{"id": "C121", "title": "Every measured pixel has an uncertainty", "statement": "For every pixel of an image measured with noise, whatever was drawn, uncertainty is a number. (Refuted: it takes the square root of the measured electrons, which read noise makes negative. Exactly the negative pixels have none; half of the dark pixels are among them, and with read noise no signal is too bright for it to happen. Without read noise the claim holds.)", "quantifier": "all sensors, wavelengths, directions, signals and draws of the read noise", "why_tests_cant": "tests give uncertainty images of positive electrons; NaN appears for some draws of a random image only", "anchors": ["optika/sensors/_sensors.py:236-250", "optika/sensors/_sensors.py:317-372", "optika/sensors/materials/_materials.py:1635-1643", "optika/sensors/materials/_materials.py:2207-2229"]}
{"id": "C122", "title": "Plane, spherical, parabolic and cylindrical gratings obey the focal equations, and spherical ones image their Rowland circle onto itself", "statement": "Let a plane, spherical, parabolic or cylindrical mirror with the curvatures cx across and cy along the grooves carry straight grooves at the distance P(x), and let light from a point at the distance rho fall on its vertex, across the grooves, under the angle alpha and be diffracted, in any order and wavelength, under the angle beta. Then a point at the distance k on the diffracted ray is where the neighbouring rays across the grooves meet it to first order exactly if cos^2(alpha)/rho + cos^2(beta)/k - (cos(alpha) + cos(beta)) cx = (sin(beta) - sin(alpha)) P'(0)/P(0), and where those along the grooves meet it exactly if 1/rho + 1/k - (cos(alpha) + cos(beta)) cy = 0. On a sphere with grooves at a constant distance, light from a point of the Rowland circle (the circle across the grooves that touches the sphere in the vertex and has its radius as diameter) that spreads across the grooves comes together on the Rowland circle and nowhere else on the diffracted ray; the light along the grooves comes together there only if sin^2(alpha)/rho + sin^2(beta)/k = 0. On a plane with grooves at a constant distance the virtual image along the grooves is as far as the source and the one across them (cos(beta)/cos(alpha))^2 times as far.", "quantifier": "all planes, spheres, paraboloids and cylinders with radii of either sign, groove distances, orders, wavelengths, indices of refraction, source points and differentiable families of rays around a ray across the grooves (for a paraboloid, a ray along its axis or more than 1e-5 from it)", "why_tests_cant": "the focus of a family of rays is a statement about derivatives through the intercept, the normal, the rulings and the law of refraction together; tests check single rays of single surfaces", "anchors": ["optika/surfaces.py:123-198", "optika/sags/_spherical.py:125-191", "optika/sags/_flat.py:41-64", "optika/sags/_parabolic.py:40-158", "optika/sags/_cylindrical.py:93-160", "optika/rulings/_rulings.py:24-128", "optika/rulings/_spacing.py:44-75", "optika/rulings/_spacing.py:78-128", "optika/materials/_snells_law.py:41-291"]}
