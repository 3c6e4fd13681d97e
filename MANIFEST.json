{
 "claims": [
  {
   "property": "C01",
   "status": "proved",
   "theorems": [
    "C01_snell_unit"
   ],
   "note": "Full statement: existence exactly when the tangential condition holds, unit length for any incident vector."
  },
  {
   "property": "C02",
   "status": "proved",
   "theorems": [
    "C02_snell_law",
    "C02_snell_complete",
    "C02_reflection",
    "C02_normal_sign",
    "C02_default"
   ],
   "note": "Snell's law, side, uniqueness, mirror formula, independence of the sign of the normal."
  },
  {
   "property": "C03",
   "status": "proved",
   "theorems": [
    "C03_reversible",
    "C03_reflection_involutive"
   ],
   "note": "Reversibility needs a non-grazing outgoing ray (strict inequality): at exact grazing the sign of zero is not defined."
  },
  {
   "property": "C04",
   "status": "proved",
   "theorems": [
    "C04_law",
    "C04_chain",
    "C04_stack",
    "C04_identity"
   ],
   "note": "All parts proved, also for the direction returned by transfer for nested and periodic stacks."
  },
  {
   "property": "C05",
   "status": "proved",
   "theorems": [
    "C05_normal"
   ],
   "note": "Every class, every interior point; tangent vectors are Coquelicot derivatives of the class's own sag."
  },
  {
   "property": "C06",
   "status": "partial",
   "theorems": [
    "C06_on_line",
    "C06_on_surface_partial",
    "C06_sphere_refuted",
    "C06_conic_refuted",
    "C06_parabola_refuted",
    "C06_cylinder_refuted"
   ],
   "note": "On the line always; on the quadric for regular rays. False otherwise: sphere with u_z = 0, conic and parabola below their thresholds, cylinder missed by the ray."
  },
  {
   "property": "C07",
   "status": "proved",
   "theorems": [
    "C07_vertex_sheet",
    "C07_nearest",
    "C07_complete"
   ],
   "note": "Full statement outside the threshold (a = 0 exactly is included)."
  },
  {
   "property": "C08",
   "status": "proved",
   "theorems": [
    "C08_unique",
    "C08_hemisphere"
   ],
   "note": "Full statement, and the stronger one that any vertex-hemisphere intersection is enough."
  },
  {
   "property": "C09",
   "status": "partial",
   "theorems": [
    "C09_sag_agree",
    "C09_normal_agree",
    "C09_sphere_partial",
    "C09_parabola_partial",
    "C09_sphere_refuted",
    "C09_parabola_refuted"
   ],
   "note": "Sag and normal agree everywhere. Intercepts agree when strictly nearest; refuted when the line meets the vertex sheet twice: ConicSag takes the nearest point, the dedicated classes the lower one."
  },
  {
   "property": "C10",
   "status": "partial",
   "theorems": [
    "C10_intercept_partial",
    "C10_normal_partial",
    "C10_sag_partial",
    "C10_flat_partial",
    "C10_sag_refuted",
    "C10_normal_refuted",
    "C10_flat_refuted",
    "C10_intercept_refuted"
   ],
   "note": "Intercepts move correctly (not for the toroid); sag and normal are not transformed back, so they are right only for translations / height-preserving motions. Four refutations."
  },
  {
   "property": "C11",
   "status": "partial",
   "theorems": [
    "C11_sag",
    "C11_normal",
    "C11_intercept_partial",
    "C11_sphere_refuted",
    "C11_conic_float_refuted",
    "C11_model_finite"
   ],
   "note": "Sag and normal agree; ConicSag and CylindricalSag intercepts agree in exact arithmetic; SphericalSag's intercept is NaN for every ray at its default radius; in binary64 ConicSag at its default radius loses rays (bit-exact witness)."
  },
  {
   "property": "C12",
   "status": "proved",
   "theorems": [
    "C12_beer",
    "C12_no_gain",
    "C12_split"
   ],
   "note": "Beer factor, bounds, and splitting of a straight path at any number of surfaces (induction)."
  },
  {
   "property": "C13",
   "status": "proved",
   "theorems": [
    "C13_accumulate",
    "C13_concatenate",
    "C13_single"
   ],
   "note": "Any propagators, any ray type; induction over the list."
  },
  {
   "property": "C14",
   "status": "proved",
   "theorems": [
    "C14_unvignetted",
    "C14_monotone"
   ],
   "note": "Any sequence of surfaces with rigid transformations; apertures and sags arbitrary."
  },
  {
   "property": "C15",
   "status": "proved",
   "theorems": [
    "C15_throughput",
    "C15_bounded"
   ],
   "note": "kept_product is the product over the surfaces of path transmission, material and ruling efficiency; stated when the final intensity is not NaN."
  },
  {
   "property": "C16",
   "status": "proved",
   "theorems": [
    "C16_unit_directions"
   ],
   "note": "Any sequence, rulings and materials; sag classes give unit normals by C05."
  },
  {
   "property": "C17",
   "status": "partial",
   "theorems": [
    "C17_wavelength_refuted",
    "C17_dispersion_refuted",
    "C17_wavelength_partial",
    "C17_same_index_partial"
   ],
   "note": "False as stated: surfaces.py multiplies the wavelength by n2/n1, and materials read it as the vacuum wavelength. Proved instead: wavelength/index is conserved, hence the wavelength is preserved by sequences that return to the initial index."
  },
  {
   "property": "C18",
   "status": "proved",
   "theorems": [
    "C18_rigid_motion",
    "C18_moved_ray"
   ],
   "note": "Any sequence and rigid motion; final and intermediate rays."
  },
  {
   "property": "C19",
   "status": "proved",
   "theorems": [
    "C19_direction_unit",
    "C19_angles_direction",
    "C19_direction_angles"
   ],
   "note": "Full statement; the cases parallel to the y axis are included."
  },
  {
   "property": "C20",
   "status": "proved",
   "theorems": [
    "C20_inverted",
    "C20_inactive",
    "C20_clip"
   ],
   "note": "Full statement, also for NaN positions."
  },
  {
   "property": "C21",
   "status": "partial",
   "theorems": [
    "C21_enclosed",
    "C21_planar",
    "C21_ellipse_smallest",
    "C21_rectangle_smallest",
    "C21_circle_smallest_partial",
    "C21_circle_smallest_refuted"
   ],
   "note": "Enclosure proved for every class under any rigid motion, with the polygon test of the dependency an argument assumed to accept only hull points (the crossing-number test is proved to be one). Minimality proved for ellipse and rectangle; for the circle only in x and y (refuted in z: the box is a cube)."
  },
  {
   "property": "C22",
   "status": "partial",
   "theorems": [
    "C22_sector_partial",
    "C22_full_circle_refuted",
    "C22_apex_refuted"
   ],
   "note": "Proved with strict inequalities at the edge angles; refuted at the edges (a full circle rejects the positive x axis) and at the apex."
  },
  {
   "property": "C23",
   "status": "partial",
   "theorems": [
    "C23_enclosed_partial",
    "C23_full_circle_refuted"
   ],
   "note": "Proved when the span is less than a full turn; refuted for the full circle, whose span modulo 2 pi is zero and whose box is a segment."
  },
  {
   "property": "C24",
   "status": "partial",
   "theorems": [
    "C24_count_partial",
    "C24_closed_partial",
    "C24_boundary",
    "C24_accepted_partial",
    "C24_closed_refuted",
    "C24_accepted_refuted",
    "C24_float_count_refuted"
   ],
   "note": "Count proved in exact arithmetic, refuted in binary64 (7 sides, 61 points); closed when num exceeds the number of segments, refuted for num = 4 on a rectangle; boundary proved; acceptance proved for circle, ellipse, rectangle, refuted for the sector."
  },
  {
   "property": "C25",
   "status": "proved",
   "theorems": [
    "C25_rectangle",
    "C25_regular_count",
    "C25_regular_radius",
    "C25_regular_sides",
    "C25_trapezoid"
   ],
   "note": "Full statement."
  },
  {
   "property": "C26",
   "status": "proved",
   "theorems": [
    "C26_grating_equation",
    "C26_surface",
    "C26_number",
    "C26_order_zero",
    "C26_order_zero_normal",
    "C26_flip_normal"
   ],
   "note": "Grating equation for incident_effective followed by snells_law, and for the whole surface."
  },
  {
   "property": "C27",
   "status": "partial",
   "theorems": [
    "C27_ideal",
    "C27_measured",
    "C27_measured_nodes",
    "C27_square",
    "C27_rectangular",
    "C27_triangular",
    "C27_sawtooth_partial",
    "C27_sawtooth_refuted",
    "C27_sinusoidal_partial",
    "C27_sinusoidal_refuted"
   ],
   "note": "Square, Rectangular, Triangular, Measured and ideal rulings are physical. Refuted for Sawtooth at the blaze condition (0/0) and for Sinusoidal (the Bessel function is not squared: negative in order -1 for every shallow grating; only its modulus is bounded by one)."
  },
  {
   "property": "C28",
   "status": "partial",
   "theorems": [
    "C28_in_plane_partial",
    "C28_refuted",
    "C28_cosine_refuted"
   ],
   "note": "Holds for rays in the dispersion plane. Refuted in general: the code subtracts the scalar direction @ parallel_rulings from all three components; the cosine even exceeds one."
  },
  {
   "property": "C29",
   "status": "proved",
   "theorems": [
    "C29_duty_half"
   ],
   "note": "Exact equality for every order, including NaN."
  },
  {
   "property": "C30",
   "status": "partial",
   "theorems": [
    "C30_image_partial",
    "C30_normal_refuted",
    "C30_specular_refuted"
   ],
   "note": "Proved when the recording beam arrives against the normal. Refuted when it arrives along the normal (order 1 becomes evanescent) and where the spacing is infinite."
  },
  {
   "property": "C31",
   "status": "partial",
   "theorems": [
    "C31_constant",
    "C31_polynomial",
    "C31_polynomial_constant",
    "C31_holographic_refuted"
   ],
   "note": "Polynomial and constant spacings as documented. The transformation of the holographic model is ignored by the code."
  },
  {
   "property": "C32",
   "status": "partial",
   "theorems": [
    "C32_refraction_partial",
    "C32_propagation_partial",
    "C32_split_partial",
    "C32_empty_partial",
    "C32_refuted"
   ],
   "note": "Refraction between equal media, zero thickness, splitting and the empty stack are proved; the split needs layers that are not opaque, because Layer.transfer stops at the factor 10^10. C32_refuted: splitting an opaque layer changes t from 0 to a non-zero value."
  },
  {
   "property": "C33",
   "status": "partial",
   "theorems": [
    "C33_matrix_partial",
    "C33_efficiency_partial",
    "C33_ideal_partial",
    "C33_thickness",
    "C33_refuted"
   ],
   "note": "Proved for num_periods >= 1 (for 1, the code also evaluates a second period, which has to be defined). C33_refuted: for num_periods = 0 the index behind the sequence is that of the last layer instead of the ambient one."
  },
  {
   "property": "C34",
   "status": "proved",
   "theorems": [
    "C34_lossless"
   ],
   "note": "Proved for nested and periodic stacks, also with evanescent layers; media exactly at the critical angle are excluded (the matrices divide by zero there)."
  },
  {
   "property": "C35",
   "status": "partial",
   "theorems": [
    "C35_passive_partial",
    "C35_film_partial",
    "C35_mirror_partial",
    "C35_filter_partial",
    "C35_rough_refuted",
    "C35_ambient_refuted",
    "C35_normal_refuted"
   ],
   "note": "Proved for ideal interfaces, a lossless ambient medium and rays against the normal. Refuted without each of these hypotheses: rough interface of an absorbing film (T = 20/17), absorbing ambient medium (R + T = 29/17), ray along the normal (R = 9)."
  },
  {
   "property": "C36",
   "status": "partial",
   "theorems": [
    "C36_sum_partial",
    "C36_opaque_refuted",
    "C36_index_refuted"
   ],
   "note": "Proved for stacks without opaque layers and non-negative indices; the index -1 gives minus the sum of the other absorbances. Refuted: layers below an opaque layer are counted again; index -1."
  },
  {
   "property": "C37",
   "status": "partial",
   "theorems": [
    "C37_transition",
    "C37_transform",
    "C37_reflectivity_bound",
    "C37_transmissivity_bound",
    "C37_even",
    "C37_one_partial",
    "C37_one_refuted",
    "C37_reversed",
    "C37_equal_partial",
    "C37_equal_refuted",
    "C37_sinus_refuted",
    "C37_defined_partial"
   ],
   "note": "Transition property, Fourier transform (improper integral), bound, evenness and value one proved; refuted for the linear profile at zero width or grazing incidence (NaN) and for the sinusoidal profile at one frequency (NaN), which are the only exceptions. Between equal media the factor in transmission is one (NaN for the linear profile), and the factor of a reflection is that of the passage into the reversed wave."
  },
  {
   "property": "C38",
   "status": "proved",
   "theorems": [
    "C38_surfaces",
    "C38_field_stop",
    "C38_pupil_stop"
   ],
   "note": "Full statement for every list and flag pattern."
  },
  {
   "property": "C39",
   "status": "partial",
   "theorems": [
    "C39_terminates",
    "C39_last_solved_partial",
    "C39_last_solved_refuted"
   ],
   "note": "Termination unconditional. The surface is right unless one surface is both a pupil and a field stop; refuted for that case."
  },
  {
   "property": "C40",
   "status": "proved",
   "theorems": [
    "C40_span",
    "C40_physical",
    "C40_physical_total"
   ],
   "note": "Full statement for one component; the code applies it to both components of field and pupil."
  },
  {
   "property": "C41",
   "status": "partial",
   "theorems": [
    "C41_launch_partial",
    "C41_launch_refuted",
    "C41_moved_refuted"
   ],
   "note": "Refuted for an object beside the axis (_calc_rayfunction_input applies the object transformation to coordinates that are already global) and for a system moved along its axis (the rays start in the plane z = 0 of the global coordinates, not on the object). Proved for flat objects on the axis at any distance, in systems that may be turned around the axis and moved across it."
  },
  {
   "property": "C42",
   "status": "partial",
   "theorems": [
    "C42_harmless_partial",
    "C42_explicit_partial",
    "C42_history_refuted"
   ],
   "note": "Refuted: an implicit call with an intensity changes the cached input rays. Proved for every history without such calls and without assignments to grid_input, and for explicit calls in every state."
  },
  {
   "property": "C43",
   "status": "partial",
   "theorems": [
    "C43_cleared_partial",
    "C43_documented_partial",
    "C43_documented_refuted"
   ],
   "note": "Refuted: _rayfunction_input stays cached. Proved if that cache is deleted too, or was never filled."
  },
  {
   "property": "C44",
   "status": "partial",
   "theorems": [
    "C44_system_coordinates_partial",
    "C44_global_refuted"
   ],
   "note": "Refuted: the rays are returned in the coordinates of the system. The theorem states what holds."
  },
  {
   "property": "C45",
   "status": "proved",
   "theorems": [
    "C45_inferred",
    "C45_errors"
   ],
   "note": "Full statement; the order of a Python set is an arbitrary permutation."
  },
  {
   "property": "C46",
   "status": "proved",
   "theorems": [
    "C46_illumination",
    "C46_dark",
    "C46_area",
    "C46_blocked"
   ],
   "note": "Illumination: scale factor, mean one over lit field points, NaN if there are none. Effective area bounded by the pupil area; a blocked ray can be left out."
  },
  {
   "property": "C47",
   "status": "partial",
   "theorems": [
    "C47_conserved_partial",
    "C47_one_pixel_partial",
    "C47_no_other_partial",
    "C47_refuted"
   ],
   "note": "Conservation, one pixel per ray and no other contribution proved for rays whose intensity is a number; refuted for a masked ray of NaN intensity, whose NaN (NaN times False) erases its pixel."
  },
  {
   "property": "C48",
   "status": "partial",
   "theorems": [
    "C48_mean_partial",
    "C48_hull_partial",
    "C48_empty_partial",
    "C48_scale",
    "C48_ideal",
    "C48_silicon",
    "C48_refuted"
   ],
   "note": "Weighted mean, convex hull, scale invariance and the value 1 of an empty pixel proved; refuted for a masked ray without a direction, which makes the cosine of its pixel NaN although its flux is zero."
  },
  {
   "property": "C49",
   "status": "partial",
   "theorems": [
    "C49_inverse_partial",
    "C49_default_refuted"
   ],
   "note": "Proved for the ideal material and for silicon with an implant layer; refuted for the default thickness_implant = 0, where every exposure is NaN."
  },
  {
   "property": "C50",
   "status": "proved",
   "theorems": [
    "C50_quadrature",
    "C50_zero",
    "C50_monotone",
    "C50_defined"
   ],
   "note": "Proved for every material; C50_defined shows that the variance-to-mean ratio is not negative."
  },
  {
   "property": "C51",
   "status": "partial",
   "theorems": [
    "C51_mean_partial",
    "C51_range_partial",
    "C51_decreasing_partial",
    "C51_thin_partial",
    "C51_refuted"
   ],
   "note": "Depth mean, range, monotonicity and limit proved for a positive implant thickness; refuted at zero thickness (the default), where the efficiency is NaN."
  },
  {
   "property": "C52",
   "status": "partial",
   "theorems": [
    "C52_total_variance_partial",
    "C52_temperature_refuted"
   ],
   "note": "Law of total variance proved with the Fano factor at 300 K; refuted at other temperatures because vmr_signal calls fano_factor(wavelength) without the temperature."
  },
  {
   "property": "C53",
   "status": "proved",
   "theorems": [
    "C53_counts",
    "C53_in_range",
    "C53_wrapped",
    "C53_bounded",
    "C53_pixel",
    "C53_pairs"
   ],
   "note": "Every element counts exactly the electrons whose final position is on its pixel; totals with and without wrapping; the draws are arbitrary, except that a binomial draw lies between zero and its number of trials."
  },
  {
   "property": "C54",
   "status": "proved",
   "theorems": [
    "C54_schedule",
    "C54_finishes"
   ],
   "note": "Interleaving semantics with non-atomic increments (load, then store) and private registers; every finished schedule leaves the result of the sequential slices, and every schedule can be finished."
  },
  {
   "property": "C55",
   "status": "proved",
   "theorems": [
    "C55_range",
    "C55_increasing",
    "C55_distribution",
    "C55_limit",
    "C55_probability"
   ],
   "note": "Range, monotonicity, inverse of the truncated exponential distribution, limit of zero absorption, range of the collection probability."
  },
  {
   "property": "C56",
   "status": "partial",
   "theorems": [
    "C56_expected_partial",
    "C56_truncation_refuted",
    "C56_bandgap_refuted"
   ],
   "note": "False: the closed form averages the efficiency over all depths while the Monte Carlo method samples depths inside the substrate (truncation_refuted), and where the table has no pairs the Monte Carlo method frees the largest tabulated number (bandgap_refuted). The partial theorem gives the exact difference at tabulated energies and temperatures whose probabilities sum to one."
  },
  {
   "property": "C57",
   "status": "proved",
   "theorems": [
    "C57_average",
    "C57_range",
    "C57_defined"
   ],
   "note": "The mean is taken over the exponential distribution of depths restricted to the substrate, and equally over the depths drawn by electrons_measured."
  },
  {
   "property": "C58",
   "status": "proved",
   "theorems": [
    "C58_probability",
    "C58_total",
    "C58_positive",
    "C58_symmetric",
    "C58_sum",
    "C58_centre",
    "C58_capture"
   ],
   "note": "The one-dimensional kernel is shown to be the probability of a pixel (Gaussian cloud around a photon uniform in the central pixel), positive, with limit sum one; the normalised 3x3 kernel is positive, symmetric and sums to one, and its centre exceeds mean_charge_capture."
  },
  {
   "property": "C59",
   "status": "proved",
   "theorems": [
    "C59_range",
    "C59_monotone",
    "C59_one",
    "C59_above",
    "C59_binomial"
   ],
   "note": "Range, monotonicity, yield one, and the binomial meaning for whole numbers of pairs."
  },
  {
   "property": "C60",
   "status": "proved",
   "theorems": [
    "C60_round_trip",
    "C60_linear_round_trip",
    "C60_wavelength",
    "C60_reference",
    "C60_position",
    "C60_scale",
    "C60_dispersion",
    "C60_undefined"
   ],
   "note": "The named_arrays matrix product and inverse are modelled as the 3x3 product and the adjugate over the determinant."
  },
  {
   "property": "C61",
   "status": "proved",
   "theorems": [
    "C61_effective_area",
    "C61_measured_rulings",
    "C61_measured_mirror",
    "C61_chemical",
    "C61_covered",
    "C61_chemical_repeated",
    "C61_chemical_range",
    "C61_absorption",
    "C61_outside"
   ],
   "note": "numpy.interp is modelled from its documentation; about 100 of the shipped chemical tables repeat a wavelength, for which the last row counts (C61_chemical_repeated)."
  },
  {
   "property": "C62",
   "status": "partial",
   "theorems": [
    "C62_runs",
    "C62_no_digits",
    "C62_preserved",
    "C62_rendered",
    "C62_subscripts_refuted",
    "C62_first_digit_partial",
    "C62_single_digits_partial"
   ],
   "note": "False: the second and further digits of a number are not rendered as subscripts, as in the shipped chemical C10H8O4 (subscripts_refuted). The markup is right for numbers of one digit and the first digit of every number."
  },
  {
   "property": "C63",
   "status": "partial",
   "theorems": [
    "C63_product",
    "C63_nonneg",
    "C63_decreasing",
    "C63_additive_refuted",
    "C63_additive_partial",
    "C63_rectilinear_partial",
    "C63_pupil_partial",
    "C63_axes"
   ],
   "note": "Additivity is false for pupils that depend on the wavelength (additive_refuted) and holds for every unfolded separable grid and along the pupil. The solid angle of angular grids is an argument of the model, for which only the sign is claimed."
  },
  {
   "property": "C64",
   "status": "partial",
   "theorems": [
    "C64_rule",
    "C64_associative",
    "C64_commutative",
    "C64_idempotent",
    "C64_attributes_refuted",
    "C64_attributes_partial",
    "C64_popped_partial",
    "C64_members"
   ],
   "note": "False for ten attributes (attributes_refuted); every other class includes all of its attributes (attributes_partial)."
  },
  {
   "property": "C65",
   "status": "partial",
   "theorems": [
    "C65_not_lost_partial",
    "C65_degenerate_refuted",
    "C65_float_refuted"
   ],
   "note": "Proved for regular rays; refuted below the threshold (k=-1+1e-10, R=1000, axis ray) and in binary64 (R=100, k=0, axis ray from z=-1), because the sheet test z*(c r^2 - z) >= 0 has no tolerance."
  },
  {
   "property": "C66",
   "status": "partial",
   "theorems": [
    "C66_inverted_refuted",
    "C66_opposite_partial"
   ],
   "note": "Refuted: the code does the opposite of the attribute's documentation, and C66_opposite_partial says so for every active aperture, flag, transformation and point."
  },
  {
   "property": "C67",
   "status": "partial",
   "theorems": [
    "C67_nan_clipped_partial",
    "C67_nan_kept_refuted"
   ],
   "note": "Proved for non-inverted apertures, refuted for obscurations."
  },
  {
   "property": "C68",
   "status": "partial",
   "theorems": [
    "C68_triangular_below_partial",
    "C68_square",
    "C68_rectangular",
    "C68_sawtooth_partial",
    "C68_triangular_partial",
    "C68_triangular_refuted",
    "C68_sinusoidal_partial"
   ],
   "note": "Square and Rectangular exactly; Sawtooth away from the blaze condition; Triangular exactly in order zero and at most the thin-grating power in every order (the code has +i^2 where theory and docstring have -i^2); Sinusoidal returns the amplitude, not its square."
  },
  {
   "property": "C69",
   "status": "partial",
   "theorems": [
    "C69_tangent_partial",
    "C69_refuted"
   ],
   "note": "Proved for grooves tangent to the surface, refuted on a tilted surface."
  },
  {
   "property": "C70",
   "status": "partial",
   "theorems": [
    "C70_refuted",
    "C70_polarization_partial",
    "C70_mirror_partial",
    "C70_inside_partial"
   ],
   "note": "Refuted: reversing the normal changes the efficiency of bare glass from 1/9 to 9, because the cosine is not made positive. Proved for every stack whose first surface is smooth: the reflectivity of each polarization becomes its reciprocal and the transmissivity becomes negative, so that the two signs agree for a perfect mirror only; the state in which the light arrives in the substrate does not depend on the sign."
  },
  {
   "property": "C71",
   "status": "partial",
   "theorems": [
    "C71_units_refuted",
    "C71_units_partial"
   ],
   "note": "Refuted: x.value drops the scale of the unit (profiles.py:429); holds when the units multiply to one."
  },
  {
   "property": "C72",
   "status": "partial",
   "theorems": [
    "C72_width_partial",
    "C72_variance_unique",
    "C72_width_refuted",
    "C72_documented",
    "C72_formula_refuted"
   ],
   "note": "Proved for three classes and for the documented sinusoidal curve; refuted for the sinusoidal class: the square root in a = pi/sqrt(pi^2-8) is missing in the code (profiles.py:526, 536)."
  },
  {
   "property": "C73",
   "status": "partial",
   "theorems": [
    "C73_reported_pair_partial",
    "C73_reported_pair_refuted"
   ],
   "note": "Refuted with one pupil stop followed by two field stops. Proved when no other stop of the later kind lies between the two reported stops."
  },
  {
   "property": "C74",
   "status": "partial",
   "theorems": [
    "C74_curved_partial",
    "C74_figures_partial",
    "C74_lines_partial",
    "C74_sphere_partial",
    "C74_grazing_refuted",
    "C74_retraced_partial",
    "C74_retraced_refuted"
   ],
   "note": "Refuted for a plane of glass before the first stop (surfaces are traversed backwards with their forward index) and, in vacuum, for a spherical mirror under grazing incidence (on the way forth the other intersection with the sphere is taken). Proved for planes, and for curved mirrors of any sag class but the toroid as long as the line leaving each surface strikes it nowhere else."
  },
  {
   "property": "C75",
   "status": "partial",
   "theorems": [
    "C75_field_partial",
    "C75_p_refuted"
   ],
   "note": "C75_field_partial: the coefficients are the unique solution of the boundary conditions, for s polarization in any media and for p polarization while the cosine is real in every medium. C75_p_refuted (finding): matrices.refraction takes the complex conjugate of the cosine for p polarization, so in an absorbing medium at oblique incidence the amplitudes differ from the documented ones; the witness has reflectivity below 1/5 by the boundary conditions and above 2/5 by the code. Not covered: rough interfaces and layers treated as opaque."
  },
  {
   "property": "C76",
   "status": "partial",
   "theorems": [
    "C76_no_grid_partial",
    "C76_no_grid_refuted"
   ],
   "note": "False for a field-free region and positive pixel width: the dummy grid of one pixel loses electrons that diffuse (no_grid_refuted). True with wrap, without a field-free region or with zero pixel width."
  },
  {
   "property": "C78",
   "status": "partial",
   "theorems": [
    "C78_capture_partial",
    "C78_kernel_refuted"
   ],
   "note": "False for the kernel: a zero width gives NaN at all nine pixels (kernel_refuted); the width and the capture are right (capture_partial)."
  },
  {
   "property": "C79",
   "status": "proved",
   "theorems": [
    "C79_increasing",
    "C79_defined",
    "C79_fit"
   ],
   "note": "scipy.optimize.minimize_scalar is external: the theorem is about its objective."
  },
  {
   "property": "C80",
   "status": "proved",
   "theorems": [
    "C80_file_injective",
    "C80_header",
    "C80_index",
    "C80_file_collision"
   ],
   "note": "numpy.loadtxt is an argument of the model."
  },
  {
   "property": "C77",
   "status": "partial",
   "theorems": [
    "C77_fraction",
    "C77_efficiency",
    "C77_moments_partial",
    "C77_no_implant_refuted"
   ],
   "note": "The gamma distribution is an argument with its first two moments. Without an implant layer the function fails (no_implant_refuted)."
  },
  {
   "property": "C82",
   "status": "partial",
   "theorems": [
    "C82_conserved_partial",
    "C82_spectral_partial",
    "C82_immersed_refuted",
    "C82_decreasing_refuted"
   ],
   "note": "C82_conserved_partial: total of the integrated image equals the sum of flux times throughput over the arriving cells, bounded by the scene's flux, for increasing wavelengths and paths that end in vacuum. C82_spectral_partial: wavelength bins are independent. Refuted in general: C82_immersed_refuted (a silicon sensor behind water loses the whole image, because collect bins by the wavelength in the medium) and C82_decreasing_refuted (negative image)."
  },
  {
   "property": "C81",
   "status": "partial",
   "theorems": [
    "C81_best_partial",
    "C81_exact_partial",
    "C81_inverse_partial",
    "C81_round_trip_partial",
    "C81_calibration_partial",
    "C81_masked_partial",
    "C81_masked_refuted",
    "C81_illumination_partial",
    "C81_vignetting_partial",
    "C81_center_refuted"
   ],
   "note": "Least squares over all polynomials of the degree (C81_best_partial), exactness forwards and backwards, affine round trip, independence of masked points and illumination proved; a least-squares solver satisfying the hypothesis is constructed and verified (FitSolver.v). Refuted: C81_masked_refuted (the centre of the inverse fit averages the NaN positions of excluded field points, so undistort is NaN everywhere) and C81_center_refuted (illumination normalised to mean one, not to one at the centre as documented). The named_arrays fit is modelled by its specification: polynomial in the coordinates minus the centre, least squares over the selected points."
  },
  {
   "property": "C85",
   "status": "partial",
   "theorems": [
    "C85_transmittance_partial",
    "C85_absorbance_partial",
    "C85_attenuation_partial",
    "C85_thicker_partial",
    "C85_thick_partial",
    "C85_eqe_partial",
    "C85_methods_partial",
    "C85_ray_partial",
    "C85_arguments_partial",
    "C85_collection_partial",
    "C85_quantum_partial",
    "C85_probability_partial",
    "C85_fit_partial",
    "C85_fit_defined_partial",
    "C85_rough_refuted",
    "C85_oxide_refuted"
   ],
   "note": "Proved for smooth interfaces (roughness zero), passive media and a lossless ambient medium, for both polarizations. Refuted with roughness: an absorbing rough oxide transmits 20/17 of the light (the roughness factor multiplies the reflection terms of the interface matrix only). Refuted for method='exact' behind an opaque oxide: the transmittance is 0 while the substrate is said to absorb 4/5. The methods of the material are proved with their defaults of direction and normal. The minimiser of fit_eqe is not modelled; its objective is, and is proved to be the root mean square difference."
  },
  {
   "property": "C83",
   "status": "proved",
   "theorems": [
    "C83_order",
    "C83_rigid",
    "C83_place",
    "C83_place_order_matters"
   ],
   "note": "Python's C3 linearisation is modelled and shown to give the bases in order followed by Transformable."
  },
  {
   "property": "C84",
   "status": "partial",
   "theorems": [
    "C84_drawing_partial",
    "C84_arrives_partial",
    "C84_on_surface_partial",
    "C84_plot_partial",
    "C84_moved_partial",
    "C84_rays_refuted"
   ],
   "note": "Proved: contents of DXF file and plot, vertices on the surfaces, transformation. Refuted: RayVectorArray.to_dxf always raises ValueError (DxfWritable.to_dxf has no axis argument). ezdxf and matplotlib are taken to draw the polylines they are given."
  },
  {
   "property": "C87",
   "status": "partial",
   "theorems": [
    "C87_layout_partial",
    "C87_repr_partial",
    "C87_lines_partial",
    "C87_array_refuted",
    "C87_tuple_refuted"
   ],
   "note": "Proved for trees whose other values have no line break and whose arrays directly inside lists fit on a line; the printing of named_arrays and numpy.array2string is given by their lines and the length of the prefix. Refuted for arrays in lists (field_str is the indentation of the list, not of the item) and for objects in tuples (repr ignores the indentation)."
  },
  {
   "property": "C88",
   "status": "proved",
   "theorems": [
    "C88_nothing",
    "C88_mirror",
    "C88_systems",
    "C88_glass",
    "C88_dispersion",
    "C88_documented",
    "C88_visible"
   ],
   "note": "The wavelength a Glass reads is the one in the medium in front of it (see C17)."
  },
  {
   "property": "C86",
   "status": "partial",
   "theorems": [
    "C86_strikes",
    "C86_start_length",
    "C86_angle",
    "C86_start_angle_partial",
    "C86_start_refuted",
    "C86_found_length",
    "C86_found_angle"
   ],
   "note": "Arrival and the direction at the start are proved for every system and every dependable root finder, the starting point for borders with a length and for an untransformed first stop with an angular border. Refuted for an angular first stop with a transformation: the solver overwrites x, y and z of the position in the coordinates of the system with z = sag(x, y) taken in them, so the position lies on the surface as if it were not transformed (for an object surface the later propagation back onto it repairs this)."
  },
  {
   "property": "C89",
   "status": "partial",
   "theorems": [
    "C89_moved_partial",
    "C89_moved_refuted"
   ],
   "note": "Proved for borders with a length and motions after which the ray goes up. Refuted for an object at infinity: turned by a right angle the rays run in the plane z = 0 in which the solver moves their starting points, so no start reaches the target and the solver raises."
  },
  {
   "property": "C90",
   "status": "partial",
   "theorems": [
    "C90_length_partial",
    "C90_angle_partial",
    "C90_anchor_partial",
    "C90_guess_refuted"
   ],
   "note": "Proved for a first stop that is only shifted (any number of shifted or turned windows up to the last stop) and for an untransformed plane first stop with an angular border. Refuted for a first stop turned by a half turn: the guess is made to point up in the coordinates of the stop, then its z is recomputed as positive in the coordinates of the system, which mirrors the guess instead of reversing it. Also proved where the first guess goes when a surface with power lies between the stops, or when the border of the last stop is an angle: through the vertex of the first such surface."
  },
  {
   "property": "C91",
   "status": "partial",
   "theorems": [
    "C91_corner_partial",
    "C91_cleared_partial",
    "C91_box",
    "C91_stale",
    "C91_corner_refuted"
   ],
   "note": "Proved for a system whose grid_input is not reassigned, after any reads, and after every reassignment followed by deleting rayfunction_stops; the box is proved without condition. Refuted otherwise: rayfunction_stops is a cached property, so once a corner has been read, later assignments of grid_input do not reach the corners (C91_stale), while the ray trace uses stop rays at the new wavelength. The stop rays are an arbitrary function of the wavelength, as in the other theorems about systems; the witness is such a function and not the stop rays of a particular set of surfaces."
  },
  {
   "property": "C92",
   "status": "partial",
   "theorems": [
    "C92_curved_partial",
    "C92_both_stops_partial",
    "C92_both_stops_refuted"
   ],
   "note": "Composition of C73, C74 and C86: a ray reported by _calc_rayfunction_stops, traced forward, meets both borders. Proved for planes and plane mirrors in vacuum, and for curved mirrors whose lines strike each surface once. Refuted for glass before the first stop, because the way back refracts into the wrong medium."
  },
  {
   "property": "C93",
   "status": "partial",
   "theorems": [
    "C93_matrix_partial",
    "C93_transposed_partial",
    "C93_shift_partial",
    "C93_transformation_partial",
    "C93_undone_partial",
    "C93_sum_partial",
    "C93_silent",
    "C93_product_silent",
    "C93_method_silent",
    "C93_error_refuted"
   ],
   "note": "Proved for the supported operations. Refuted for unsupported ones: __array_ufunc__ of AbstractRayVectorArray ends without a return statement for every function other than np.add that its parent declines, so numpy takes None for the result (also for ray @ vector, whose NotImplemented from __array_matmul__ is turned into None). The behaviour of named_arrays is an argument; the hypothesis is that it has no operation of its own between a ray and a vector or matrix. Methods of an operation other than its call (np.add.reduce etc.) evaluate to None likewise."
  },
  {
   "property": "C94",
   "status": "partial",
   "theorems": [
    "C94_figure_partial",
    "C94_distances_partial",
    "C94_centred_partial",
    "C94_centred_refuted",
    "C94_shown_refuted"
   ],
   "note": "Positive parts proved: unvignetted rays are drawn, distances are kept, and the spot is centred when no ray is vignetted. Refuted in general: position.mean(axis_pupil) averages over vignetted rays too (spot moved off the origin), and one NaN ray blanks the whole spot although it is masked. distortion() of the same class averages only the unvignetted rays."
  },
  {
   "property": "C95",
   "status": "partial",
   "theorems": [
    "C95_given_partial",
    "C95_default_partial",
    "C95_declared_partial",
    "C95_default_refuted",
    "C95_declared_refuted"
   ],
   "note": "Proved when a grid is given (for undeclared axes) and when grid_input has not been assigned since the rays were cached. Refuted: after system.grid_input = g and del system.rayfunction_default (the documented procedure) the rays still come from the old grid, through the second cache _rayfunction_input, while the axes come from the new one; and declared axes are ignored when any grid is given, so naming the default pupil raises ValueError."
  },
  {
   "property": "C96",
   "status": "partial",
   "theorems": [
    "C96_trace_partial",
    "C96_sags_partial",
    "C96_intercept_partial",
    "C96_height_partial",
    "C96_apertures_partial",
    "C96_rulings_partial",
    "C96_materials_partial",
    "C96_layers_partial",
    "C96_conic_refuted",
    "C96_tolerance_refuted",
    "C96_tolerance_partial"
   ],
   "note": "Proved for every list of surfaces whose parts are the same in the other unit, and that the sags, apertures, rulings, profiles, spacings, glasses, mirrors and multilayer coatings with scaled parameters are. Refuted for ConicSag: a paraboloid of 1 m radius entered in nanometres is struck more than 0.1 mm from the right point, since the threshold 1e-12 is in the unit of the radius; and for the tolerance of the stop solver, which is 1e-9 of the unit of the aperture when that is less than one unit wide."
  },
  {
   "property": "C97",
   "status": "partial",
   "theorems": [
    "C97_trace_partial",
    "C97_paths_partial",
    "C97_fixed_partial",
    "C97_revolution_partial",
    "C97_planes_partial",
    "C97_circle_partial",
    "C97_apertures_partial",
    "C97_grooves_partial",
    "C97_rulings_partial",
    "C97_materials_partial",
    "C97_grooves_refuted"
   ],
   "note": "Proved for every orthogonal map and every list of surfaces with that symmetry, including their transformations, coatings, apertures and grooves; paths are symmetric whatever the efficiencies. Refuted for the efficiencies of grooved profiles: square grooves reflect more than half of a ray and nothing of its mirror image (the defect of C69)."
  },
  {
   "property": "C98",
   "status": "partial",
   "theorems": [
    "C98_ray_partial",
    "C98_surface_partial",
    "C98_squares_partial",
    "C98_shallow",
    "C98_sinusoidal_refuted",
    "C98_spherical_refuted"
   ],
   "note": "Proved for square, sawtooth, triangular and rectangular grooves, for one ray and for the rays leaving a surface with grooves that lie in it. Refuted for sinusoidal grooves (the code returns the Bessel function, not its square; orders 0 and 1 of every shallow groove add up to more than 1) and for a spherical mirror with square grooves of constant spacing (Surface asks for the efficiency with the effective direction, which has another angle of incidence in each order unless the groove vector is tangent to the surface)."
  },
  {
   "property": "C99",
   "status": "proved",
   "theorems": [
    "C99_film",
    "C99_mirror",
    "C99_measured"
   ],
   "note": "For surfaces without rulings and without a transformation of their own."
  },
  {
   "property": "C100",
   "status": "partial",
   "theorems": [
    "C100_normal_partial",
    "C100_mirror",
    "C100_oblique",
    "C100_oblique_refuted"
   ],
   "note": "Proved along the normal (transmission and reflection) and, for reflection, at every angle. Refuted for transmission at every angle."
  },
  {
   "property": "C101",
   "status": "partial",
   "theorems": [
    "C101_transparent_partial",
    "C101_normal_partial",
    "C101_total",
    "C101_total_refuted",
    "C101_absorbing_refuted"
   ],
   "note": "Proved for transparent slabs that refract the light and, for every index, along the normal. Refuted by total reflection (always NaN) and by an absorbing slab of index 2 + i."
  },
  {
   "property": "C102",
   "status": "partial",
   "theorems": [
    "C102_gap",
    "C102_gap_refuted",
    "C102_pair",
    "C102_fano_partial",
    "C102_fano_rises",
    "C102_fano_refuted"
   ],
   "note": "Band gap law with the constant of the code, pair energy, yield and, at the temperatures of the tables, Fano factor proved; refuted for the documented 1.192 eV and for the Fano factor between those temperatures."
  },
  {
   "property": "C103",
   "status": "partial",
   "theorems": [
    "C103_tables",
    "C103_energy",
    "C103_distribution",
    "C103_yield",
    "C103_fano_partial",
    "C103_fano_refuted",
    "C103_end",
    "C103_methods_partial",
    "C103_methods_refuted",
    "C103_infrared_refuted"
   ],
   "note": "Tables, interpolated distributions, yield and energy balance proved for every energy and temperature; the Fano factor and the agreement of the two methods within 1.1 per mille from 1.2 eV on. Refuted: Fano factor of photons that make no pairs, equality of the two methods between the temperatures of the tables, and photons below the gap, which make twenty pairs in the Monte Carlo method."
  },
  {
   "property": "C104",
   "status": "partial",
   "theorems": [
    "C104_pixel",
    "C104_fails",
    "C104_finishes_partial",
    "C104_deviations",
    "C104_finishes_refuted"
   ],
   "note": "The run fails exactly when the normal draw of a photon above 50 eV is below -1/2, which is more than ten standard deviations below its mean; otherwise it finishes, for all tables, grids and draws. Refuted with one photon of 100 eV."
  },
  {
   "property": "C105",
   "status": "partial",
   "theorems": [
    "C105_index",
    "C105_continuous",
    "C105_jump",
    "C105_continuous_refuted",
    "C105_absorbs_partial",
    "C105_sensor_partial",
    "C105_signal_partial",
    "C105_clear",
    "C105_sensor_refuted"
   ],
   "note": "The tables are included as exact rationals and checked by evaluation in the kernel; interpolation of every table with increasing wavelengths is proved continuous, and with a repeated wavelength not. Below 11199.6 Angstrom silicon absorbs and all efficiencies exist; from there to 25001 Angstrom all of them are NaN."
  },
  {
   "property": "C106",
   "status": "partial",
   "theorems": [
    "C106_all_partial",
    "C106_rate_partial",
    "C106_triangular_refuted"
   ],
   "note": "Proved for square, sawtooth (depths at which no order has 0/0) and rectangular grooves, from the partial fractions of 1/sin^2 and the finite Fourier sum of a pulse. Refuted for the triangular grooves of the code, whose denominator has a plus sign where thin-grating theory has a minus sign."
  },
  {
   "property": "C107",
   "status": "partial",
   "theorems": [
    "C107_best",
    "C107_width",
    "C107_temperature",
    "C107_fresh_partial",
    "C107_changed_partial",
    "C107_stale_refuted",
    "C107_default_refuted",
    "C107_implant_refuted"
   ],
   "note": "False in two ways, both proved. joblib.Memory decides by the text of the cached function alone whether its stored result is used, so a ready-made sensor stays the old one when the measurements, the depletion model or fit_eqe itself change (C107_stale_refuted, with another depletion model; C107_changed_partial: a changed text is noticed). The signal of a sensor without depletion model, which is the default, is an AttributeError even for the noiseless signal, in which the depletion region has no part (C107_default_refuted), and with the default implant of thickness zero the efficiency is NaN everywhere (C107_implant_refuted). Proved: the fitted sensor is physical and the best one for every minimiser that finds a least value within the bounds (C107_best); changing the temperature afterwards changes no efficiency (C107_temperature); after any history with one version of the program a call gives a new object with the fitted attributes and the requested temperature, and no call changes an object made earlier (C107_fresh_partial)."
  },
  {
   "property": "C108",
   "status": "partial",
   "theorems": [
    "C108_values",
    "C108_black",
    "C108_alone_partial",
    "C108_files_refuted",
    "C108_together_partial",
    "C108_serial_partial",
    "C108_together_refuted"
   ],
   "note": "The values are as claimed (C108_values; without any light they are NaN, C108_black) and an undisturbed call depends on no file (C108_alone_partial). But the picture goes through the file tmp.png of the working directory: a file of that name is overwritten and left behind (C108_files_refuted), and programs that run at the same time get each other's picture (C108_together_refuted; always that of one of them, C108_together_partial, and their own when they run one after the other, C108_serial_partial). The renderer is an argument of the model, and saving a file is one step."
  },
  {
   "property": "C109",
   "status": "proved",
   "theorems": [
    "C109_conic",
    "C109_path",
    "C109_parabola",
    "C109_collimates",
    "C109_relay",
    "C109_lens",
    "C109_lens_collimates",
    "C109_aplanatic"
   ],
   "note": "Exact statements about sag, intercept, normal, Snell and propagation together: any slip in one of them destroys the sharp image. Rays for which the intercept of the code is not on the surface (C06, C65) are excluded by [hits]."
  },
  {
   "property": "C110",
   "status": "proved",
   "theorems": [
    "C110_moment",
    "C110_slide",
    "C110_planes",
    "C110_plate",
    "C110_mirrors",
    "C110_corner"
   ],
   "note": "Conservation laws over whole sequences. For spheres, cylinders and toroids the ray must meet the surface itself ([met]), as the code's normal is the normal of the surface only there; planes and conics need no such hypothesis. Gratings are left out (they do change the invariants)."
  },
  {
   "property": "C111",
   "status": "proved",
   "theorems": [
    "C111_exists",
    "C111_fit",
    "C111_bracket",
    "C111_upper",
    "C111_shipped"
   ],
   "note": "The measurements of both csv files and the silicon table of the package are part of the model. scipy.optimize.minimize_scalar is an argument; it is assumed to find a least value within the bounds only where the theorem says so, and such a minimiser is shown to exist."
  },
  {
   "property": "C112",
   "status": "proved",
   "theorems": [
    "C112_shortest",
    "C112_fermat",
    "C112_variation",
    "C112_malus"
   ],
   "note": "First variation of the optical length along whole sequences. The points must be inside the domain of the sag (interior), where the surface has a tangent plane; the curves are any differentiable ones within the surface. Rulings are added in C113."
  },
  {
   "property": "C113",
   "status": "partial",
   "theorems": [
    "C113_fermat",
    "C113_variation",
    "C113_malus",
    "C113_constant",
    "C113_holographic",
    "C113_polynomial_partial",
    "C113_polynomial_refuted"
   ],
   "note": "Proved for sequences of any length; the spacing models are treated one by one. Refuted for Polynomial1dRulingSpacing with a transformation that turns the rulings: the position is turned and the direction across the rulings is not, and no pattern of grooves has such a spacing (the partial theorem asks that the transformation keeps the direction). The wavelength is the one the ray carries, which the code changes between media (C17)."
  },
  {
   "property": "C114",
   "status": "proved",
   "theorems": [
    "C114_matrix",
    "C114_quarter",
    "C114_half",
    "C114_antireflection",
    "C114_bragg",
    "C114_fresnel",
    "C114_brewster",
    "C114_total",
    "C114_normal"
   ],
   "note": "Proved for stacks of lossless media with perfect interfaces; the bare absorbing substrate at normal incidence only, as p polarization at an angle to an absorbing medium is wrong in the code (C75_p_refuted). The matrices are compared with the field (C75) and the energy (C34)."
  },
  {
   "property": "C115",
   "status": "partial",
   "theorems": [
    "C115_partial",
    "C115_rough_refuted"
   ],
   "note": "Proved for any sequence of smooth passive layers, lossy or not, none exactly at its critical angle, also where the code cuts off opaque layers. False with a rough interface (C115_rough_refuted: 0.782 against 0.817, no absorption): the code reduces only the reflection of the interface by the transform of its profile and leaves the transmission as it is, and takes the wavenumber on the side the light comes from. Periodic layers enter as the sequences they stand for (C33)."
  },
  {
   "property": "C116",
   "status": "partial",
   "theorems": [
    "C116_partial",
    "C116_silicon_partial",
    "C116_refuted"
   ],
   "note": "Proved for every table whose rows are positive and in order of wavelength (repeated wavelengths allowed), and for silicon below 11199.6 Angstrom. Refuted by the table of aluminium arsenide (AlAs.nk, AlAs_palik.nk): index zero in 13 rows, hence a perfect mirror with a positive absorption coefficient. Of the 521 files these two are the only ones with an index that is not positive (counted outside Coq)."
  },
  {
   "property": "C117",
   "status": "partial",
   "theorems": [
    "C117_partial",
    "C117_invariant_partial",
    "C117_image_partial",
    "C117_lens_partial",
    "C117_refuted"
   ],
   "note": "Refuted for a paraboloid made with ConicSag (conic = -1): a ray to its vertex at less than a microradian from the axis takes the degenerate linear root, whose point fails the test for the sheet of the vertex, and is lost. Proved for all sequences of centred surfaces without rulings of the other shapes (for conics, |(1 + k) / r| > 1e-12; the toroid's search is not modelled): the derivatives of the traced rays are those of Gaussian optics; with the invariant of Lagrange, the equation for images and magnification of one surface or mirror, and the lensmaker's equation."
  },
  {
   "property": "C118",
   "status": "proved",
   "theorems": [
    "C118_grid",
    "C118_single",
    "C118_accepted",
    "C118_single_accepted"
   ],
   "note": "For all arguments, axes and draws for which the call returns a result (distinct axes, none called num_electron, the two axes of the pixels different); C118_accepted and C118_single_accepted show that arguments whose sizes are those of the whole or one give a result unless the simulation of some grid of pixels, or pixel, fails. That named_arrays puts the axis of the pair numbers behind the others is assumed (the order is what the code's reshape needs; the library is not available)."
  },
  {
   "property": "C119",
   "status": "partial",
   "theorems": [
    "C119_photons",
    "C119_ideal",
    "C119_scale",
    "C119_silicon_partial",
    "C119_refuted"
   ],
   "note": "Photons, ideal sensors and scaling proved for all systems whose surfaces do not read the intensity. The full claim is refuted for silicon sensors (two beams at different angles on one pixel: the charge collection is convex in the absorption and the code evaluates it at the flux-weighted mean cosine); the partial theorem gives the direction of the error and exactly when there is none."
  },
  {
   "property": "C120",
   "status": "partial",
   "theorems": [
    "C120_photons",
    "C120_ideal",
    "C120_silicon_partial",
    "C120_refuted"
   ],
   "note": "Photons and ideal sensors proved for all systems and increasing wavelengths. The full claim is refuted for silicon sensors (light of wavelength 3/2 in the range 1 to 3 is given the quantum yield of wavelength 2); the partial theorem gives the exact difference."
  },
  {
   "property": "C121",
   "status": "partial",
   "theorems": [
    "C121_number_partial",
    "C121_quiet_partial",
    "C121_dark",
    "C121_bright",
    "C121_refuted"
   ],
   "note": "Refuted: a pixel with 3 electrons, read noise 4 and the draw -1 is measured as -1 electrons and has the uncertainty NaN. The partial theorems say exactly which pixels have an uncertainty. The draws of numpy are arguments; that a normal draw is as likely as its opposite is not modelled."
  },
  {
   "property": "C122",
   "status": "proved",
   "theorems": [
    "C122_rowland",
    "C122_focal_equations",
    "C122_polynomial",
    "C122_plane"
   ],
   "note": "To first order, around a ray that falls across the grooves on the vertex, for a grating without transformation (C18 covers rigid motions). The shapes are the plane, the sphere, the paraboloid and the cylinder; on a paraboloid the ray is along the axis or its direction differs by more than 1e-5 (below that the code takes the intercept of a ray along the axis)."
  }
 ]
}
