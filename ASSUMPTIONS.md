# Axioms per theorem

Written by `tools/assumptions.py` from the output of `Print Assumptions`.

## Closed under the global context

* C107_changed_partial
* C107_fresh_partial
* C13_accumulate
* C13_concatenate
* C13_single
* C20_inactive
* C38_field_stop
* C38_pupil_stop
* C38_surfaces
* C39_last_solved_partial
* C39_terminates
* C40_physical_total
* C45_errors
* C45_inferred
* C62_first_digit_partial
* C62_no_digits
* C62_preserved
* C62_rendered
* C62_runs
* C62_single_digits_partial
* C62_subscripts_refuted
* C63_axes
* C64_associative
* C64_attributes_partial
* C64_attributes_refuted
* C64_commutative
* C64_idempotent
* C64_members
* C64_popped_partial
* C64_rule
* C73_reported_pair_partial
* C80_file_collision
* C80_file_injective
* C80_header
* C87_array_refuted
* C87_layout_partial
* C87_lines_partial
* C87_repr_partial
* C87_tuple_refuted
* C95_declared_partial
* C95_declared_refuted
* C95_default_partial
* C95_default_refuted
* C95_given_partial

## `ClassicalDedekindReals.sig_forall_dec`

* C18_moved_ray
* C27_ideal
* C31_constant
* C84_rays_refuted
* C93_error_refuted
* C93_matrix_partial
* C93_method_silent
* C93_product_silent
* C93_silent
* C93_sum_partial
* C93_transformation_partial
* C93_transposed_partial

## `ClassicalDedekindReals.sig_forall_dec`, `FunctionalExtensionality.functional_extensionality_dep`

* C102_fano_partial
* C102_fano_refuted
* C102_fano_rises
* C102_gap
* C102_gap_refuted
* C102_pair
* C103_distribution
* C103_end
* C103_energy
* C103_fano_partial
* C103_fano_refuted
* C103_methods_refuted
* C103_tables
* C103_yield
* C104_pixel
* C105_continuous
* C105_continuous_refuted
* C105_index
* C105_jump
* C108_alone_partial
* C108_black
* C108_files_refuted
* C108_serial_partial
* C108_together_partial
* C108_together_refuted
* C108_values
* C11_conic_float_refuted
* C24_float_count_refuted
* C27_measured
* C27_measured_nodes
* C31_polynomial
* C31_polynomial_constant
* C33_thickness
* C40_span
* C46_dark
* C46_illumination
* C47_conserved_partial
* C47_no_other_partial
* C47_one_pixel_partial
* C47_refuted
* C55_probability
* C60_linear_round_trip
* C61_chemical
* C61_chemical_range
* C61_chemical_repeated
* C61_covered
* C61_effective_area
* C61_measured_mirror
* C61_measured_rulings
* C61_outside
* C63_additive_partial
* C63_additive_refuted
* C63_decreasing
* C63_nonneg
* C63_product
* C63_pupil_partial
* C63_rectilinear_partial
* C80_index
* C81_best_partial
* C81_calibration_partial
* C81_center_refuted
* C81_exact_partial
* C81_illumination_partial
* C81_inverse_partial
* C81_masked_partial
* C81_masked_refuted
* C81_round_trip_partial
* C81_vignetting_partial
* C93_shift_partial
* C93_undone_partial
* C94_centred_partial
* C94_centred_refuted
* C94_distances_partial
* C94_figure_partial
* C94_shown_refuted
* C96_tolerance_partial
* C96_tolerance_refuted

## `ClassicalDedekindReals.sig_forall_dec`, `ClassicalDedekindReals.sig_not_dec`, `FunctionalExtensionality.functional_extensionality_dep`

* C01_snell_unit
* C02_default
* C02_normal_sign
* C02_reflection
* C02_snell_complete
* C02_snell_law
* C03_reflection_involutive
* C03_reversible
* C04_chain
* C04_identity
* C04_law
* C04_stack
* C06_conic_refuted
* C06_cylinder_refuted
* C06_on_line
* C06_on_surface_partial
* C06_parabola_refuted
* C06_sphere_refuted
* C07_complete
* C07_nearest
* C07_vertex_sheet
* C08_hemisphere
* C08_unique
* C09_normal_agree
* C09_parabola_partial
* C09_parabola_refuted
* C09_sag_agree
* C09_sphere_partial
* C09_sphere_refuted
* C100_mirror
* C100_normal_partial
* C101_normal_partial
* C101_transparent_partial
* C103_infrared_refuted
* C104_deviations
* C105_absorbs_partial
* C105_clear
* C105_sensor_refuted
* C107_best
* C107_implant_refuted
* C107_stale_refuted
* C107_temperature
* C109_aplanatic
* C109_collimates
* C109_conic
* C109_lens
* C109_lens_collimates
* C109_parabola
* C109_path
* C109_relay
* C10_flat_partial
* C10_flat_refuted
* C10_intercept_partial
* C10_intercept_refuted
* C10_normal_partial
* C10_normal_refuted
* C10_sag_partial
* C10_sag_refuted
* C110_corner
* C110_mirrors
* C110_moment
* C110_planes
* C110_plate
* C110_slide
* C112_shortest
* C114_normal
* C115_rough_refuted
* C116_partial
* C116_refuted
* C116_silicon_partial
* C117_image_partial
* C117_invariant_partial
* C117_lens_partial
* C117_partial
* C119_ideal
* C119_photons
* C119_scale
* C11_intercept_partial
* C11_model_finite
* C11_normal
* C11_sag
* C11_sphere_refuted
* C120_ideal
* C120_photons
* C120_silicon_partial
* C122_focal_equations
* C122_plane
* C122_polynomial
* C122_rowland
* C12_beer
* C12_split
* C14_monotone
* C14_unvignetted
* C15_throughput
* C16_unit_directions
* C17_dispersion_refuted
* C17_same_index_partial
* C17_wavelength_partial
* C17_wavelength_refuted
* C18_rigid_motion
* C19_direction_unit
* C21_planar
* C24_boundary
* C24_closed_partial
* C24_closed_refuted
* C24_count_partial
* C25_rectangle
* C25_regular_count
* C25_regular_radius
* C25_regular_sides
* C25_trapezoid
* C26_flip_normal
* C26_grating_equation
* C26_number
* C26_order_zero
* C26_order_zero_normal
* C26_surface
* C27_sawtooth_refuted
* C28_cosine_refuted
* C28_in_plane_partial
* C30_image_partial
* C30_normal_refuted
* C30_specular_refuted
* C31_holographic_refuted
* C32_empty_partial
* C32_propagation_partial
* C32_refraction_partial
* C32_split_partial
* C33_efficiency_partial
* C33_matrix_partial
* C33_refuted
* C35_ambient_refuted
* C35_normal_refuted
* C35_rough_refuted
* C37_defined_partial
* C37_equal_partial
* C37_equal_refuted
* C37_even
* C37_one_partial
* C37_one_refuted
* C37_reversed
* C39_last_solved_refuted
* C44_global_refuted
* C44_system_coordinates_partial
* C46_blocked
* C48_empty_partial
* C48_hull_partial
* C48_ideal
* C48_mean_partial
* C48_refuted
* C48_scale
* C48_silicon
* C49_default_refuted
* C50_monotone
* C50_quadrature
* C50_zero
* C51_refuted
* C53_pairs
* C60_dispersion
* C60_position
* C60_reference
* C60_round_trip
* C60_scale
* C60_undefined
* C60_wavelength
* C61_absorption
* C65_degenerate_refuted
* C65_float_refuted
* C65_not_lost_partial
* C69_tangent_partial
* C70_inside_partial
* C70_mirror_partial
* C70_polarization_partial
* C70_refuted
* C71_units_partial
* C71_units_refuted
* C72_variance_unique
* C73_reported_pair_refuted
* C74_curved_partial
* C74_figures_partial
* C74_grazing_refuted
* C74_lines_partial
* C74_retraced_partial
* C74_retraced_refuted
* C74_sphere_partial
* C75_field_partial
* C75_p_refuted
* C77_no_implant_refuted
* C82_spectral_partial
* C83_order
* C83_place
* C83_place_order_matters
* C83_rigid
* C84_arrives_partial
* C84_drawing_partial
* C84_moved_partial
* C84_on_surface_partial
* C84_plot_partial
* C85_arguments_partial
* C85_attenuation_partial
* C85_fit_defined_partial
* C85_fit_partial
* C86_angle
* C86_found_angle
* C86_found_length
* C86_start_angle_partial
* C86_start_length
* C86_start_refuted
* C86_strikes
* C88_dispersion
* C88_documented
* C88_glass
* C88_mirror
* C88_nothing
* C88_systems
* C88_visible
* C89_moved_partial
* C89_moved_refuted
* C90_anchor_partial
* C90_angle_partial
* C90_guess_refuted
* C90_length_partial
* C92_both_stops_partial
* C92_both_stops_refuted
* C92_curved_partial
* C96_conic_refuted
* C96_height_partial
* C96_intercept_partial
* C96_layers_partial
* C96_materials_partial
* C96_rulings_partial
* C96_sags_partial
* C96_trace_partial
* C97_fixed_partial
* C97_grooves_partial
* C97_grooves_refuted
* C97_materials_partial
* C97_paths_partial
* C97_planes_partial
* C97_revolution_partial
* C97_rulings_partial
* C97_trace_partial
* C99_film
* C99_measured
* C99_mirror

## `ClassicalDedekindReals.sig_forall_dec`, `ClassicalDedekindReals.sig_not_dec`, `Classical_Prop.classic`, `FunctionalExtensionality.functional_extensionality_dep`

* C05_normal
* C100_oblique
* C100_oblique_refuted
* C101_absorbing_refuted
* C101_total
* C101_total_refuted
* C103_methods_partial
* C104_fails
* C104_finishes_partial
* C104_finishes_refuted
* C105_sensor_partial
* C105_signal_partial
* C106_all_partial
* C106_rate_partial
* C106_triangular_refuted
* C107_default_refuted
* C107_width
* C111_bracket
* C111_exists
* C111_fit
* C111_shipped
* C111_upper
* C112_fermat
* C112_malus
* C112_variation
* C113_constant
* C113_fermat
* C113_holographic
* C113_malus
* C113_polynomial_partial
* C113_polynomial_refuted
* C113_variation
* C114_antireflection
* C114_bragg
* C114_brewster
* C114_fresnel
* C114_half
* C114_matrix
* C114_quarter
* C114_total
* C115_partial
* C117_refuted
* C118_accepted
* C118_grid
* C118_single
* C118_single_accepted
* C119_refuted
* C119_silicon_partial
* C120_refuted
* C121_bright
* C121_dark
* C121_number_partial
* C121_quiet_partial
* C121_refuted
* C12_no_gain
* C15_bounded
* C19_angles_direction
* C19_direction_angles
* C20_clip
* C20_inverted
* C21_circle_smallest_partial
* C21_circle_smallest_refuted
* C21_ellipse_smallest
* C21_enclosed
* C21_rectangle_smallest
* C22_apex_refuted
* C22_full_circle_refuted
* C22_sector_partial
* C23_enclosed_partial
* C23_full_circle_refuted
* C24_accepted_partial
* C24_accepted_refuted
* C27_rectangular
* C27_sawtooth_partial
* C27_sinusoidal_partial
* C27_sinusoidal_refuted
* C27_square
* C27_triangular
* C28_refuted
* C29_duty_half
* C32_refuted
* C33_ideal_partial
* C34_lossless
* C35_film_partial
* C35_filter_partial
* C35_mirror_partial
* C35_passive_partial
* C36_index_refuted
* C36_opaque_refuted
* C36_sum_partial
* C37_reflectivity_bound
* C37_sinus_refuted
* C37_transform
* C37_transition
* C37_transmissivity_bound
* C40_physical
* C41_launch_partial
* C41_launch_refuted
* C41_moved_refuted
* C42_explicit_partial
* C42_harmless_partial
* C42_history_refuted
* C43_cleared_partial
* C43_documented_partial
* C43_documented_refuted
* C46_area
* C49_inverse_partial
* C50_defined
* C51_decreasing_partial
* C51_mean_partial
* C51_range_partial
* C51_thin_partial
* C52_temperature_refuted
* C52_total_variance_partial
* C53_bounded
* C53_counts
* C53_in_range
* C53_pixel
* C53_wrapped
* C54_finishes
* C54_schedule
* C55_distribution
* C55_increasing
* C55_limit
* C55_range
* C56_bandgap_refuted
* C56_expected_partial
* C56_truncation_refuted
* C57_average
* C57_defined
* C57_range
* C58_capture
* C58_centre
* C58_positive
* C58_probability
* C58_sum
* C58_symmetric
* C58_total
* C59_above
* C59_binomial
* C59_monotone
* C59_one
* C59_range
* C66_inverted_refuted
* C66_opposite_partial
* C67_nan_clipped_partial
* C67_nan_kept_refuted
* C68_rectangular
* C68_sawtooth_partial
* C68_sinusoidal_partial
* C68_square
* C68_triangular_below_partial
* C68_triangular_partial
* C68_triangular_refuted
* C69_refuted
* C72_documented
* C72_formula_refuted
* C72_width_partial
* C72_width_refuted
* C76_no_grid_partial
* C76_no_grid_refuted
* C77_efficiency
* C77_fraction
* C77_moments_partial
* C78_capture_partial
* C78_kernel_refuted
* C79_defined
* C79_fit
* C79_increasing
* C82_conserved_partial
* C82_decreasing_refuted
* C82_immersed_refuted
* C85_absorbance_partial
* C85_collection_partial
* C85_eqe_partial
* C85_methods_partial
* C85_oxide_refuted
* C85_probability_partial
* C85_quantum_partial
* C85_ray_partial
* C85_rough_refuted
* C85_thick_partial
* C85_thicker_partial
* C85_transmittance_partial
* C91_box
* C91_cleared_partial
* C91_corner_partial
* C91_corner_refuted
* C91_stale
* C96_apertures_partial
* C97_apertures_partial
* C97_circle_partial
* C98_ray_partial
* C98_shallow
* C98_sinusoidal_refuted
* C98_spherical_refuted
* C98_squares_partial
* C98_surface_partial
