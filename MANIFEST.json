{
 "claims": [
  {
   "property": "C01",
   "status": "proved",
   "theorems": [
    "C01_histories",
    "C01_no_leak",
    "C01_use",
    "C01_assign_raw_refuted",
    "C01_assign_member_refuted",
    "C01_object_assign_refuted",
    "C01_cycle_refuted"
   ],
   "note": "Supported uses only; refuted for p = raw pointer owned by *p, p = p->next, assignment of counted objects; cycles leak."
  },
  {
   "property": "C02",
   "status": "proved",
   "theorems": [
    "C02_safe",
    "C02_deleted_once",
    "C02_no_deadlock",
    "C02_no_mutex_refuted"
   ],
   "note": "With the mutex; without pthread support refuted."
  },
  {
   "property": "C03",
   "status": "proved",
   "theorems": [
    "C03_told",
    "C03_times",
    "C03_unhooked",
    "C03_destroyed",
    "C03_reentrant",
    "C03_self_unhook_refuted"
   ],
   "note": "Listeners may hook anybody and unhook others while told; unhooking oneself is refuted."
  },
  {
   "property": "C04",
   "status": "proved",
   "theorems": [
    "C04_range",
    "C04_range_index",
    "C04_range_zero_step_refuted",
    "C04_range_reversed_refuted",
    "C04_range_wrap_refuted",
    "C04_indices",
    "C04_angles",
    "C04_repeat_angle",
    "C04_null_indices_refuted",
    "C04_grid",
    "C04_grid_each_once",
    "C04_grid_size",
    "C04_grid_aliased_refuted",
    "C04_bucket_accepts",
    "C04_bucket_pixels",
    "C04_bucket_angles",
    "C04_bucket_size",
    "C04_empty"
   ],
   "note": "Ranges need max+step < 2^64 and step > 0; outside, refuted."
  },
  {
   "property": "C05",
   "status": "proved",
   "theorems": [
    "C05_threads",
    "C05_deterministic",
    "C05_gyoto_cube",
    "C05_masked",
    "C05_end_read_refuted",
    "C05_empty_refuted",
    "C05_null_data_refuted",
    "C05_not_rewound_refuted",
    "C05_pixel_zero_refuted"
   ],
   "note": "For sets readable after their end (pixel ranges); index lists are read past the end (refuted), NULL data, empty set, non-rewound set and pixel 0 refuted."
  },
  {
   "property": "C06",
   "status": "partial",
   "theorems": [
    "C06_message_partial",
    "C06_message_refuted",
    "C06_mpi_partial",
    "C06_same_as_threads_partial",
    "C06_two_spectra_refuted",
    "C06_no_worker_refuted"
   ],
   "note": "Full statement proved when at most one spectral quantity is requested; false with two (C06_message_refuted, C06_two_spectra_refuted)."
  },
  {
   "property": "C07",
   "status": "proved",
   "theorems": [
    "C07_advance_twice",
    "C07_advance_slots",
    "C07_requested_set",
    "C07_requested_constant",
    "C07_init",
    "C07_init_local"
   ],
   "note": ""
  },
  {
   "property": "C08",
   "status": "proved",
   "theorems": [
    "C08_disjoint",
    "C08_in_bounds",
    "C08_no_spare",
    "C08_requested",
    "C08_stride_int_refuted"
   ],
   "note": "For res*res < 2^31; refuted beyond (int stride)."
  },
  {
   "property": "C09",
   "status": "proved",
   "theorems": [
    "C09_names",
    "C09_round_trip",
    "C09_stokes_group",
    "C09_unknown_name",
    "C09_counts",
    "C09_units_refuted",
    "C09_string_reuse_refuted",
    "C09_parallel_transport"
   ],
   "note": "Units are not part of the round trip (refuted); the setter damages its argument (refuted)."
  },
  {
   "property": "C10",
   "status": "proved",
   "theorems": [
    "C10_history",
    "C10_ordered",
    "C10_no_initial_condition_refuted",
    "C10_hit_wrap_refuted",
    "C10_hit_forward_refuted"
   ],
   "note": "Storage of Worldline and of Photon::hit, all histories and integrators. Three findings: no initial condition, hit back from index 0, hit forward from the last index."
  },
  {
   "property": "C11",
   "status": "proved",
   "theorems": [
    "C11_lookup",
    "C11_unique"
   ],
   "note": "Any request list in any order, with extension of the path on demand; integrator assumed to respect the direction of time."
  },
  {
   "property": "C12",
   "status": "proved",
   "theorems": [
    "C12_resample"
   ],
   "note": "Over the reals; dir is +1 or -1."
  },
  {
   "property": "C13",
   "status": "proved",
   "theorems": [
    "C13_limit",
    "C13_adaptive",
    "C13_composite",
    "C13_legacy_refuted"
   ],
   "note": "Worldline/Metric deltaMax, Boost adaptive stepping with an arbitrary controlled stepper, composite objects. Finding: the legacy integrator makes steps above the limit."
  },
  {
   "property": "C14",
   "status": "proved",
   "theorems": [
    "C14_state",
    "C14_screen",
    "C14_phi_range_refuted",
    "C14_three_plus_one_refuted",
    "C14_basis_refuted"
   ],
   "note": "Worldline::checkPhiTheta and Screen direction angles over the reals. Findings: closed phi range, 3+1 states, polarisation basis."
  },
  {
   "property": "C15",
   "status": "proved",
   "theorems": [
    "C15_value",
    "C15_minimum",
    "C15_rounding_refuted"
   ],
   "note": "findValue and findMin over the reals, any object function. Finding: no termination under rounding."
  },
  {
   "property": "C16",
   "status": "proved",
   "theorems": [
    "C16_channels",
    "C16_observed",
    "C16_range",
    "C16_max",
    "C16_refined",
    "C16_polarised",
    "C16_copy",
    "C16_copy_matrix_refuted",
    "C16_resize_refuted",
    "C16_max_observed_refuted"
   ],
   "note": "Scalars and matrices, all histories with a spectrometer that keeps its number of channels; polarised transfer solves the transfer equation. Copies of the matrices, resized spectrometers and the maximum with an empty spectrometer are refuted."
  },
  {
   "property": "C17",
   "status": "proved",
   "theorems": [
    "C17_lookup",
    "C17_roundtrip",
    "C17_units",
    "C17_errors",
    "C17_names",
    "C17_xml",
    "C17_title_refuted",
    "C17_hidden_refuted"
   ],
   "note": "lookup, round trip, units, errors, names, XML round trip for tables without repeated names; two findings"
  },
  {
   "property": "C18",
   "status": "proved",
   "theorems": [
    "C18_path",
    "C18_effect",
    "C18_missing"
   ],
   "note": "object paths over a heap of objects"
  },
  {
   "property": "C19",
   "status": "proved",
   "theorems": [
    "C19_history",
    "C19_incompatible",
    "C19_scalars",
    "C19_integers",
    "C19_numbers",
    "C19_negative_refuted"
   ],
   "note": "histories of values; a negative integer read as unsigned is a finding"
  },
  {
   "property": "C20",
   "status": "proved",
   "theorems": [
    "C20_find",
    "C20_attribution",
    "C20_listed",
    "C20_missing",
    "C20_any",
    "C20_fallback_unused",
    "C20_sound",
    "C20_errmode_refuted",
    "C20_attribution_refuted"
   ],
   "note": "All registers, lists and histories of requests; plug-in initialisation functions load no other plug-in. Null mode on an empty register and attribution after a throwing initialisation are refuted."
  },
  {
   "property": "C21",
   "status": "proved",
   "theorems": [
    "C21_load",
    "C21_list",
    "C21_policy",
    "C21_path",
    "C21_empty_entry_refuted"
   ],
   "note": "All lists of comma-free entries; loading order and failures for every set of available plug-ins. Empty entries between commas are a finding."
  },
  {
   "property": "C22",
   "status": "proved",
   "theorems": [
    "C22_split",
    "C22_join"
   ],
   "note": "All strings and delimiter sets."
  },
  {
   "property": "C23",
   "status": "proved",
   "theorems": [
    "C23_roundtrip",
    "C23_bounded",
    "C23_array",
    "C23_extremes",
    "C23_precision_refuted",
    "C23_extreme_array_refuted",
    "C23_empty_array_refuted",
    "C23_zero_length_refuted"
   ],
   "note": "All lists of numbers that read back one by one as printed, all texts and maxima. That 15 digits make single doubles read back is refuted."
  },
  {
   "property": "C24",
   "status": "proved",
   "theorems": [
    "C24_write",
    "C24_inconsistent",
    "C24_consistent",
    "C24_scenery",
    "C24_read",
    "C24_photon_refuted"
   ],
   "note": "writing over arbitrary object graphs, reading over arbitrary request sequences with layered construction"
  },
  {
   "property": "C25",
   "status": "proved",
   "theorems": [
    "C25_rotation",
    "C25_orthonormal",
    "C25_space_sky_space",
    "C25_sky_space_sky",
    "C25_refused_refuted"
   ],
   "note": "every history of settings in which no position is refused; spherical round trip where the coordinates are unique"
  },
  {
   "property": "C26",
   "status": "proved",
   "theorems": [
    "C26_roundtrip",
    "C26_units",
    "C26_last_asked"
   ],
   "note": "Cartesian position at the origin excluded (it has no direction)"
  },
  {
   "property": "C27",
   "status": "proved",
   "theorems": [
    "C27_frequency",
    "C27_frequency_refuted",
    "C27_length",
    "C27_duration_refuted",
    "C27_time",
    "C27_mass",
    "C27_geometrical",
    "C27_geometrical_time",
    "C27_alias_refuted",
    "C27_refused",
    "C27_tables"
   ],
   "note": "with and without udunits (an argument that promises inverse conversions); exceptions refuted: durations as lengths with udunits, frequencies without udunits, deprecated time unit name; field of view: see C54"
  },
  {
   "property": "C28",
   "status": "proved",
   "theorems": [
    "C28_tables",
    "C28_total",
    "C28_unit",
    "C28_unit_refuted",
    "C28_kind_refuted",
    "C28_constructor_refuted",
    "C28_empty_refuted"
   ],
   "note": "Boundaries, channels, widths and midpoints after any history of settings and copies; totality; unit round trip for linear kinds. Refuted: units for logarithmic kinds, unknown kind name kept, number of boundaries of the four-argument constructor, no sample."
  },
  {
   "property": "C29",
   "status": "proved",
   "theorems": [
    "C29_concatenation",
    "C29_elements",
    "C29_twice_refuted",
    "C29_empty_refuted",
    "C29_copy_refuted",
    "C29_uniform"
   ],
   "note": "Concatenation after any history in which elements tell and are not present twice; uniform spectrometers with samples do. Refuted: an element present twice, an element set to no sample, copies."
  },
  {
   "property": "C30",
   "status": "proved",
   "theorems": [
    "C30_list",
    "C30_order",
    "C30_spectrometer_refuted",
    "C30_metric"
   ],
   "note": "List behaviour, memory safety and errors for all histories; composite metrics (kind check, sums). Refuted for spectrometers: index equal to the size reads beyond the array."
  },
  {
   "property": "C31",
   "status": "proved",
   "theorems": [
    "C31_kerr_bl",
    "C31_kerr_ks",
    "C31_flat"
   ],
   "note": "Kerr (BL, KS) and flat; other metrics not modelled"
  },
  {
   "property": "C32",
   "status": "partial",
   "theorems": [
    "C32_generic_partial",
    "C32_generic_refuted",
    "C32_circular_partial",
    "C32_circular_ergosphere_refuted"
   ],
   "note": "generic inversion: proved when coordinates are coupled at most two by two, refuted beyond; circular inversion: proved where g_tt is not zero, refuted on the ergosphere"
  },
  {
   "property": "C33",
   "status": "proved",
   "theorems": [
    "C33_kerr_bl",
    "C33_flat",
    "C33_kerr_ks",
    "C33_generic"
   ],
   "note": "Kerr (BL, KS), flat, and the default assembly for any metric"
  },
  {
   "property": "C34",
   "status": "proved",
   "theorems": [
    "C34_null",
    "C34_null_defined",
    "C34_velocity",
    "C34_circular"
   ],
   "note": "over the reals, any symmetric metric matrix"
  },
  {
   "property": "C35",
   "status": "proved",
   "theorems": [
    "C35_project",
    "C35_gram_schmidt",
    "C35_frame",
    "C35_tetrad",
    "C35_zamo",
    "C35_observer",
    "C35_signature",
    "C35_minkowski",
    "C35_minkowski_kepler",
    "C35_minkowski_refuted"
   ],
   "note": "over the reals, any metric of signature (-,+,+,+); in flat space the frame is the generic one in spherical coordinates, and in Cartesian ones an error (a finding, C35_minkowski_refuted)"
  },
  {
   "property": "C36",
   "status": "proved",
   "theorems": [
    "C36_answers",
    "C36_history",
    "C36_elementwise",
    "C36_polar_refuted"
   ],
   "note": "All subsets, all histories, all frequency counts. Provided methods are pure functions that fill the arrays they are given; doubles are reals. Refuted side finding: C36_polar_refuted."
  },
  {
   "property": "C37",
   "status": "proved",
   "theorems": [
    "C37_answers",
    "C37_inverse",
    "C37_no_metric_refuted",
    "C37_history_refuted"
   ],
   "note": "Every subset of provided methods, every history of calls: terminates, reads nothing unset, answers what the provided methods mean. Hypotheses: at least one form of the metric is provided, provided matrices are symmetric, and the library's inversion of this metric is symmetric (C37_inverse gives that from C32's condition). Provided methods are pure functions; numerical derivative by forward difference, over the reals."
  },
  {
   "property": "C38",
   "status": "partial",
   "theorems": [
    "C38_grid_value",
    "C38_grid_stationary",
    "C38_grid_between",
    "C38_grid_nodes",
    "C38_grid_emission",
    "C38_grid_spacing",
    "C38_grid_copy_refuted",
    "C38_grid_time_refuted",
    "C38_grid_last_time_refuted",
    "C38_grid_edge_refuted",
    "C38_grid_single_refuted",
    "C38_value",
    "C38_value_regular",
    "C38_stands",
    "C38_between",
    "C38_nodes",
    "C38_exact",
    "C38_constant",
    "C38_safe",
    "C38_none",
    "C38_null",
    "C38_periodic",
    "C38_mixed_refuted",
    "C38_last_refuted",
    "C38_single_refuted",
    "C38_periodic_origin_refuted",
    "C38_periodic_multiple_refuted",
    "C38_periodic_irregular_refuted"
   ],
   "note": "Proved away from the edges: value, bounds, nodes, exactness, boundary conditions, safety. At the last node, at the last time and for mixed or periodic conditions the claim is false of the code (the _refuted theorems)."
  },
  {
   "property": "C39",
   "status": "partial",
   "theorems": [
    "C39_sizes",
    "C39_spacing",
    "C39_refused",
    "C39_clone",
    "C39_clone_refuted",
    "C39_emission",
    "C39_passing",
    "C39_thick",
    "C39_velocity",
    "C39_outside",
    "C39_nodes",
    "C39_between",
    "C39_file",
    "C39_lift",
    "C39_edge_refuted",
    "C39_last_angle_refuted",
    "C39_beyond_refuted",
    "C39_rotating_refuted",
    "C39_repeat_refuted",
    "C39_dark_refuted",
    "C39_load_refuted",
    "C39_spacing_refuted",
    "C39_removed_refuted",
    "C39_file_stale_refuted"
   ],
   "note": "Sizes after every history of setters whose arguments are as long as announced, spacing after histories that keep the derived steps, and emission, transmission and velocity as bilinear interpolation between the tabulated nodes are proved. The unrestricted statement is false: see the _refuted theorems (copies with explicit radii, edges of explicit radii, last angle, repeated and rotating patterns, failed loads)."
  },
  {
   "property": "C40",
   "status": "proved",
   "theorems": [
    "C40_there_and_back",
    "C40_back_and_there",
    "C40_step",
    "C40_meaning"
   ],
   "note": "conversion there and back for any lapse and shift; the angle normalisation half of the statement is C14_state and C14_three_plus_one_refuted"
  },
  {
   "property": "C41",
   "status": "partial",
   "theorems": [
    "C41_check",
    "C41_orthonormal_partial",
    "C41_null_refuted",
    "C41_exchange_refuted"
   ],
   "note": "re-orthonormalising divides by zero for a null wave vector and exchanges the two vectors (refuted); what holds for other directions is proved"
  },
  {
   "property": "C42",
   "status": "partial",
   "theorems": [
    "C42_rotate",
    "C42_equation",
    "C42_transmission",
    "C42_compose",
    "C42_physical",
    "C42_unpolarised_refuted",
    "C42_emission",
    "C42_thin",
    "C42_thick_refuted",
    "C42_faraday_refuted"
   ],
   "note": "rotation, transmission, composition and physical Stokes vectors for every medium with polarised coefficients; emission in the general and thin regimes. Refuted: plain absorption without polarised coefficients is dropped (identity matrix), the thick approximation can be wrong by two orders of magnitude, the system is singular without absorption."
  },
  {
   "property": "C43",
   "status": "proved",
   "theorems": [
    "C43_accepted",
    "C43_history",
    "C43_again",
    "C43_file",
    "C43_settings",
    "C43_tuning",
    "C43_classic_refuted",
    "C43_integ31_refuted"
   ],
   "note": "Every name is accepted exactly when the build has it; through any history the integrator is the last one chosen; scene files restore it with every numerical setting; exceptions (classic variant's truncated name, 3+1 flag lost) proved as refutations."
  },
  {
   "property": "C44",
   "status": "proved",
   "theorems": [
    "C44_mask",
    "C44_set",
    "C44_resolution",
    "C44_unreadable",
    "C44_filename_refuted",
    "C44_scene"
   ],
   "note": "the stale mask file name after a resolution change is refuted; that masked pixels are not traced is C05_masked"
  },
  {
   "property": "C45",
   "status": "proved",
   "theorems": [
    "C45_restore",
    "C45_enter",
    "C45_modes_refuted"
   ],
   "note": "one debug mode at a time; passing from one non-zero mode to another is refuted"
  },
  {
   "property": "C46",
   "status": "proved",
   "theorems": [
    "C46_resolve"
   ],
   "note": "All strings; dirname() and getcwd() are arguments."
  },
  {
   "property": "C47",
   "status": "proved",
   "theorems": [
    "C47_result",
    "C47_terminates",
    "C47_positive",
    "C47_limit",
    "C47_order",
    "C47_affine",
    "C47_channels",
    "C47_oversampled",
    "C47_oversampled_0_refuted",
    "C47_opacity",
    "C47_opacity_band",
    "C47_negative_refuted",
    "C47_accuracy_refuted"
   ],
   "note": "All spectra as oracles, all bands, all depths; doubles are reals (the step nu += dnu is exact). Also the per-channel loop, opacity, and PolishDoughnut's subdivided channels with array bounds. Termination proved whenever the integral is positive; refuted for negative spectra."
  },
  {
   "property": "C48",
   "status": "partial",
   "theorems": [
    "C48_exact_partial",
    "C48_classes_partial",
    "C48_no_wrong_teller_partial",
    "C48_copy_refuted",
    "C48_refused_refuted",
    "C48_destroyed_refuted",
    "C48_never_hooked_refuted"
   ],
   "note": "Full statement for classes that validate before unhooking, hook in setter and copy, unhook in the destructor (PolishDoughnut, OscilTorus), and for Worldline/Shift without copies; refuted for the other classes."
  },
  {
   "property": "C49",
   "status": "proved",
   "theorems": [
    "C49_conjunction",
    "C49_screen_refuted"
   ],
   "note": "for objects without a screen property: with one, the query is an error (finding)"
  },
  {
   "property": "C50",
   "status": "proved",
   "theorems": [
    "C50_metric",
    "C50_set",
    "C50_metric_refuted"
   ],
   "note": "Holds from the moment the composite has a metric, and setting reaches all parts. Refuted when a part without metric is appended before one with a metric."
  },
  {
   "property": "C51",
   "status": "proved",
   "theorems": [
    "C51_rmax",
    "C51_deltamax",
    "C51_impact"
   ],
   "note": "Impact, radius and step limits for all lists of parts, hit patterns and refinements."
  },
  {
   "property": "C52",
   "status": "proved",
   "theorems": [
    "C52_direction",
    "C52_declination_refuted",
    "C52_pixels",
    "C52_single_pixel_refuted",
    "C52_rescale",
    "C52_azimuth_refuted",
    "C52_null_frame",
    "C52_null_infinity",
    "C52_same_direction",
    "C52_inclination_refuted",
    "C52_centre"
   ],
   "note": "documented exceptions are refuted separately: declination beyond the pole, one-pixel spherical screen, scaled azimuth, inclination outside (0, pi) in spherical coordinates"
  },
  {
   "property": "C53",
   "status": "proved",
   "theorems": [
    "C53_orthonormal",
    "C53_centre",
    "C53_spherical",
    "C53_cartesian",
    "C53_offset_refuted",
    "C53_inclination_refuted"
   ],
   "note": "without offsets of the field of view; diagonal metric at the observer in spherical coordinates; inclination in (0, pi) in Cartesian ones; the rest is refuted"
  },
  {
   "property": "C54",
   "status": "proved",
   "theorems": [
    "C54_fov_roundtrip",
    "C54_fov_alias_refuted",
    "C54_units",
    "C54_angle_refuted",
    "C54_angle_radian",
    "C54_names"
   ],
   "note": "the units without udunits; aliases that cannot be read and degrees of the viewing angles are refuted"
  },
  {
   "property": "C55",
   "status": "proved",
   "theorems": [
    "C55_kerr_bl",
    "C55_kerr_bl_scalar_product",
    "C55_kerr_ks",
    "C55_flat"
   ],
   "note": ""
  },
  {
   "property": "C56",
   "status": "proved",
   "theorems": [
    "C56_constants",
    "C56_round_trip",
    "C56_geodesic",
    "C56_carter",
    "C56_normalize",
    "C56_normalize_boundary_refuted",
    "C56_check_cons",
    "C56_negative_carter_refuted"
   ],
   "note": "Real arithmetic; the time derivative is a derivative, not the integrator's step. Two boundary findings refuted separately."
  },
  {
   "property": "C57",
   "status": "proved",
   "theorems": [
    "C57_null",
    "C57_zamo",
    "C57_tetrad"
   ],
   "note": "Real arithmetic; outside the outer horizon, off the axis."
  },
  {
   "property": "C58",
   "status": "proved",
   "theorems": [
    "C58_circular",
    "C58_geodesic"
   ],
   "note": "Non-Keplerian circularVelocity; the geodesic part at the equator, where the library's formula is meant to be exact."
  },
  {
   "property": "C59",
   "status": "proved",
   "theorems": [
    "C59_powerlaw",
    "C59_powerlaw_file",
    "C59_blackbody",
    "C59_blackbody_plain",
    "C59_correction_refuted",
    "C59_file_refuted"
   ],
   "note": "Histories of settings; black body under the stated order of settings, with the unrestricted claim refuted by C59_correction_refuted and C59_file_refuted."
  },
  {
   "property": "C60",
   "status": "proved",
   "theorems": [
    "C60_back",
    "C60_same_4d",
    "C60_same_31",
    "C60_pole_refuted"
   ],
   "note": "Fixed-step steps agree in 4D for every stepper, and in 3+1 while the angles stay in range; polar crossing refuted."
  },
  {
   "property": "C61",
   "status": "proved",
   "theorems": [
    "C61_bracket",
    "C61_root",
    "C61_end",
    "C61_ridders_refuted",
    "C61_secant_status",
    "C61_secant_affine",
    "C61_secant_refuted"
   ],
   "note": "Ridders: termination bound and answer for every function; root by the intermediate value theorem; secant: termination, status, affine case; refutations."
  },
  {
   "property": "C62",
   "status": "partial",
   "theorems": [
    "C62_bounds",
    "C62_times",
    "C62_once",
    "C62_twice_refuted",
    "C62_error_refuted"
   ],
   "note": "The bounds and the times are characterised for every history and agree after a first translation; the general claim is false of the code (C62_twice_refuted, C62_error_refuted)."
  },
  {
   "property": "C63",
   "status": "proved",
   "theorems": [
    "C63_runs",
    "C63_intensity",
    "C63_spectrum",
    "C63_channels",
    "C63_stokes",
    "C63_last",
    "C63_first",
    "C63_nothing",
    "C63_hidden",
    "C63_opaque_refuted",
    "C63_hidden_redshift_refuted",
    "C63_polarised_channels_refuted",
    "C63_stokes_alone_refuted",
    "C63_no_spectrometer_refuted",
    "C63_impact_polarised_refuted"
   ],
   "note": "Proved for every quantity; the cases in which the attenuation is not applied or the program stops (polarised channel averages, opaque matter with an idle spectrometer, redshift of hidden hits, Stokes parameters alone) are the _refuted theorems."
  },
  {
   "property": "C64",
   "status": "proved",
   "theorems": [
    "C64_result",
    "C64_end_inside",
    "C64_once",
    "C64_missed_refuted",
    "C64_zero_step_refuted",
    "C64_nearest",
    "C64_time_refuted"
   ],
   "note": "Standard::Impact; a single passage is a hypothesis of the covering theorem only"
  },
  {
   "property": "C65",
   "status": "proved",
   "theorems": [
    "C65_result",
    "C65_single_crossing",
    "C65_path",
    "C65_twice_refuted",
    "C65_missed_refuted",
    "C65_azimuth"
   ],
   "note": "ThinDisk::Impact"
  },
  {
   "property": "C66",
   "status": "proved",
   "theorems": [
    "C66_terminates",
    "C66_intervals",
    "C66_returned",
    "C66_returned_true",
    "C66_opaque",
    "C66_first",
    "C66_time",
    "C66_stops",
    "C66_order",
    "C66_users",
    "C66_users_sum",
    "C66_stuck",
    "C66_outgoing",
    "C66_secondary_refuted",
    "C66_max_order_refuted",
    "C66_null_refuted",
    "C66_user2_refuted",
    "C66_cartesian_refuted",
    "C66_forward_refuted",
    "C66_shadow_refuted",
    "C66_again_refuted",
    "C66_stuck_refuted"
   ],
   "note": "for a fresh ray; what the function does wrong in other settings is in the refuted theorems"
  },
  {
   "property": "C67",
   "status": "partial",
   "theorems": [
    "C67_symmetric",
    "C67_inverse",
    "C67_forms",
    "C67_forms_refuted",
    "C67_christoffel",
    "C67_christoffel_krz_partial",
    "C67_christoffel_krz_refuted",
    "C67_christoffel_bg_partial",
    "C67_christoffel_bg_refuted",
    "C67_limits",
    "C67_krz_kerr"
   ],
   "note": "full for Reissner-Nordstrom, harmonic Schwarzschild, Rezzolla-Zhidenko and Hayward (radius >= 0 for one contravariant coefficient); Konoplya-Rezzolla-Zhidenko only when the third asymptotic deformation is 0 and Balasin-Grumiller only in the equatorial plane: the rest is false of the code"
  },
  {
   "property": "C68",
   "status": "partial",
   "theorems": [
    "C68_unit",
    "C68_unit_projected_partial",
    "C68_unit_projected_refuted",
    "C68_geodesic",
    "C68_geodesic_krz_partial",
    "C68_direction",
    "C68_direction_refuted"
   ],
   "note": "full for Reissner-Nordstrom, harmonic Schwarzschild and Hayward; Chern-Simons, Rezzolla-Zhidenko and Konoplya-Rezzolla-Zhidenko ignore the direction, and the last two normalise only in the equatorial plane: the rest is false of the code"
  },
  {
   "property": "C69",
   "status": "proved",
   "theorems": [
    "C69_momentum",
    "C69_potential",
    "C69_energy_krz",
    "C69_krz_powers",
    "C69_krz_horizon",
    "C69_krz_ranges",
    "C69_krz_asymptotics",
    "C69_rz_parameters",
    "C69_k2pn_tied",
    "C69_k2pn_tied_refuted",
    "C69_k2pn_flat_refuted",
    "C69_throw_refuted",
    "C69_rz_copy_refuted",
    "C69_krz_copy_refuted",
    "C69_krz_spin_refuted",
    "C69_rn_stop_refuted",
    "C69_rn_stop"
   ],
   "note": "what the code does otherwise (copies, throws after storing, flat Kerr2PN) is in the _refuted theorems"
  },
  {
   "property": "C70",
   "status": "proved",
   "theorems": [
    "C70_rms",
    "C70_rmb",
    "C70_order",
    "C70_retrograde_refuted"
   ],
   "note": "for retrograde spins the order is refuted"
  },
  {
   "property": "C71",
   "status": "partial",
   "theorems": [
    "C71_spherical",
    "C71_cartesian",
    "C71_unique",
    "C71_poloidal_partial",
    "C71_poloidal_refuted",
    "C71_parabolic_partial",
    "C71_parabolic_refuted",
    "C71_refused",
    "C71_ipole",
    "C71_ipole_cartesian_refuted"
   ],
   "note": "All names in Cartesian coordinates, and Vertical, Radial, Toroidal in spherical coordinates, in full; uniqueness; ipole in Boyer-Lindquist coordinates. Poloidal and Parabolic in spherical coordinates hold only for an emitter that does not move in theta (C71_poloidal_partial, C71_parabolic_partial): the full claim is false of the code (C71_poloidal_refuted, C71_parabolic_refuted), as is that of ipole in Cartesian coordinates."
  },
  {
   "property": "C72",
   "status": "partial",
   "theorems": [
    "C72_theta",
    "C72_chi",
    "C72_double",
    "C72_turn",
    "C72_gauge",
    "C72_range",
    "C72_refused",
    "C72_electric_partial",
    "C72_electric_refuted"
   ],
   "note": "theta and the magnetic chi in full. The electric chi holds outside one quadrant (C72_electric_partial), in which the code throws (C72_electric_refuted)."
  },
  {
   "property": "C73",
   "status": "partial",
   "theorems": [
    "C73_page_accepts",
    "C73_page_bolometric",
    "C73_page_stokes",
    "C73_page_last",
    "C73_page_nothing",
    "C73_bolometric",
    "C73_bolometric_last",
    "C73_bolometric_nothing",
    "C73_profile_bolometric_partial",
    "C73_profile_spectrum_partial",
    "C73_profile_redshift_partial",
    "C73_stochastic_bolometric_partial",
    "C73_stochastic_spectrum_partial",
    "C73_stochastic_redshift_partial",
    "C73_stochastic_impact_partial",
    "C73_stochastic_nothing",
    "C73_page_spectrum_refuted",
    "C73_page_hidden_refuted",
    "C73_profile_null_refuted",
    "C73_several_refuted",
    "C73_profile_impact_refuted",
    "C73_profile_channels_refuted",
    "C73_noredshift_refuted"
   ],
   "note": "Page-Thorne and bolometric disks: all statements proved (with what they refuse); the profile and stochastic disks record one quantity at a time and need one channel: _partial theorems give the value of the one recorded, the _refuted ones show what is lost."
  },
  {
   "property": "C74",
   "status": "partial",
   "theorems": [
    "C74_law",
    "C74_roots",
    "C74_edge",
    "C74_positive",
    "C74_cartesian",
    "C74_intensity",
    "C74_temperature",
    "C74_inner",
    "C74_inner_kept",
    "C74_spin",
    "C74_temperature_refuted",
    "C74_mdot_refuted",
    "C74_mdot_one_refuted",
    "C74_retrograde_refuted",
    "C74_inner_stale_refuted"
   ],
   "note": "Proved for spins strictly between 0 and 1 (law, sign, coordinates, scale, history). The temperature uses inconsistent units, negative spins give negative emission and the inner radius does not follow the spin (refuted). Spin 0 and 1, where the formula divides by zero in exact arithmetic, are excluded."
  },
  {
   "property": "C75",
   "status": "partial",
   "theorems": [
    "C75_transparent",
    "C75_idle",
    "C75_no_orphans",
    "C75_all_leave",
    "C75_terminate",
    "C75_destroy",
    "C75_size",
    "C75_tool",
    "C75_stale_refuted",
    "C75_uncloned_refuted",
    "C75_world_again_refuted",
    "C75_spectrometer_refuted",
    "C75_world_shared_refuted",
    "C75_world_left_refuted"
   ],
   "note": "Proved for programs that spawn their own workers and clone after changes; the same claim for programs that do not clone, for several sceneries on MPI_COMM_WORLD, for a repeated mpiSpawn(-1) and for a spectrum without spectrometer is refuted."
  },
  {
   "property": "C76",
   "status": "proved",
   "theorems": [
    "C76_alone",
    "C76_safe",
    "C76_history",
    "C76_threads",
    "C76_masked",
    "C76_clone",
    "C76_clone_refuted",
    "C76_polar_refuted",
    "C76_stale_matrix_refuted",
    "C76_forward_refuted"
   ],
   "note": "for all worlds and photons; the four exceptions found are the _refuted theorems: the copy loses Integ31, the basis of the polarisation of a passed photon, the matrix without spectrometer, a photon set up forward"
  },
  {
   "property": "C77",
   "status": "proved",
   "theorems": [
    "C77_loads",
    "C77_safe",
    "C77_directional",
    "C77_directional_node",
    "C77_directional_bounds",
    "C77_atmosphere",
    "C77_xillver_azimuth",
    "C77_xillver_flux",
    "C77_xillver",
    "C77_xillver_period",
    "C77_above_table_refuted",
    "C77_photon_orbit_refuted",
    "C77_reload_refuted",
    "C77_failed_load_refuted",
    "C77_cutoffs_refuted",
    "C77_one_direction_refuted",
    "C77_atmosphere_layout_refuted",
    "C77_atmosphere_above_refuted",
    "C77_xillver_first_refuted",
    "C77_xillver_wrap_refuted",
    "C77_xillver_layout_refuted",
    "C77_xillver_cartesian_refuted",
    "C77_xillver_face_on_refuted",
    "C77_xillver_negative_phase_refuted",
    "C77_xillver_no_lamp_refuted",
    "C77_xillver_lamp",
    "C77_xillver_outside",
    "C77_grid_size"
   ],
   "note": "DirectionalDisk with its loading history; NeutronStarModelAtmosphere and XillverReflection from loaded tables. The axis order of the latter two is the code's, not the documented one (refuted separately)."
  },
  {
   "property": "C78",
   "status": "proved",
   "theorems": [
    "C78_sizes",
    "C78_clone",
    "C78_tabulated",
    "C78_velocity",
    "C78_missed",
    "C78_seen",
    "C78_impact",
    "C78_stay",
    "C78_short_refuted",
    "C78_thin_refuted",
    "C78_far_refuted",
    "C78_length_refuted",
    "C78_second_refuted",
    "C78_opacity_refuted",
    "C78_badfile_refuted",
    "C78_ends_refuted",
    "C78_repeat_refuted",
    "C78_gap_refuted",
    "C78_mirror_refuted",
    "C78_edges",
    "C78_opacity",
    "C78_velocity_given",
    "C78_emission_given"
   ],
   "note": "grid tables, nearest node, Impact; deviations are proved as C78_*_refuted"
  },
  {
   "property": "C79",
   "status": "proved",
   "theorems": [
    "C79_within",
    "C79_at_date",
    "C79_thin",
    "C79_thin_safe",
    "C79_loaded",
    "C79_grid",
    "C79_thin_dates",
    "C79_emission",
    "C79_passing",
    "C79_velocity",
    "C79_rest",
    "C79_clone",
    "C79_jump_refuted",
    "C79_clone_refuted",
    "C79_retry_refuted",
    "C79_unloaded_refuted",
    "C79_stale_refuted",
    "C79_hole_refuted",
    "C79_norm_refuted",
    "C79_grid_refuted"
   ],
   "note": "dates, loading, emission, transmission, velocity; deviations are proved as C79_*_refuted"
  },
  {
   "property": "C80",
   "status": "proved",
   "theorems": [
    "C80_stored",
    "C80_photon",
    "C80_free",
    "C80_free_proper",
    "C80_massive",
    "C80_massive_exact",
    "C80_proper",
    "C80_cartesian",
    "C80_agree",
    "C80_index",
    "C80_vector",
    "C80_request_refuted",
    "C80_null_refuted",
    "C80_azimuth_refuted",
    "C80_save_refuted",
    "C80_index_refuted"
   ],
   "note": "the false readings are C80_request_refuted, C80_null_refuted, C80_azimuth_refuted, C80_save_refuted and C80_index_refuted"
  },
  {
   "property": "C81",
   "status": "proved",
   "theorems": [
    "C81_general",
    "C81_norm",
    "C81_numerical",
    "C81_refuses",
    "C81_axisymmetric",
    "C81_kerr"
   ],
   "note": "for any space-time given by lapse, shift and spatial metric, for stationary numerical metrics, and for Kerr outside the horizon and off the axis; equations only, not their numerical integration"
  },
  {
   "property": "C82",
   "status": "partial",
   "theorems": [
    "C82_slice",
    "C82_after",
    "C82_linear",
    "C82_cubic",
    "C82_constant",
    "C82_nbeta",
    "C82_before_refuted",
    "C82_before",
    "C82_derivatives_partial",
    "C82_derivatives_refuted",
    "C82_metric",
    "C82_metric_index",
    "C82_metric_at",
    "C82_regular",
    "C82_one_slice",
    "C82_christoffel",
    "C82_coefficient_partial",
    "C82_dtheta",
    "C82_dr_partial",
    "C82_up_dr",
    "C82_kepler",
    "C82_circular",
    "C82_potential",
    "C82_stop",
    "C82_horizon",
    "C82_stationary",
    "C82_metric_refuted",
    "C82_up_refuted",
    "C82_dr_refuted",
    "C82_coefficient_refuted",
    "C82_date_refuted",
    "C82_circular_refuted"
   ],
   "note": "Partial because the full statement is false of the code (see the refuted theorems): dates before the first slice, derivatives near the ends of the table, off-diagonal spatial metrics, the inverse metric, the r-derivative of g_tt off the equator, twelve components of the one-component Christoffel function, and 3+1 equations at dates other than 0. Everything else is proved."
  },
  {
   "property": "C83",
   "status": "partial",
   "theorems": [
    "C83_pixels",
    "C83_accepted",
    "C83_scene",
    "C83_unknown",
    "C83_sigfpe_refuted",
    "C83_impact_options",
    "C83_image",
    "C83_image_rest_refuted",
    "C83_command_image",
    "C83_impact",
    "C83_impact_other",
    "C83_impact_twice",
    "C83_traces",
    "C83_no_null",
    "C83_usage",
    "C83_unreadable",
    "C83_asked",
    "C83_zero_refuted",
    "C83_half_refuted",
    "C83_negative_step_refuted",
    "C83_negative_refuted",
    "C83_null_step_refuted",
    "C83_null_step",
    "C83_exponent_refuted",
    "C83_largest_refuted",
    "C83_refused"
   ],
   "note": "full statement is false of the code: see the _refuted theorems (values that cannot be honoured are accepted; pixels not asked for hold uninitialised memory; --no-sigfpe does the opposite). Proved for positive integer numerals that fit an int."
  },
  {
   "property": "C84",
   "status": "partial",
   "theorems": [
    "C84_average",
    "C84_average_between",
    "C84_isotropic_refuted",
    "C84_isotropic",
    "C84_thermal",
    "C84_kirchhoff",
    "C84_kirchhoff_polarised",
    "C84_same_I",
    "C84_same_I_power",
    "C84_same_I_kappa",
    "C84_increment",
    "C84_thermal_positive",
    "C84_thermal_linear",
    "C84_overpolarised_refuted",
    "C84_cold",
    "C84_cold_refuted",
    "C84_unchanged_partial",
    "C84_unchanged_refuted",
    "C84_thick",
    "C84_density",
    "C84_power_range",
    "C84_low_frequency_refuted",
    "C84_power_positive",
    "C84_power_index",
    "C84_power_polarised",
    "C84_kappa_emission",
    "C84_kappa_absorption",
    "C84_kappa_index",
    "C84_kappa_rotations",
    "C84_kappa_fit_refuted",
    "C84_kappa_polarised",
    "C84_kappa_floor",
    "C84_brems",
    "C84_brems_positive",
    "C84_brems_kirchhoff",
    "C84_brems_increment",
    "C84_brems_density"
   ],
   "note": "Kirchhoff, signs, polarisation bounds, spectral indices, increments and settings proved for all inputs; refuted: the average of an isotropic quantity, unchanged spectrum after averaging, circular polarisation below the emission, low frequencies of the power law, kappa between the fits"
  },
  {
   "property": "C85",
   "status": "partial",
   "theorems": [
    "C85_sphere_settings",
    "C85_sphere_steps",
    "C85_alpha",
    "C85_sphere_transmission",
    "C85_transmission_composes",
    "C85_transmission_range",
    "C85_sphere_emission",
    "C85_null_spectrum",
    "C85_sphere_integral",
    "C85_isotropic_integrated_refuted",
    "C85_inside",
    "C85_unknown_refused",
    "C85_value_defined",
    "C85_harmonic_front_partial",
    "C85_harmonic_behind_refuted",
    "C85_no_skip",
    "C85_fixed_reach",
    "C85_fixed_moved_refuted",
    "C85_star_reach_refuted",
    "C85_star_skipped_refuted",
    "C85_star_reach",
    "C85_fixed_position",
    "C85_fixed_three",
    "C85_fixed_at_rest",
    "C85_fixed_velocity",
    "C85_fixed_ergo_refuted",
    "C85_star_file",
    "C85_star_no_position",
    "C85_star_calls",
    "C85_position_resets",
    "C85_second_position_refuted",
    "C85_free_velocity",
    "C85_free_needs_position",
    "C85_free_coord_refuted",
    "C85_free_short",
    "C85_free_uniform",
    "C85_free_roundtrip_refuted",
    "C85_free_derivative_refuted",
    "C85_free_cartesian_refuted",
    "C85_inflate",
    "C85_inflate_default_refuted",
    "C85_window",
    "C85_window_order",
    "C85_window_refuted",
    "C85_trace_in_sync",
    "C85_trace_points",
    "C85_trace_metric",
    "C85_trace_value",
    "C85_trace_gap_refuted",
    "C85_spot_distance",
    "C85_spot_beamed",
    "C85_spot",
    "C85_spot_refused",
    "C85_spot_transparent"
   ],
   "note": "where the code differs (SchwarzschildHarmonic behind the centre, stale or signed reach, isotropic integrals, second positions, FreeStar read-back and derivatives, default InflateStar, StarTrace window and gaps) a refuted theorem shows it; the rest is proved"
  },
  {
   "property": "C86",
   "status": "partial",
   "theorems": [
    "C86_blob_settings",
    "C86_blob_init",
    "C86_blob_refused_refuted",
    "C86_blob_roundtrip_partial",
    "C86_blob_roundtrip_refuted",
    "C86_blob_start",
    "C86_blob_motion",
    "C86_blob_cylinder",
    "C86_blob_cone",
    "C86_blob_no_radial",
    "C86_blob_velocity",
    "C86_blob_modulation",
    "C86_blob_three_sigma",
    "C86_blob_sigma_refuted",
    "C86_plasmoid_file_refuted",
    "C86_plasmoid_rmax",
    "C86_plasmoid_radius",
    "C86_plasmoid_max_refuted",
    "C86_plasmoid_velocity",
    "C86_plasmoid_refused_refuted",
    "C86_plasmoid_path",
    "C86_plasmoid_motion_refuted",
    "C86_plasmoid_circular",
    "C86_plasmoid_field",
    "C86_plasmoid_field_refuted",
    "C86_plasmoid_time_refuted",
    "C86_plasmoid_settings"
   ],
   "note": "the false parts are refuted: see the findings"
  },
  {
   "property": "C87",
   "status": "partial",
   "theorems": [
    "C87_torus_drift",
    "C87_torus_reversed_refuted",
    "C87_torus_shape",
    "C87_torus_velocity",
    "C87_torus_at_rest",
    "C87_torus_norm_refuted",
    "C87_torus_beta_refuted",
    "C87_surface_velocity",
    "C87_surface_velocity_refuted",
    "C87_line",
    "C87_line_unit_refuted",
    "C87_line_velocity_refuted",
    "C87_line_velocity",
    "C87_pl",
    "C87_pl_default_refuted",
    "C87_pattern",
    "C87_thick",
    "C87_thick_box",
    "C87_thick_opening_refuted",
    "C87_thick_above_refuted",
    "C87_profile_unit",
    "C87_profile_radial",
    "C87_profile_plunge",
    "C87_profile_circular",
    "C87_profile_mixed",
    "C87_profile_kerr",
    "C87_profile_params",
    "C87_profile_emission",
    "C87_profile_default_refuted"
   ],
   "note": "the false parts are refuted: see the findings"
  },
  {
   "property": "C88",
   "status": "partial",
   "theorems": [
    "C88_layer",
    "C88_torus_shape",
    "C88_torus_settings",
    "C88_torus_extent",
    "C88_torus_rmax_refuted",
    "C88_torus_step",
    "C88_torus_velocity",
    "C88_torus_velocity_refuted",
    "C88_torus_light",
    "C88_torus_spectrum_refuted",
    "C88_thick_settings",
    "C88_thick_checked",
    "C88_thick_refused_refuted",
    "C88_thick_plasma",
    "C88_plasma_field",
    "C88_thick_inner_refuted",
    "C88_thick_light",
    "C88_thick_polar",
    "C88_thick_absorption_refuted",
    "C88_thick_velocity",
    "C88_thick_circular",
    "C88_thick_accepted",
    "C88_thick_cartesian_refuted",
    "C88_jet_settings",
    "C88_jet_checked",
    "C88_jet_refused_refuted",
    "C88_jet_shape",
    "C88_jet_unset_refuted",
    "C88_jet_base",
    "C88_jet_density",
    "C88_jet_base_refuted",
    "C88_jet_velocity",
    "C88_jet_wall_refuted",
    "C88_jet_lorentz_refuted",
    "C88_jet_cartesian_refuted",
    "C88_jet_combined",
    "C88_jet_field_refuted",
    "C88_jet_light"
   ],
   "note": "Proved for the shapes, the laws, the settings, the layers, the velocities and the combined field; the refuted theorems list where the code does otherwise (refused values kept, inner radius and absorption of polarised images, coordinates unchecked, base of a cone, outer wall, sign of the Lorentz factor, exponent of the field)."
  },
  {
   "property": "C89",
   "status": "partial",
   "theorems": [
    "C89_answers",
    "C89_history",
    "C89_proper",
    "C89_geodesics",
    "C89_nested",
    "C89_null",
    "C89_mass",
    "C89_masses",
    "C89_mass_alone",
    "C89_stop",
    "C89_kind_refuted",
    "C89_circular_refuted"
   ],
   "note": "All but the last sentence, which is refuted by C89_kind_refuted and C89_circular_refuted."
  },
  {
   "property": "C90",
   "status": "partial",
   "theorems": [
    "C90_newton",
    "C90_conserved",
    "C90_velocity",
    "C90_spherical",
    "C90_circular",
    "C90_circular_refuted",
    "C90_used",
    "C90_centre",
    "C90_axis_refuted"
   ],
   "note": "Newton's law, conservation, agreement of both kinds of coordinates (for a positive sine of the colatitude), the Cartesian velocity, the use of the law, and circular orbits in the plane. Circular velocity off the plane and the spherical form past the axis are refuted."
  },
  {
   "property": "C91",
   "status": "partial",
   "theorems": [
    "C91_shape",
    "C91_settings",
    "C91_field",
    "C91_default_refuted",
    "C91_plasma",
    "C91_surface",
    "C91_light",
    "C91_velocity",
    "C91_cartesian_refuted",
    "C91_strength_refuted",
    "C91_tables",
    "C91_one_grid",
    "C91_tables_refuted"
   ],
   "note": "Proved for one grid and spherical coordinates; refuted for tables of several grids, Cartesian coordinates, the default index and the strength of a field from a table. Reading FITS files and the angle between field and light are not modelled."
  },
  {
   "property": "C92",
   "status": "partial",
   "theorems": [
    "C92_linear",
    "C92_cubic",
    "C92_adaptive",
    "C92_ends",
    "C92_order_partial",
    "C92_straight",
    "C92_stop",
    "C92_fuel",
    "C92_steps"
   ],
   "note": "The order of a step is proved for linear laws and for rates that are cubics of the time; for general laws only the control of the step, its end and its bounds."
  },
  {
   "property": "C93",
   "status": "partial",
   "theorems": [
    "C93_settings",
    "C93_lambda",
    "C93_shape",
    "C93_velocity",
    "C93_inside",
    "C93_change_refuted",
    "C93_error_refuted",
    "C93_adaf_refuted"
   ],
   "note": "Proved without ChangeCusp and without errors; refuted for ChangeCusp set after Lambda, for a refused AngMomRinner and for the empty element ADAF. The searches are taken to find a zero; how well they do is in C61."
  },
  {
   "property": "C94",
   "status": "partial",
   "theorems": [
    "C94_settings",
    "C94_read",
    "C94_modes",
    "C94_amplitude",
    "C94_epicyclic",
    "C94_surface",
    "C94_rest",
    "C94_centre",
    "C94_thickness",
    "C94_period",
    "C94_velocity",
    "C94_flow",
    "C94_kepler",
    "C94_orbit",
    "C94_fold",
    "C94_ends",
    "C94_table_refuted",
    "C94_growth_refuted",
    "C94_unit_refuted",
    "C94_copy_refuted"
   ],
   "note": "Proved without LargeRadius given with a unit; the light is proved at and beyond the ends of the table only. Refuted: the light between two rows, LargeRadius with a unit, the file name of a copy."
  },
  {
   "property": "C95",
   "status": "partial",
   "theorems": [
    "C95_sizes",
    "C95_file",
    "C95_write",
    "C95_complete",
    "C95_given",
    "C95_intensity",
    "C95_copy",
    "C95_average",
    "C95_refused",
    "C95_copy_refuted",
    "C95_file_refuted",
    "C95_name_refuted",
    "C95_axis_refuted"
   ],
   "note": "Proved: sizes agree after every history in which no file reading fails (C95_sizes); complete files (C95_file), writing and reading back (C95_write, C95_complete), tables given one by one (C95_given, C95_intensity), which calls are refused (C95_refused), the setting (C95_average), copies (C95_copy). The rest is false of the code: a file that fails after its image leaves axes of other sizes (C95_file_refuted), a refused call still changes the file name or drops the axis (C95_name_refuted, C95_axis_refuted), a copy names no file (C95_copy_refuted)."
  },
  {
   "property": "C96",
   "status": "partial",
   "theorems": [
    "C96_settings",
    "C96_where",
    "C96_velocity",
    "C96_kerr",
    "C96_light",
    "C96_cartesian_refuted"
   ],
   "note": "Proved: settings (C96_settings), shape (C96_where), velocity in any stationary axisymmetric metric in spherical coordinates, and that no other velocity is meant (C96_velocity), that of Kerr (C96_kerr), light (C96_light). In Cartesian coordinates the velocity is not radial and the check lets it pass far from the centre (C96_cartesian_refuted)."
  }
 ]
}