{
 "claims": [
  {
   "property": "C01",
   "status": "proved",
   "theorems": [
    "C01_rotation_is_rodrigues",
    "C01_rotation_rigid",
    "C01_rotation_fixes_axis",
    "C01_rotation_composes",
    "C01_rotation_undone",
    "C01_rotation_raises"
   ],
   "note": ""
  },
  {
   "property": "C02",
   "status": "proved",
   "theorems": [
    "C02_angle_is_geometric",
    "C02_angle_symmetric",
    "C02_angle_scale_free",
    "C02_angle_raises"
   ],
   "note": ""
  },
  {
   "property": "C03",
   "status": "proved",
   "theorems": [
    "C03_normalized_unit",
    "C03_normalized_raises"
   ],
   "note": ""
  },
  {
   "property": "C04",
   "status": "proved",
   "theorems": [
    "C04_inverse_two_sided",
    "C04_inverse_raises",
    "C04_determinant_is_volume"
   ],
   "note": ""
  },
  {
   "property": "C05",
   "status": "proved",
   "theorems": [
    "C05_mat3_times_vector",
    "C05_mat3_scaled",
    "C05_mat3_transpose",
    "C05_mat3_plus",
    "C05_mat3_diagonal",
    "C05_mat3_columns",
    "C05_mat3_times_mat36",
    "C05_mat36_columns",
    "C05_mat36_times_vector",
    "C05_mat36_transpose",
    "C05_mat36_times_mat63",
    "C05_mat63_columns",
    "C05_mat63_transpose",
    "C05_mat63_times_mat3",
    "C05_mat63_times_vector",
    "C05_mat63_times_mat36",
    "C05_mat66_identity",
    "C05_mat66_diagonal",
    "C05_mat66_columns",
    "C05_mat66_times_vector",
    "C05_mat66_transpose",
    "C05_mat66_times_mat63",
    "C05_mat66_times_mat66",
    "C05_mat66_plus",
    "C05_mat66_minus",
    "C05_vec6_plus",
    "C05_vec6_minus",
    "C05_vec6_dot",
    "C05_product_associative",
    "C05_product_acts",
    "C05_transpose_of_product",
    "C05_identity_left",
    "C05_identity_right"
   ],
   "note": ""
  },
  {
   "property": "C06",
   "status": "proved",
   "theorems": [
    "C06_angular_noise",
    "C06_angular_noise_raises",
    "C06_magnitude_noise",
    "C06_with_noise"
   ],
   "note": ""
  },
  {
   "property": "C07",
   "status": "proved",
   "theorems": [
    "C07_cross_product"
   ],
   "note": ""
  },
  {
   "property": "C08",
   "status": "proved",
   "theorems": [
    "C08_mean_motion",
    "C08_period",
    "C08_vis_viva"
   ],
   "note": ""
  },
  {
   "property": "C09",
   "status": "proved",
   "theorems": [
    "C09_ellipse",
    "C09_momentum_of_parameter",
    "C09_parameter_of_momentum",
    "C09_B_raises",
    "C09_E_from_a_b_raises",
    "C09_E_from_a_p_raises",
    "C09_H_raises"
   ],
   "note": ""
  },
  {
   "property": "C10",
   "status": "proved",
   "theorems": [
    "C10_energy_speed",
    "C10_energy_axis",
    "C10_conic_speed"
   ],
   "note": ""
  },
  {
   "property": "C11",
   "status": "proved",
   "theorems": [
    "C11_kepler_residual",
    "C11_kepler_error",
    "C11_kepler_nonnegative"
   ],
   "note": ""
  },
  {
   "property": "C12",
   "status": "proved",
   "theorems": [
    "C12_kepler_terminates"
   ],
   "note": ""
  },
  {
   "property": "C13",
   "status": "proved",
   "theorems": [
    "C13_MA_of_EA",
    "C13_EA_of_MA",
    "C13_kepler_unique"
   ],
   "note": ""
  },
  {
   "property": "C14",
   "status": "proved",
   "theorems": [
    "C14_true_anomaly",
    "C14_true_anomaly_raises"
   ],
   "note": ""
  },
  {
   "property": "C15",
   "status": "proved",
   "theorems": [
    "C15_RAAN_range",
    "C15_U_range",
    "C15_NU_range",
    "C15_EA_range",
    "C15_W_range",
    "C15_MA_range",
    "C15_I_range",
    "C15_I_reaches_pi"
   ],
   "note": ""
  },
  {
   "property": "C16",
   "status": "proved",
   "theorems": [
    "C16_legendre_table",
    "C16_spec_power",
    "C16_spec_derivative",
    "C16_sentinel",
    "C16_derivative"
   ],
   "note": ""
  },
  {
   "property": "C17",
   "status": "proved",
   "theorems": [
    "C17_day_number",
    "C17_consecutive",
    "C17_origin"
   ],
   "note": ""
  },
  {
   "property": "C18",
   "status": "proved",
   "theorems": [
    "C18_increasing",
    "C18_injective",
    "C18_elapsed"
   ],
   "note": ""
  },
  {
   "property": "C19",
   "status": "proved",
   "theorems": [
    "C19_floors_exact",
    "C19_epoch_error"
   ],
   "note": ""
  },
  {
   "property": "C20",
   "status": "proved",
   "theorems": [
    "C20_range",
    "C20_polynomial",
    "C20_rate"
   ],
   "note": ""
  },
  {
   "property": "C21",
   "status": "proved",
   "theorems": [
    "C21_precession",
    "C21_rotation",
    "C21_rotation_angle",
    "C21_nutation_stretch",
    "C21_nutation_isometry_iff",
    "C21_nutation_rotation_refuted"
   ],
   "note": ""
  },
  {
   "property": "C22",
   "status": "proved",
   "theorems": [
    "C22_gcrf_itrf_gcrf",
    "C22_itrf_gcrf_itrf",
    "C22_exact_round_trip_refuted"
   ],
   "note": ""
  },
  {
   "property": "C23",
   "status": "proved",
   "theorems": [
    "C23_sun_distance",
    "C23_moon_distance",
    "C23_sun_in_ecliptic"
   ],
   "note": ""
  },
  {
   "property": "C24",
   "status": "proved",
   "theorems": [
    "C24_earth",
    "C24_earth_centre",
    "C24_attraction_magnitude",
    "C24_moon",
    "C24_sun",
    "C24_vanishes_at_centre"
   ],
   "note": ""
  },
  {
   "property": "C25",
   "status": "proved",
   "theorems": [
    "C25_cartesian_spherical_cartesian",
    "C25_ranges",
    "C25_spherical_cartesian_spherical"
   ],
   "note": ""
  },
  {
   "property": "C26",
   "status": "proved",
   "theorems": [
    "C26_lla_itrf_lla"
   ],
   "note": ""
  },
  {
   "property": "C27",
   "status": "proved",
   "theorems": [
    "C27_itrf_lla_itrf"
   ],
   "note": ""
  },
  {
   "property": "C28",
   "status": "proved",
   "theorems": [
    "C28_axes",
    "C28_to_itrf"
   ],
   "note": ""
  },
  {
   "property": "C29",
   "status": "proved",
   "theorems": [
    "C29_rotation",
    "C29_raises"
   ],
   "note": ""
  },
  {
   "property": "C30",
   "status": "proved",
   "theorems": [
    "C30_hcw_gcrf_hcw"
   ],
   "note": ""
  },
  {
   "property": "C31",
   "status": "proved",
   "theorems": [
    "C31_gcrf_hcw_gcrf",
    "C31_origin_is_zero"
   ],
   "note": ""
  },
  {
   "property": "C32",
   "status": "proved",
   "theorems": [
    "C32_copy",
    "C32_copy_is_duplicate_refuted"
   ],
   "note": ""
  },
  {
   "property": "C33",
   "status": "proved",
   "theorems": [
    "C33_gradient",
    "C33_acceleration",
    "C33_coefficients"
   ],
   "note": ""
  },
  {
   "property": "C34",
   "status": "proved",
   "theorems": [
    "C34_two_body",
    "C34_perturbed",
    "C34_centre_raises",
    "C34_axis_raises"
   ],
   "note": ""
  },
  {
   "property": "C35",
   "status": "proved",
   "theorems": [
    "C35_srp_never_applied",
    "C35_scalar",
    "C35_scalar_computed",
    "C35_size_ignored"
   ],
   "note": ""
  },
  {
   "property": "C36",
   "status": "proved",
   "theorems": [
    "C36_from_ijk",
    "C36_rectilinear",
    "C36_unbound"
   ],
   "note": ""
  },
  {
   "property": "C37",
   "status": "proved",
   "theorems": [
    "C37_to_ijk",
    "C37_terminates"
   ],
   "note": ""
  },
  {
   "property": "C38",
   "status": "proved",
   "theorems": [
    "C38_round_trip"
   ],
   "note": ""
  },
  {
   "property": "C39",
   "status": "proved",
   "theorems": [
    "C39_orientation_lost",
    "C39_position_lost",
    "C39_round_trip_refuted"
   ],
   "note": ""
  },
  {
   "property": "C40",
   "status": "proved",
   "theorems": [
    "C40_consistent",
    "C40_signs",
    "C40_reverse",
    "C40_bad_radius"
   ],
   "note": ""
  },
  {
   "property": "C41",
   "status": "proved",
   "theorems": [
    "C41_step_to_epoch_lands",
    "C41_step_advances",
    "C41_steps_advance"
   ],
   "note": ""
  },
  {
   "property": "C42",
   "status": "proved",
   "theorems": [
    "C42_fewest_substeps",
    "C42_settings_restored",
    "C42_already_there",
    "C42_substep_bound"
   ],
   "note": ""
  },
  {
   "property": "C43",
   "status": "proved",
   "theorems": [
    "C43_step_size_left",
    "C43_thruster_left_on",
    "C43_failed_step"
   ],
   "note": ""
  },
  {
   "property": "C44",
   "status": "proved",
   "theorems": [
    "C44_rocket_law",
    "C44_magnitude",
    "C44_off",
    "C44_off_after_maneuver",
    "C44_exhausted",
    "C44_no_direction"
   ],
   "note": ""
  },
  {
   "property": "C45",
   "status": "proved",
   "theorems": [
    "C45_rocket_equation",
    "C45_increasing",
    "C45_maneuver_duration",
    "C45_zero_parameter"
   ],
   "note": ""
  },
  {
   "property": "C46",
   "status": "proved",
   "theorems": [
    "C46_classical_step",
    "C46_defined",
    "C46_scheme_exact",
    "C46_scheme_linear"
   ],
   "note": ""
  },
  {
   "property": "C47",
   "status": "proved",
   "theorems": [
    "C47_constructor_resets",
    "C47_step_resets",
    "C47_any_history_resets",
    "C47_later_stages_perturbed"
   ],
   "note": ""
  },
  {
   "property": "C48",
   "status": "proved",
   "theorems": [
    "C48_rate",
    "C48_bad_axis",
    "C48_solves",
    "C48_only_solution",
    "C48_uniqueness"
   ],
   "note": ""
  },
  {
   "property": "C49",
   "status": "proved",
   "theorems": [
    "C49_total_time",
    "C49_two_steps",
    "C49_zero_step",
    "C49_backwards",
    "C49_default_steps"
   ],
   "note": ""
  },
  {
   "property": "C50",
   "status": "proved",
   "theorems": [
    "C50_epoch_lost",
    "C50_wrong_unless"
   ],
   "note": ""
  },
  {
   "property": "C51",
   "status": "proved",
   "theorems": [
    "C51_symmetric",
    "C51_semidefinite",
    "C51_variances"
   ],
   "note": ""
  },
  {
   "property": "C52",
   "status": "proved",
   "theorems": [
    "C52_positive_definite",
    "C52_process_outcome",
    "C52_near_target"
   ],
   "note": ""
  },
  {
   "property": "C53",
   "status": "proved",
   "theorems": [
    "C53_gain",
    "C53_optimal",
    "C53_measurement_helps",
    "C53_below_measurement"
   ],
   "note": ""
  },
  {
   "property": "C54",
   "status": "proved",
   "theorems": [
    "C54_estimate_is_propagated_state",
    "C54_clock",
    "C54_prediction",
    "C54_predicted_covariance",
    "C54_measurement",
    "C54_interval"
   ],
   "note": ""
  },
  {
   "property": "C55",
   "status": "proved",
   "theorems": [
    "C55_rejected",
    "C55_short_prediction"
   ],
   "note": ""
  },
  {
   "property": "C56",
   "status": "proved",
   "theorems": [
    "C56_angles",
    "C56_space_angles"
   ],
   "note": ""
  },
  {
   "property": "C57",
   "status": "proved",
   "theorems": [
    "C57_angles_and_range",
    "C57_points_back",
    "C57_site_from_position"
   ],
   "note": ""
  },
  {
   "property": "C58",
   "status": "proved",
   "theorems": [
    "C58_w",
    "C58_f",
    "C58_loop",
    "C58_residual"
   ],
   "note": ""
  },
  {
   "property": "C59",
   "status": "proved",
   "theorems": [
    "C59_camera",
    "C59_characterization",
    "C59_scaling",
    "C59_tracking_minimum",
    "C59_raises"
   ],
   "note": ""
  },
  {
   "property": "C60",
   "status": "proved",
   "theorems": [
    "C60_detection",
    "C60_never_raises"
   ],
   "note": ""
  },
  {
   "property": "C61",
   "status": "proved",
   "theorems": [
    "C61_defined",
    "C61_fades",
    "C61_target_ignored",
    "C61_observer_radius"
   ],
   "note": ""
  },
  {
   "property": "C62",
   "status": "proved",
   "theorems": [
    "C62_axes",
    "C62_points"
   ],
   "note": ""
  },
  {
   "property": "C63",
   "status": "proved",
   "theorems": [
    "C63_start_lvlh",
    "C63_start_sun",
    "C63_start_target",
    "C63_rate",
    "C63_cleared",
    "C63_no_restart",
    "C63_invariant"
   ],
   "note": ""
  },
  {
   "property": "C64",
   "status": "proved",
   "theorems": [
    "C64_retarget_ignored",
    "C64_history"
   ],
   "note": ""
  },
  {
   "property": "C65",
   "status": "proved",
   "theorems": [
    "C65_synchronised",
    "C65_synchronised_step",
    "C65_in_sync_link_stops"
   ],
   "note": ""
  },
  {
   "property": "C66",
   "status": "proved",
   "theorems": [
    "C66_failed_track",
    "C66_stuck"
   ],
   "note": ""
  },
  {
   "property": "C67",
   "status": "proved",
   "theorems": [
    "C67_impulsive",
    "C67_radial"
   ],
   "note": ""
  },
  {
   "property": "C68",
   "status": "proved",
   "theorems": [
    "C68_direction",
    "C68_backwards_refuted",
    "C68_equatorial"
   ],
   "note": ""
  },
  {
   "property": "C69",
   "status": "proved",
   "theorems": [
    "C69_propellant_grows"
   ],
   "note": ""
  },
  {
   "property": "C70",
   "status": "proved",
   "theorems": [
    "C70_midnight"
   ],
   "note": ""
  },
  {
   "property": "C71",
   "status": "proved",
   "theorems": [
    "C71_plus_days"
   ],
   "note": ""
  },
  {
   "property": "C72",
   "status": "proved",
   "theorems": [
    "C72_srp"
   ],
   "note": ""
  },
  {
   "property": "C73",
   "status": "proved",
   "theorems": [
    "C73_delivered_fraction",
    "C73_mass_restarts"
   ],
   "note": ""
  },
  {
   "property": "C74",
   "status": "proved",
   "theorems": [
    "C74_derivative_defined",
    "C74_step_to_epoch_succeeds",
    "C74_maneuver_succeeds",
    "C74_clear_region"
   ],
   "note": ""
  },
  {
   "property": "C75",
   "status": "proved",
   "theorems": [
    "C75_through",
    "C75_flight",
    "C75_distinct"
   ],
   "note": ""
  },
  {
   "property": "C76",
   "status": "proved",
   "theorems": [
    "C76_equatorial",
    "C76_refuted"
   ],
   "note": ""
  },
  {
   "property": "C77",
   "status": "proved",
   "theorems": [
    "C77_normal",
    "C77_latitude",
    "C77_perigee",
    "C77_state_on_orbit"
   ],
   "note": ""
  },
  {
   "property": "C78",
   "status": "proved",
   "theorems": [
    "C78_energy",
    "C78_momentum",
    "C78_apse_line",
    "C78_motion_exists"
   ],
   "note": ""
  },
  {
   "property": "C79",
   "status": "proved",
   "theorems": [
    "C79_elements",
    "C79_circular"
   ],
   "note": ""
  },
  {
   "property": "C80",
   "status": "proved",
   "theorems": [
    "C80_predict"
   ],
   "note": ""
  },
  {
   "property": "C81",
   "status": "proved",
   "theorems": [
    "C81_elements_round_trip"
   ],
   "note": ""
  },
  {
   "property": "C82",
   "status": "proved",
   "theorems": [
    "C82_same_clock",
    "C82_landing",
    "C82_single_step",
    "C82_exact_landing_refuted"
   ],
   "note": ""
  },
  {
   "property": "C83",
   "status": "proved",
   "theorems": [
    "C83_tracking_ends",
    "C83_never_level"
   ],
   "note": ""
  },
  {
   "property": "C84",
   "status": "proved",
   "theorems": [
    "C84_wrap",
    "C84_full_turn",
    "C84_perigee_refuted",
    "C84_remainder_exact",
    "C84_remainder_range",
    "C84_remainder_top"
   ],
   "note": ""
  },
  {
   "property": "C85",
   "status": "proved",
   "theorems": [
    "C85_consistent",
    "C85_from_here",
    "C85_exact"
   ],
   "note": ""
  },
  {
   "property": "C86",
   "status": "proved",
   "theorems": [
    "C86_look_ahead",
    "C86_restored"
   ],
   "note": ""
  },
  {
   "property": "C87",
   "status": "proved",
   "theorems": [
    "C87_revolutions",
    "C87_bounded",
    "C87_ellipse",
    "C87_conserved"
   ],
   "note": ""
  },
  {
   "property": "C88",
   "status": "proved",
   "theorems": [
    "C88_observation",
    "C88_noise_free",
    "C88_raises",
    "C88_feeds_truth",
    "C88_accepted"
   ],
   "note": ""
  },
  {
   "property": "C89",
   "status": "proved",
   "theorems": [
    "C89_acquired",
    "C89_refused",
    "C89_wrong_target",
    "C89_untouched",
    "C89_process",
    "C89_process_first",
    "C89_history"
   ],
   "note": ""
  },
  {
   "property": "C90",
   "status": "proved",
   "theorems": [
    "C90_one_root",
    "C90_solver",
    "C90_success",
    "C90_recovers"
   ],
   "note": ""
  },
  {
   "property": "C91",
   "status": "proved",
   "theorems": [
    "C91_fast",
    "C91_perigee_refuted"
   ],
   "note": ""
  },
  {
   "property": "C92",
   "status": "proved",
   "theorems": [
    "C92_accuracy",
    "C92_circular_refuted",
    "C92_geostationary_refuted"
   ],
   "note": ""
  },
  {
   "property": "C93",
   "status": "proved",
   "theorems": [
    "C93_pole_refuted",
    "C93_equator"
   ],
   "note": ""
  },
  {
   "property": "C94",
   "status": "proved",
   "theorems": [
    "C94_frame",
    "C94_distances",
    "C94_ground",
    "C94_space",
    "C94_same_orbit",
    "C94_recovers",
    "C94_noise"
   ],
   "note": ""
  },
  {
   "property": "C95",
   "status": "proved",
   "theorems": [
    "C95_terminates",
    "C95_accuracy"
   ],
   "note": ""
  },
  {
   "property": "C96",
   "status": "proved",
   "theorems": [
    "C96_state",
    "C96_roundtrip"
   ],
   "note": ""
  },
  {
   "property": "C97",
   "status": "proved",
   "theorems": [
    "C97_error_bound",
    "C97_steps_converge",
    "C97_way_points_converge",
    "C97_clear_region"
   ],
   "note": ""
  },
  {
   "property": "C98",
   "status": "proved",
   "theorems": [
    "C98_exists",
    "C98_unique",
    "C98_stable"
   ],
   "note": ""
  },
  {
   "property": "C99",
   "status": "proved",
   "theorems": [
    "C99_second_order"
   ],
   "note": ""
  },
  {
   "property": "C100",
   "status": "proved",
   "theorems": [
    "C100_rates",
    "C100_circular",
    "C100_any_orbit",
    "C100_eccentric_refuted"
   ],
   "note": ""
  },
  {
   "property": "C101",
   "status": "proved",
   "theorems": [
    "C101_fourth_order",
    "C101_way_points"
   ],
   "note": ""
  },
  {
   "property": "C102",
   "status": "proved",
   "theorems": [
    "C102_one_step",
    "C102_steps"
   ],
   "note": ""
  },
  {
   "property": "C103",
   "status": "proved",
   "theorems": [
    "C103_route",
    "C103_there_and_back",
    "C103_two_routes"
   ],
   "note": ""
  },
  {
   "property": "C104",
   "status": "proved",
   "theorems": [
    "C104_accuracy",
    "C104_pointed",
    "C104_self_refuted",
    "C104_apart_refuted"
   ],
   "note": ""
  },
  {
   "property": "C105",
   "status": "proved",
   "theorems": [
    "C105_days",
    "C105_short_crossings"
   ],
   "note": ""
  },
  {
   "property": "C106",
   "status": "proved",
   "theorems": [
    "C106_accuracy",
    "C106_within_day",
    "C106_range"
   ],
   "note": ""
  },
  {
   "property": "C107",
   "status": "proved",
   "theorems": [
    "C107_to_hill",
    "C107_everywhere_refuted"
   ],
   "note": ""
  },
  {
   "property": "C108",
   "status": "proved",
   "theorems": [
    "C108_to_inertial",
    "C108_round_trip"
   ],
   "note": ""
  },
  {
   "property": "C109",
   "status": "proved",
   "theorems": [
    "C109_sun",
    "C109_year",
    "C109_moon",
    "C109_sun_eastward",
    "C109_moon_eastward",
    "C109_phases"
   ],
   "note": ""
  },
  {
   "property": "C110",
   "status": "proved",
   "theorems": [
    "C110_precession",
    "C110_obliquity"
   ],
   "note": ""
  },
  {
   "property": "C111",
   "status": "proved",
   "theorems": [
    "C111_isolated",
    "C111_frame",
    "C111_new",
    "C111_copy",
    "C111_vector_list_refuted"
   ],
   "note": ""
  },
  {
   "property": "C112",
   "status": "proved",
   "theorems": [
    "C112_estimates",
    "C112_propagator_refuted"
   ],
   "note": ""
  },
  {
   "property": "C113",
   "status": "proved",
   "theorems": [
    "C113_from_cartesian",
    "C113_to_cartesian",
    "C113_round_trip",
    "C113_angles"
   ],
   "note": ""
  },
  {
   "property": "C114",
   "status": "proved",
   "theorems": [
    "C114_site",
    "C114_observation",
    "C114_back"
   ],
   "note": ""
  },
  {
   "property": "C115",
   "status": "proved",
   "theorems": [
    "C115_to_itrf",
    "C115_to_gcrf",
    "C115_round_trip"
   ],
   "note": ""
  },
  {
   "property": "C116",
   "status": "proved",
   "theorems": [
    "C116_angles_and_range"
   ],
   "note": ""
  },
  {
   "property": "C117",
   "status": "proved",
   "theorems": [
    "C117_elements",
    "C117_plane"
   ],
   "note": ""
  },
  {
   "property": "C118",
   "status": "proved",
   "theorems": [
    "C118_sun",
    "C118_moon",
    "C118_track"
   ],
   "note": ""
  },
  {
   "property": "C119",
   "status": "proved",
   "theorems": [
    "C119_earth",
    "C119_moon",
    "C119_sun",
    "C119_srp"
   ],
   "note": ""
  },
  {
   "property": "C120",
   "status": "proved",
   "theorems": [
    "C120_gravity",
    "C120_derivative",
    "C120_two_body"
   ],
   "note": ""
  },
  {
   "property": "C121",
   "status": "proved",
   "theorems": [
    "C121_step",
    "C121_error"
   ],
   "note": ""
  },
  {
   "property": "C122",
   "status": "proved",
   "theorems": [
    "C122_steps",
    "C122_motion"
   ],
   "note": ""
  },
  {
   "property": "C123",
   "status": "proved",
   "theorems": [
    "C123_parts",
    "C123_short",
    "C123_motion"
   ],
   "note": ""
  },
  {
   "property": "C124",
   "status": "proved",
   "theorems": [
    "C124_duration",
    "C124_delivered"
   ],
   "note": ""
  },
  {
   "property": "C125",
   "status": "proved",
   "theorems": [
    "C125_accurate",
    "C125_ignition",
    "C125_off"
   ],
   "note": ""
  }
 ]
}