{
 "claims": [
  {
   "property": "C01",
   "status": "proved",
   "theorems": [
    "C01_gamma_and_momentum_agree",
    "C01_no_invalid_operation",
    "C01_double_partial",
    "C01_double_refuted",
    "C01_double_speed_refuted"
   ],
   "note": "real arithmetic; the second theorem runs the code model over checked reals (invalid operations have no value); mass must be nonzero. In double precision the identity holds up to 2^-45 if the rotation during half a step is at most 1/4 in every component; it fails for very large rotations (refuted by a witness) and the speed reaches c at gamma = 2^30"
  },
  {
   "property": "C02",
   "status": "proved",
   "theorems": [
    "C02_step_solves_equation_of_motion",
    "C02_setup_solves_half_step"
   ],
   "note": "real arithmetic"
  },
  {
   "property": "C03",
   "status": "proved",
   "theorems": [
    "C03_magnetic_field_does_no_work",
    "C03_work_energy_balance",
    "C03_double"
   ],
   "note": "real arithmetic; momentum carried between steps; in double precision the energy changes by less than 2^-44 of its value per step if the rotation during half a step is at most 1/4 in every component"
  },
  {
   "property": "C04",
   "status": "proved",
   "theorems": [
    "C04_field_free_motion",
    "C04_start_point",
    "C04_double"
   ],
   "note": "real arithmetic; in double precision the momentum is kept exactly and the position up to a proved rounding error"
  },
  {
   "property": "C05",
   "status": "proved",
   "theorems": [
    "C05_sequences_consistent",
    "C05_current_is_last",
    "C05_step_appends",
    "C05_setup_keeps_points",
    "C05_time_stamps",
    "C05_double",
    "C05_double_order"
   ],
   "note": "set-up recomputes the acceleration of the last point; time stamps over real arithmetic, in double precision up to a proved rounding error and never decreasing"
  },
  {
   "property": "C06",
   "status": "proved",
   "theorems": [
    "C06_time_reversal"
   ],
   "note": "real arithmetic"
  },
  {
   "property": "C07",
   "status": "proved",
   "theorems": [
    "C07_setup_without_trajectory_throws",
    "C07_setup_with_trajectory",
    "C07_access_inside",
    "C07_access_outside",
    "C07_field_without_trajectory_throws",
    "C07_field_with_trajectory",
    "C07_retarded_outside",
    "C07_retarded_inside",
    "C07_step_without_setup"
   ],
   "note": "any number type"
  },
  {
   "property": "C08",
   "status": "partial",
   "theorems": [
    "C08_shift_partial",
    "C08_mirror_partial",
    "C08_shift_refuted",
    "C08_mirror_refuted",
    "C08_mirror_step_refuted",
    "C08_shift_step"
   ],
   "note": "the code leaves the last stored point unmoved (loop bound NP-1): full statement refuted"
  },
  {
   "property": "C09",
   "status": "proved",
   "theorems": [
    "C09_coordinates_at_time"
   ],
   "note": "real arithmetic"
  },
  {
   "property": "C10",
   "status": "proved",
   "theorems": [
    "C10_radiation_geometry",
    "C10_direction_is_unit",
    "C10_coulomb_field_at_rest"
   ],
   "note": "real arithmetic"
  },
  {
   "property": "C11",
   "status": "partial",
   "theorems": [
    "C11_uniform_motion_partial",
    "C11_field_of_start_at_zero",
    "C11_start_time_refuted"
   ],
   "note": "holds for trajectories starting at time zero; for every other start time the code extrapolates as if the start time were zero (refuted)"
  },
  {
   "property": "C12",
   "status": "proved",
   "theorems": [
    "C12_search_brackets_light_cone",
    "C12_no_field_after_end",
    "C07_field_with_trajectory"
   ],
   "note": "real arithmetic for the bracket; termination and index safety for any number type"
  },
  {
   "property": "C13",
   "status": "proved",
   "theorems": [
    "C13_arrival_order",
    "C13_retarded_time",
    "C13_tracking_is_subluminal",
    "C13_single_point_start"
   ],
   "note": "real arithmetic"
  },
  {
   "property": "C14",
   "status": "partial",
   "theorems": [
    "C14_bucket_average_partial",
    "C14_bucket_average_subluminal_partial",
    "C14_total_partial",
    "C14_sampling_partial",
    "C14_completed_partial",
    "C14_long_trace_refuted"
   ],
   "note": "real arithmetic; exact for every trace of less than 2^31 samples whenever the integration completes (C14_completed_partial; exactly when it does: C15_defined); longer traces are silently ignored (refuted)"
  },
  {
   "property": "C15",
   "status": "partial",
   "theorems": [
    "C15_no_range_exception_partial",
    "C15_defined",
    "C15_lower_edge_refuted",
    "C15_upper_edge_refuted",
    "C15_far_signal_refuted",
    "C15_negative_step_refuted",
    "C15_negative_step",
    "C15_zero_step_refuted"
   ],
   "note": "holds in real arithmetic; in double precision a signal starting within one ulp of the trace edge is refused with an exception (refuted); far signals leave the range of int (refuted; exactly which ones, and that nothing else fails: C15_defined); with a negative time step a trajectory covering the trace raises the exception, with the time step zero it is undefined (refuted)"
  },
  {
   "property": "C16",
   "status": "partial",
   "theorems": [
    "C16_at_sample",
    "C16_between_samples",
    "C16_zero_outside_partial",
    "C16_zero_outside_refuted",
    "C16_far_time_refuted"
   ],
   "note": "interpolation proved; the code ramps to zero within one step outside the trace (refuted)"
  },
  {
   "property": "C17",
   "status": "proved",
   "theorems": [
    "C17_sum",
    "C17_difference",
    "C17_sum_then_difference",
    "C17_commutative",
    "C17_associative",
    "C17_scaling",
    "C17_assignment"
   ],
   "note": "real arithmetic"
  },
  {
   "property": "C18",
   "status": "proved",
   "theorems": [
    "C18_export",
    "C18_export_import",
    "C18_size_mismatch",
    "C18_index_outside",
    "C18_index_inside",
    "C18_short_buffer"
   ],
   "note": "any number type"
  },
  {
   "property": "C19",
   "status": "partial",
   "theorems": [
    "C19_linear_signal",
    "C19_quadratic_signal",
    "C19_defined_partial",
    "C19_short_trace_refuted"
   ],
   "note": "real arithmetic; undefined for traces of fewer than two samples (refuted)"
  },
  {
   "property": "C20",
   "status": "proved",
   "theorems": [
    "C20_samples",
    "C20_refused_without_energy",
    "C20_identity",
    "C20_shift"
   ],
   "note": "real arithmetic; target different from the source"
  },
  {
   "property": "C21",
   "status": "proved",
   "theorems": [
    "C21_transform_invariants",
    "C21_transform_components",
    "C21_cancel"
   ],
   "note": "real arithmetic"
  },
  {
   "property": "C22",
   "status": "partial",
   "theorems": [
    "C22_snapshot_round_trip_partial",
    "C22_empty_snapshot_refuted",
    "C22_length"
   ],
   "note": "holds for particles with trajectory; a particle without one comes back with an invented point"
  },
  {
   "property": "C23",
   "status": "proved",
   "theorems": [
    "C23_transparent_restart",
    "C23_empty_trajectory_undefined",
    "C23_length"
   ],
   "note": "any number type"
  },
  {
   "property": "C24",
   "status": "partial",
   "theorems": [
    "C24_copy_equivalent",
    "C24_bunch_copy_equivalent",
    "C24_probe_of_copy_refuted",
    "C24_copy_of_restored_undefined"
   ],
   "note": "equivalent for trajectory/tracking; local fields reported to probes are not copied; copying a particle restored without pre-allocation is undefined"
  },
  {
   "property": "C25",
   "status": "proved",
   "theorems": [
    "C25_scale",
    "C25_gaussian",
    "C25_correlation",
    "C25_correlation_undone",
    "C25_set_and_get",
    "C25_out_of_range",
    "C25_buffer_round_trip",
    "C25_buffer_size_refused",
    "C25_sub_distribution"
   ],
   "note": "any number type (undoing a correlation: real arithmetic); sizes within int; nonexistent particles of a sub-distribution are zero, documented as random"
  },
  {
   "property": "C26",
   "status": "proved",
   "theorems": [
    "C26_correlation",
    "C26_out_of_range",
    "C26_no_trajectory"
   ],
   "note": "real arithmetic for the mean; every particle is restarted from its first trajectory point"
  },
  {
   "property": "C27",
   "status": "partial",
   "theorems": [
    "C27_average_time",
    "C27_average_position",
    "C27_average_momentum",
    "C27_rms_position",
    "C27_rms_is_standard_deviation",
    "C27_average_gamma",
    "C27_momentum_spread_partial",
    "C27_values",
    "C27_bunching_value",
    "C27_bunching_factor",
    "C27_double_average",
    "C27_double_rms",
    "C27_double_gamma",
    "C27_empty_bunch_refuted",
    "C27_spread_at_rest_refuted",
    "C27_double_refuted"
   ],
   "note": "real arithmetic, nonempty bunches; the empty bunch and the spread of a bunch at rest divide by zero (refuted). In double precision averages and standard deviations are correct up to about n rounding errors and the average relativistic factor is at least one; the averages may leave the range of the values by a rounding error, the deviation of equal values need not be zero (refuted)"
  },
  {
   "property": "C28",
   "status": "proved",
   "theorems": [
    "C28_buffer_size",
    "C28_round_trip",
    "C28_order"
   ],
   "note": "any number type; buffer size within int"
  },
  {
   "property": "C29",
   "status": "partial",
   "theorems": [
    "C29_setup_refused",
    "C29_step_refused_partial",
    "C29_step_unchanged_refuted",
    "C29_counter",
    "C29_steps_after_setup"
   ],
   "note": "a refused step is counted nevertheless (refuted)"
  },
  {
   "property": "C30",
   "status": "proved",
   "theorems": [
    "C30_number_of_particles",
    "C30_total_charge",
    "C30_operations_keep_totals",
    "C30_copy_keeps_totals",
    "C30_requests",
    "C30_replace",
    "C30_build"
   ],
   "note": "any number type, total charge in real arithmetic"
  },
  {
   "property": "C31",
   "status": "partial",
   "theorems": [
    "C31_order",
    "C31_probe_partial",
    "C31_record",
    "C31_too_many_refuted",
    "C31_no_bunch_refuted"
   ],
   "note": "holds up to the number of particles; the loop does not end for larger requests (refuted), undefined for a beam without bunches (refuted)"
  },
  {
   "property": "C32",
   "status": "partial",
   "theorems": [
    "C32_distribution_partial",
    "C32_share",
    "C32_sizes",
    "C32_overflow_refuted",
    "C32_overflow_iff_refuted"
   ],
   "note": "any number type; holds whenever the int buffer sizes do not overflow, which they do if and only if N + P or 10 P ceil(N/P) is not an int (refuted)"
  },
  {
   "property": "C33",
   "status": "partial",
   "theorems": [
    "C33_same_as_one_process_partial",
    "C33_number_of_nodes_partial",
    "C33_recorded_trajectories",
    "C33_overflow_refuted",
    "C33_number_of_nodes_refuted"
   ],
   "note": "any number type, any fields depending on the recorded beam; needs the int buffer sizes not to overflow; if they do the run is undefined, with the same beam on some numbers of nodes and not on others (refuted)"
  },
  {
   "property": "C34",
   "status": "proved",
   "theorems": [
    "C34_sum_over_nodes",
    "C34_run_and_observe",
    "C34_new_observers"
   ],
   "note": "over the reals, nodes summed in rank order; for observers within the size limits of C36"
  },
  {
   "property": "C35",
   "status": "partial",
   "theorems": [
    "C35_samples",
    "C35_sampled_once",
    "C35_lattice_times_nodes",
    "C35_one_node_partial",
    "C35_depends_on_nodes_refuted"
   ],
   "note": "holds for one node only: every node computes the whole lattice field and the root takes the sum, so P nodes report P times the field"
  },
  {
   "property": "C36",
   "status": "partial",
   "theorems": [
    "C36_buffer_size_partial",
    "C36_overflow_refuted",
    "C36_reduction_refuted"
   ],
   "note": "holds below 2^32 values (screen, snapshot), 2^31 (mesh); beyond that the size wraps or overflows and the export writes behind the buffer (refuted)"
  },
  {
   "property": "C37",
   "status": "proved",
   "theorems": [
    "C37_round_trip",
    "C37_export",
    "C37_import",
    "C37_places",
    "C37_not_mixed",
    "C37_sums",
    "C37_wrong_size"
   ],
   "note": "any number type; for observers within the size limits of C36"
  },
  {
   "property": "C38",
   "status": "proved",
   "theorems": [
    "C38_every_schedule",
    "C38_same_result"
   ],
   "note": "any number type, any assignment to threads, any granularity of the atomic accesses; the unsynchronised read of the progress counter for printing is not part of the fields"
  },
  {
   "property": "C39",
   "status": "proved",
   "theorems": [
    "C39_removal",
    "C39_exactly",
    "C39_index"
   ],
   "note": ""
  },
  {
   "property": "C40",
   "status": "partial",
   "theorems": [
    "C40_harmless",
    "C40_parameter_log_partial",
    "C40_due",
    "C40_trajectory_log_partial",
    "C40_probe_log_partial",
    "C40_probe_depends_on_nodes_refuted",
    "C40_watch",
    "C40_zero_refuted",
    "C40_negative_refuted"
   ],
   "note": "Proved for all positive step widths: logging leaves the run unchanged, 1+k/s records in the steps 0,s,2s,..., all columns equally long, rows written as recorded; watch points written exactly once in the requested step. Refuted for the other widths the parser accepts: 0 divides by zero, negative widths record the initial state only. The number of particles in the probe file depends on the number of nodes."
  },
  {
   "property": "C41",
   "status": "proved",
   "theorems": [
    "C41_screen_cells",
    "C41_snapshot_cells",
    "C41_out_of_range"
   ],
   "note": "sizes up to the largest int"
  },
  {
   "property": "C42",
   "status": "partial",
   "theorems": [
    "C42_frame_partial",
    "C42_not_orthogonal_refuted"
   ],
   "note": "the two screen directions are orthogonal only if the stored ones are or if |dX|=1; counterexample proved"
  },
  {
   "property": "C43",
   "status": "partial",
   "theorems": [
    "C43_cells",
    "C43_defined",
    "C43_triangle",
    "C43_frame_partial",
    "C43_single_cell_partial",
    "C43_frame_refuted",
    "C43_energy",
    "C43_energy_additive"
   ],
   "note": "normal, area and energy hold; the frame is degenerate for normals along -y (refuted), orthonormal otherwise for a single cell"
  },
  {
   "property": "C44",
   "status": "partial",
   "theorems": [
    "C44_neighbours_partial",
    "C44_itself_refuted",
    "C44_buffer_refuted",
    "C44_overrun",
    "C44_fan_refuted"
   ],
   "note": "the list is exact but includes the cell itself, and can exceed the 24 entries provided by the callers"
  },
  {
   "property": "C45",
   "status": "proved",
   "theorems": [
    "C45_boundary",
    "C45_amplitude",
    "C45_energy_flow",
    "C45_involution",
    "C45_orientation",
    "C45_trace",
    "C45_mesh_energy"
   ],
   "note": "real arithmetic; also for traces with any nonzero normal and for whole meshes"
  },
  {
   "property": "C46",
   "status": "proved",
   "theorems": [
    "C46_normal_derivative",
    "C46_frames"
   ],
   "note": "real arithmetic; the frames of the mesh are right-handed wherever they are defined (see C43)"
  },
  {
   "property": "C47",
   "status": "proved",
   "theorems": [
    "C47_sum",
    "C47_only_sum",
    "C47_order",
    "C47_add",
    "C47_remove",
    "C47_count",
    "C47_refused"
   ],
   "note": "real arithmetic; up to 2^31-1 elements"
  },
  {
   "property": "C48",
   "status": "proved",
   "theorems": [
    "C48_displaced",
    "C48_displaced_lattice"
   ],
   "note": "real arithmetic; every localized field"
  },
  {
   "property": "C49",
   "status": "partial",
   "theorems": [
    "C49_planar",
    "C49_planar_value",
    "C49_tgu_value",
    "C49_taper",
    "C49_tgu_partial",
    "C49_modulation_refuted",
    "C49_tgu_amplitude_refuted",
    "C49_overflow_refuted"
   ],
   "note": "everything for the planar undulator with positive period; the gradient undulator is continuous and zero outside, satisfies Maxwell's equations only without modulation and exceeds the nominal amplitude (refuted)"
  },
  {
   "property": "C50",
   "status": "proved",
   "theorems": [
    "C50_hard",
    "C50_soft",
    "C50_soft_value",
    "C50_reversed_outside",
    "C50_zero_transition_refuted"
   ],
   "note": "real arithmetic, transition lengths > 0; zero length divides by zero; outside both planes the soft-edge field is reversed instead of zero"
  },
  {
   "property": "C51",
   "status": "proved",
   "theorems": [
    "C51_wave",
    "C51_packet",
    "C51_amplitude_reached",
    "C51_profile",
    "C51_envelope",
    "C51_travels"
   ],
   "note": "real arithmetic; wave length and Rayleigh range > 0"
  },
  {
   "property": "C52",
   "status": "partial",
   "theorems": [
    "C52_grid_size",
    "C52_deposit_partial",
    "C52_deposit_any",
    "C52_step_partial",
    "C52_deposit",
    "C52_step_iff",
    "C52_field_partial",
    "C52_field_far_refuted",
    "C52_small_grid_refuted",
    "C52_large_grid_refuted",
    "C52_nan_refuted"
   ],
   "note": "Proved for grids of 2 to 2^31-12 cells and finite positions: deposits stay in the grid, queries read existing cells, the rest is refused. Refuted: queries more than 2^31 cells away and NaN positions are undefined instead of refused, less than two cells or more than 2^31-12 cells give accesses outside the grid or int overflow."
  },
  {
   "property": "C53",
   "status": "partial",
   "theorems": [
    "C53_undriven",
    "C53_shape_partial",
    "C53_moves_partial",
    "C53_speed",
    "C53_seed_refuted",
    "C53_rounding_refuted"
   ],
   "note": "Closed form proved for every initial field and number of steps (real arithmetic); the shape is kept if and only if the first two cells are empty. Refuted for seed pulses, which always have field in the first cell, and for floating-point rounding."
  },
  {
   "property": "C54",
   "status": "partial",
   "theorems": [
    "C54_never_off",
    "C54_parallel",
    "C54_identical_clocks",
    "C54_double_partial",
    "C54_drift",
    "C54_double_refuted"
   ],
   "note": "Real arithmetic: no time check ever fails, on any number of nodes. Any arithmetic: the clocks of particles and field show identical numbers. Double precision: no check fails during the first 2^25 steps (step widths between 2^-1000 and 2^900). Refuted for longer runs: with dt=1+2^-27 the accumulated clock has drifted by more than dt/4 after 100663304 steps and every run with an FEL interaction is refused."
  },
  {
   "property": "C55",
   "status": "partial",
   "theorems": [
    "C55_record",
    "C55_multiples_partial",
    "C55_file",
    "C55_every_step_refuted",
    "C55_no_log_refuted",
    "C55_file_overflow_refuted"
   ],
   "note": "Proved for step widths of absolute value 2 and more; with width 1 the field of step 1 is missing, without <log> or with width 0 the first step is undefined, too much data overflow the int buffer size (all refuted)."
  },
  {
   "property": "C56",
   "status": "partial",
   "theorems": [
    "C56_document_order_partial",
    "C56_visited",
    "C56_printed",
    "C56_twice",
    "C56_undulator_refuted",
    "C56_root_refuted",
    "C56_sections_refuted",
    "C56_ignored_refuted"
   ],
   "note": "Proved for orderly documents (definitions below the root first, sections in the order lattice, beam, tracking, observer, none within undulators and dipoles); for every document the sequence of evaluated definitions is given exactly. Refuted: definitions in undulators and dipoles are evaluated twice, definitions below the root and sections are not evaluated in document order, definitions at other places are ignored."
  },
  {
   "property": "C57",
   "status": "partial",
   "theorems": [
    "C57_particles",
    "C57_totals_partial",
    "C57_accepted",
    "C57_empty_refuted",
    "C57_negative",
    "C57_overflow_refuted",
    "C57_rounding_refuted",
    "C57_double"
   ],
   "note": "Proved for n>=1 in real arithmetic, in double precision with relative error below (n+4) 2^-52; in any arithmetic the number of particles and the charge and mass of each are given. Refuted: n=0 gives an empty bunch without the charge, more than 357913941 particles are undefined, rounded sums differ in the last digits."
  },
  {
   "property": "C58",
   "status": "partial",
   "theorems": [
    "C58_written_partial",
    "C58_bunch",
    "C58_names_refuted",
    "C58_charge_refuted",
    "C58_reader",
    "C58_converted",
    "C58_mirrored",
    "C58_position_refuted",
    "C58_sampled_undefined",
    "C58_long_name_undefined",
    "C58_missing"
   ],
   "note": "The columns are complete, and the reader is proved correct for the files it understands. Refuted: the parameter Particles the reader asks for is never written (every watch file is read as an empty bunch), the charge is multiplied by the elementary charge, and even with the right names y is mirrored and z is lost."
  },
  {
   "property": "C59",
   "status": "partial",
   "theorems": [
    "C59_beta_dot_is_derivative",
    "C59_lienard_wiechert_partial",
    "C59_lienard_wiechert_refuted"
   ],
   "note": "holds for forces perpendicular to the motion; A/gamma is used in place of the derivative of beta, refuted whenever the force has a longitudinal component"
  },
  {
   "property": "C60",
   "status": "partial",
   "theorems": [
    "C30_total_charge",
    "C60_documented_unit_refuted"
   ],
   "note": "the total charge is in Coulomb, documented in units of the elementary charge (refuted)"
  },
  {
   "property": "C61",
   "status": "partial",
   "theorems": [
    "C61_hdf5_partial",
    "C61_overflow_refuted"
   ],
   "note": "Holds up to 357913941 particles, beyond that the int buffer size overflows."
  },
  {
   "property": "C62",
   "status": "proved",
   "theorems": [
    "C62_retarded_field",
    "C62_field_trace"
   ],
   "note": "real arithmetic for the sum"
  },
  {
   "property": "C63",
   "status": "proved",
   "theorems": [
    "C63_bunch_from_distribution",
    "C63_dimension",
    "C63_equal_particles"
   ],
   "note": "any number type"
  },
  {
   "property": "C64",
   "status": "partial",
   "theorems": [
    "C64_kirchhoff_partial",
    "C64_term_dropped",
    "C64_without_energy_refuted"
   ],
   "note": "real arithmetic; terms whose retarded samples carry no energy flow are left out, even if their field is not zero (refuted)"
  },
  {
   "property": "C65",
   "status": "proved",
   "theorems": [
    "C65_weights",
    "C65_orientation"
   ],
   "note": "real arithmetic"
  },
  {
   "property": "C66",
   "status": "partial",
   "theorems": [
    "C66_field_partial",
    "C66_dark",
    "C66_direction_refuted"
   ],
   "note": "real arithmetic; the components are those in the frame of the screen and are not transformed back (refuted for tilted screens)"
  },
  {
   "property": "C67",
   "status": "proved",
   "theorems": [
    "C67_fit",
    "C67_normal_derivative"
   ],
   "note": "real arithmetic; the solver of the Eigen library is a parameter, assumed to minimise the residual; the neighbours must determine a quadratic polynomial"
  },
  {
   "property": "C68",
   "status": "partial",
   "theorems": [
    "C68_file_partial",
    "C68_overflow_refuted",
    "C68_trajectory_file_partial"
   ],
   "note": "Proved below 2^32 values in the file; refuted beyond (unsigned wrap of the buffer size, heap overflow)."
  },
  {
   "property": "C69",
   "status": "partial",
   "theorems": [
    "C69_plane_wave",
    "C69_directions",
    "C69_default",
    "C69_default_refuted"
   ],
   "note": "Proved for fields created from an input file (real arithmetic); the default constructor leaves e_y zero (refuted)."
  },
  {
   "property": "C70",
   "status": "proved",
   "theorems": [
    "C70_driven",
    "C70_superposition",
    "C70_causal"
   ],
   "note": "real arithmetic"
  },
  {
   "property": "C71",
   "status": "partial",
   "theorems": [
    "C71_file",
    "C71_read_back",
    "C71_accepted",
    "C71_mismatch",
    "C71_placed",
    "C71_positions_overflow_refuted",
    "C71_short_refuted"
   ],
   "note": "Contents proved for every number type below the 32-bit limits; reading back in real arithmetic for perpendicular cell vectors and at least two samples (other cell vectors: C42). Refuted: 3 Nx Ny >= 2^32 writes behind the buffer of positions; files with a single time step are undefined when read."
  },
  {
   "property": "C72",
   "status": "partial",
   "theorems": [
    "C72_round_trip",
    "C72_file",
    "C72_shaped",
    "C72_overflow_refuted"
   ],
   "note": "Exact for every number type as long as the int sizes do not overflow (refuted beyond). A mesh without any position may be read with a negative number of steps, it is left out of C72_shaped."
  },
  {
   "property": "C73",
   "status": "partial",
   "theorems": [
    "C73_file",
    "C73_overflow_refuted"
   ],
   "note": "Proved below 2^31 values; beyond, 6*N overflows (refuted)."
  },
  {
   "property": "C74",
   "status": "proved",
   "theorems": [
    "C74_point",
    "C74_parameters",
    "C74_columns",
    "C74_watch_columns"
   ],
   "note": "any arithmetic, up to 2^31-1 rows; the bunching factor is a parameter"
  },
  {
   "property": "C75",
   "status": "partial",
   "theorems": [
    "C75_file",
    "C75_no_file",
    "C75_direction_refuted"
   ],
   "note": "All attributes proved, and that no file is written exactly without a log; the attribute named prop holds the vector between the grid cells, which points backwards, instead of the direction of propagation (refuted)."
  },
  {
   "property": "C76",
   "status": "proved",
   "theorems": [
    "C76_described",
    "C76_unique",
    "C76_random_numbers",
    "C76_particle",
    "C76_time_step",
    "C76_refused",
    "C76_refused_only",
    "C76_bunches"
   ],
   "note": "any arithmetic (energy of a particle: real arithmetic); the XML tree, the calculator and the contents of files are parameters"
  },
  {
   "property": "C77",
   "status": "partial",
   "theorems": [
    "C77_files",
    "C77_tracking_files",
    "C77_refused",
    "C77_output_outcomes",
    "C77_independent",
    "C77_processes_refuted"
   ],
   "note": "Real arithmetic (without the observers: any arithmetic), sizes below the int limits, logger steps other than 0, writing succeeds. With a probe or an observer of the lattice the files depend on the number of processes (refuted)."
  },
  {
   "property": "C78",
   "status": "partial",
   "theorems": [
    "C78_energy_partial",
    "C78_forward",
    "C78_side_refuted"
   ],
   "note": "real arithmetic, orthogonal cell vectors; the value is the incident energy times the z component of the normal, so it is right only for screens facing along the z axis (refuted otherwise)"
  },
  {
   "property": "C79",
   "status": "partial",
   "theorems": [
    "C79_field",
    "C79_step",
    "C79_step_partial",
    "C79_init",
    "C79_large_grid_refuted"
   ],
   "note": "real arithmetic; C79_step is for all grids: a step is refused unless a particle is in the last 11 cells of a grid of 2^31-12 or more cells; refuted there (C79_large_grid_refuted)"
  },
  {
   "property": "C80",
   "status": "proved",
   "theorems": [
    "C80_step",
    "C80_order"
   ],
   "note": "real arithmetic; all grids, for every step which completes (the others: C52, C79)"
  },
  {
   "property": "C81",
   "status": "proved",
   "theorems": [
    "C81_output",
    "C81_kirchhoff",
    "C81_source",
    "C81_runs"
   ],
   "note": "C81_output: any arithmetic; the others: real arithmetic. The singular value decomposition is a parameter; carrying of the traces as in C64."
  },
  {
   "property": "C82",
   "status": "partial",
   "theorems": [
    "C82_usage",
    "C82_arguments",
    "C82_missing_file",
    "C82_two_files_refuted",
    "C82_short_source_refuted"
   ],
   "note": "any arithmetic; propagate with exactly two files dereferences a null pointer, source meshes with fewer than two samples (or without times) are undefined in both programs (refuted)"
  },
  {
   "property": "C83",
   "status": "proved",
   "theorems": [
    "C83_order"
   ],
   "note": "any arithmetic; every permutation of the cells in both parallel loops, runs which end normally"
  },
  {
   "property": "C84",
   "status": "proved",
   "theorems": [
    "C84_reflection",
    "C84_energy"
   ],
   "note": "C84_reflection: any arithmetic; C84_energy: real arithmetic, unit normals"
  },
  {
   "property": "C85",
   "status": "partial",
   "theorems": [
    "C85_peak",
    "C85_energy",
    "C85_box",
    "C85_box_time_refuted"
   ],
   "note": "real arithmetic (C85_energy: any); the time interval of the box uses the time step truncated to int, so it ends at the last start time (refuted)"
  },
  {
   "property": "C86",
   "status": "proved",
   "theorems": [
    "C86_field",
    "C86_dark"
   ],
   "note": "real arithmetic, perpendicular cell vectors, 2 to 2^31-1 samples; the tangential fields are given in the frame of the screen and not transformed back (C66_direction_refuted)"
  },
  {
   "property": "C87",
   "status": "partial",
   "theorems": [
    "C87_heap",
    "C87_copies",
    "C87_partial",
    "C87_nothing_left",
    "C87_forms_partial",
    "C87_propagate_partial",
    "C87_forms_refuted",
    "C87_forms_refuted_iff",
    "C87_cell_forms",
    "C87_leak_refuted",
    "C87_propagate_forms_refuted",
    "C87_propagate_always_refuted"
   ],
   "note": "no exception leaves a function except a failing observer file; the interactions (FEL) are taken off the lattice and never released (refuted), as is the empty particle buffer of a snapshot of a beam without particles; arrays made with new[] are released with delete in meshes, screens, snapshots and source screens, undefined behaviour (refuted)"
  },
  {
   "property": "C88",
   "status": "partial",
   "theorems": [
    "C88_found",
    "C88_found_kinds",
    "C88_runs",
    "C88_agree",
    "C88_alive",
    "C88_ends",
    "C88_only",
    "C88_input_first",
    "C88_finalize",
    "C88_exit",
    "C88_exit_refuted"
   ],
   "note": "any arithmetic; asynchronous semantics of the collective operations (a process enters and leaves them separately); a process which is called without an input file or with an unreadable one leaves by exit(1) without MPI_Finalize (refuted); what the MPI library does after a process has failed is not modelled; the memory report at the start is modelled in C89"
  },
  {
   "property": "C89",
   "status": "partial",
   "theorems": [
    "C89_report_partial",
    "C89_unknown",
    "C89_large",
    "C89_large_address_space",
    "C89_missing",
    "C89_2TiB_refuted"
   ],
   "note": "files of lines name:value with one entry of each name; std::stoi is used for kilobytes, so that 2 TiB (2^31 kB) of memory or of address space end the program with std::out_of_range before the input is read (refuted); without VmSize the total memory is shown as used (C89_missing)"
  },
  {
   "property": "C90",
   "status": "proved",
   "theorems": [
    "C90_drift",
    "C90_electric",
    "C90_helix",
    "C90_exact",
    "C90_cylinder",
    "C90_third_order",
    "C90_error"
   ],
   "note": "real arithmetic; C90_exact shows that the helix used as reference solves the equation of motion (derivatives of all components), C90_cylinder that all points of C90_helix lie on its cylinder, C90_third_order bounds the differences of angle and advance per step, C90_error the distance of every recorded point from the exact orbit (second order in the time step)"
  },
  {
   "property": "C91",
   "status": "proved",
   "theorems": [
    "C91_second_order"
   ],
   "note": "real arithmetic; the solution of the equation of motion is given (its existence is not proved), velocity and force along it are C^1 with Lipschitz derivatives and the field is Lipschitz in a tube around it, so that hard-edge elements are covered only between their edges; the constant depends on the solution and the interval, not on the time step or the number of steps; C91_ex shows the hypotheses for a helix"
  },
  {
   "property": "C92",
   "status": "partial",
   "theorems": [
    "C92_double",
    "C92_double_partial",
    "C92_EcrossB",
    "C92_magnet",
    "C92_screen",
    "C92_screen_particle",
    "C92_screen_program",
    "C92_screen_unread",
    "C92_magnet_checks",
    "C92_EcrossB_checks",
    "C92_electrostatic_checks",
    "C92_loop_checks",
    "C92_trace_checks",
    "C92_electrostatic_partial",
    "C92_electrostatic_fields_partial",
    "C92_RadPush_checks",
    "C92_undulator_checks",
    "C92_values",
    "C92_trace_samples",
    "C92_integrate_field",
    "C92_exact",
    "C92_bunch",
    "C92_position_refuted",
    "C92_momentum_refuted",
    "C92_fields_refuted",
    "C92_times_refuted"
   ],
   "note": "C92_double is for all library functions, C92_double_partial (undulator, RadPush) for the approximations of sin, cos, exp, sinh and cosh in TransFloat.v, which stand for those of the C library; C92_exact is the exact run of magnet, EcrossB and the tracking of DiffractionScreen, C92_integrate_field that of integrate_field, with the values of the programs; the last part of the property is violated: EcrossB accepts every final position with one correct coordinate (&& for ||) and every larger momentum (no fabs), electrostatic accepts every field not larger than the reference (no fabs), DiffractionScreen all times of the whole run as start and end (tolerance of 1 us for a run of 67 ns); the mesh in tests/DiffractionScreen.h5 is not known here: C92_screen_program is for every mesh, whether the energy of this one is as expected is not decided"
  },
  {
   "property": "C93",
   "status": "partial",
   "theorems": [
    "C93_accepted",
    "C93_no_default",
    "C93_counts",
    "C93_grammar",
    "C93_one_reading",
    "C93_calculated",
    "C93_integers",
    "C93_shipped",
    "C93_values",
    "C93_defined",
    "C93_steps",
    "C93_watches",
    "C93_time_step_refuted"
   ],
   "note": "C93_accepted, C93_no_default and C93_counts: any arithmetic, calculator and document; the others are about the 25 input files of the repository in double precision, with the calculator of CalcModel.v in place of muParser; three of them (create_source.xml twice, prepare_WG_input.xml) give the name dt of a time step which is not defined, so that it is silently 0 (refuted)"
  },
  {
   "property": "C94",
   "status": "partial",
   "theorems": [
    "C94_light_cone",
    "C94_slopes",
    "C94_slow",
    "C94_uniform_motion",
    "C94_at_rest",
    "C94_close_refuted"
   ],
   "note": "real arithmetic; C94_light_cone holds if 6 L^2 <= r (c h - L)/2 with L the length, h the duration of the interval and r the distance of the observer, C94_slopes for every observer for whom the slope of the arrival time changes by less than one half along the interval, C94_slow for every observer if the particle has less than a fifth of the velocity of light; for particles with 1-beta <= 4*10^-5 which pass the observer within one interval the search stops too early and the field is wrong by more than a factor of three (refuted)"
  },
  {
   "property": "C95",
   "status": "partial",
   "theorems": [
    "C95_times",
    "C95_empty",
    "C95_center_refuted"
   ],
   "note": "real arithmetic; the center time is half a step late (refuted)"
  },
  {
   "property": "C96",
   "status": "partial",
   "theorems": [
    "C96_average_partial",
    "C96_completed_partial",
    "C96_defined_iff",
    "C96_undefined_iff",
    "C96_defined_partial",
    "C96_new_screen",
    "C96_snapshot",
    "C96_one_sample_refuted",
    "C96_unrecorded",
    "C96_negative_step_refuted"
   ],
   "note": "real arithmetic; screens, points and meshes with 2 or more samples, and a positive time step (negative: C96_negative_step_refuted), whenever the integration succeeds (C96_completed_partial), which is so exactly if no step seen by a cell ends 2^31-1/2 time steps or more after its first sample (C96_defined_iff, otherwise it is undefined, C96_undefined_iff; one sample: nothing is recorded, C96_one_sample_refuted; the limits of C14, see C14_long_trace_refuted and C15_far_signal_refuted); the field of a particle is interpolated linearly between the points of its trajectory"
  },
  {
   "property": "C97",
   "status": "partial",
   "theorems": [
    "C97_screen_sampled_partial",
    "C97_point_sampled_partial",
    "C97_mesh_sampled_partial",
    "C97_screen_partial",
    "C97_point_partial",
    "C97_mesh_partial",
    "C97_snapshot_partial",
    "C97_one_sample_refuted",
    "C97_one_sample_average"
   ],
   "note": "real arithmetic; runs which end properly with sizes within the int ranges of C71-C74 and C77 (violations outside: C71_positions_overflow_refuted, C72_overflow_refuted, C73_overflow_refuted); screens, points and meshes with 2 or more samples and a positive time step, for all beams (with one sample zeros are written, C97_one_sample_refuted)"
  },
  {
   "property": "C98",
   "status": "partial",
   "theorems": [
    "C98_log_partial",
    "C98_trajectories_partial",
    "C98_watch_partial",
    "C98_watch_sdds_partial",
    "C98_probe_partial"
   ],
   "note": "real arithmetic; runs which end properly with sizes within the int ranges of C77; averages of bunches with at least one particle (C27_empty_bunch_refuted)"
  }
 ]
}