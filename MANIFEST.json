{
 "claims": [
  {
   "property": "C01",
   "status": "proved",
   "theorems": [
    "C01_validation_iff",
    "C01_no_nan",
    "C01_no_nan_limiter",
    "C01_finite_fields",
    "C01_infinite_accepted"
   ],
   "note": "binary64, all values. C01_no_nan_limiter covers the limiter parameter; C01_finite_fields and C01_infinite_accepted say which numbers may be infinite."
  },
  {
   "property": "C02",
   "status": "proved",
   "theorems": [
    "C02_default_accepted",
    "C02_default_outputs",
    "C02_default_outputs_b64"
   ],
   "note": "binary64, all t_end > 0 C02_default_outputs and C02_default_outputs_b64: what a run of the default configuration shows."
  },
  {
   "property": "C03",
   "status": "proved",
   "theorems": [
    "C03_hll_iff",
    "C03_kt_iff",
    "C03_mismatch_is_err",
    "C03_template_fails"
   ],
   "note": "every arithmetic"
  },
  {
   "property": "C04",
   "status": "proved",
   "theorems": [
    "C04_mesh_tiles_domain",
    "C04_mesh_total"
   ],
   "note": "exact arithmetic"
  },
  {
   "property": "C05",
   "status": "proved",
   "theorems": [
    "C05_west_edge_exact"
   ],
   "note": "binary64"
  },
  {
   "property": "C06",
   "status": "proved",
   "theorems": [
    "C06_accepted_is_finite",
    "C06_origin_rejected",
    "C06_zero_coordinate_rejected",
    "C06_no_cells_rejected",
    "C06_accepted_exactly"
   ],
   "note": "binary64 and every arithmetic; C06_accepted_exactly in exact arithmetic"
  },
  {
   "property": "C07",
   "status": "proved",
   "theorems": [
    "C07_prim_roundtrip",
    "C07_cons_roundtrip",
    "C07_conserved_quantities"
   ],
   "note": "extended reals"
  },
  {
   "property": "C08",
   "status": "proved",
   "theorems": [
    "C08_density_copied"
   ],
   "note": "every arithmetic"
  },
  {
   "property": "C09",
   "status": "proved",
   "theorems": [
    "C09_euler_system"
   ],
   "note": "extended reals; characteristic speeds defined by derivatives of the flux"
  },
  {
   "property": "C10",
   "status": "proved",
   "theorems": [
    "C10_eigenvalues_ordered",
    "C10_eigenvalues_ordered_b64",
    "C10_sound_speed"
   ],
   "note": "extended reals and binary64"
  },
  {
   "property": "C11",
   "status": "proved",
   "theorems": [
    "C11_sound_speed_constant",
    "C11_sound_speed_constant_run"
   ],
   "note": "every arithmetic and flux scheme, all histories"
  },
  {
   "property": "C12",
   "status": "proved",
   "theorems": [
    "C12_consistent_after_step",
    "C12_consistent_after_init"
   ],
   "note": "every arithmetic, S >= 6"
  },
  {
   "property": "C13",
   "status": "proved",
   "theorems": [
    "C13_only_ghost_cells"
   ],
   "note": "every arithmetic"
  },
  {
   "property": "C14",
   "status": "proved",
   "theorems": [
    "C14_ghost_values",
    "C14_configured_sides",
    "C14_simulation"
   ],
   "note": "values: extended reals. C14_configured_sides: every arithmetic, each side of a simulation has its own configured condition after init_corries and after every completed step."
  },
  {
   "property": "C15",
   "status": "proved",
   "theorems": [
    "C15_idempotent",
    "C15_order_irrelevant",
    "C15_one_cell_refuted"
   ],
   "note": "every arithmetic; S = 5 counterexample"
  },
  {
   "property": "C16",
   "status": "proved",
   "theorems": [
    "C16_outflow",
    "C16_outflow_b64",
    "C16_documented_refuted"
   ],
   "note": "extended reals and binary64; documentation refuted"
  },
  {
   "property": "C17",
   "status": "proved",
   "theorems": [
    "C17_panic_iff",
    "C17_no_gradients_total",
    "C17_not_validated"
   ],
   "note": "every arithmetic"
  },
  {
   "property": "C18",
   "status": "proved",
   "theorems": [
    "C18_uniform_steady_hll",
    "C18_uniform_steady_kt"
   ],
   "note": "extended reals, NoGradients boundaries, both schemes, every limiter"
  },
  {
   "property": "C19",
   "status": "proved",
   "theorems": [
    "C19_uniform_stays_uniform",
    "C19_zero_flux_difference"
   ],
   "note": "uniformity: every arithmetic, any number of steps with any outcomes, HLL with NoGradients on both sides; zero differences: binary64"
  },
  {
   "property": "C20",
   "status": "proved",
   "theorems": [
    "C20_conservation_hll",
    "C20_conservation_kt"
   ],
   "note": "exact arithmetic; both schemes, every limiter, tableau, mesh size and state reached from a new solver; the offset 2^-52 the code adds to the cell width is part of the statement"
  },
  {
   "property": "C21",
   "status": "proved",
   "theorems": [
    "C21_upwind_hll",
    "C21_upwind_kt",
    "C21_supersonic_hll",
    "C21_supersonic_kt"
   ],
   "note": "extended reals; C21_supersonic_* state the upwind property for gas states given by density, velocity and pressure."
  },
  {
   "property": "C22",
   "status": "proved",
   "theorems": [
    "C22_density_positive",
    "C22_right_flow",
    "C22_left_flow_refuted",
    "C22_density_positive_kt"
   ],
   "note": "exact arithmetic, positive densities and sound speeds, Hll and Kt; failure for flow to the left refuted in exact arithmetic and checked in binary64"
  },
  {
   "property": "C23",
   "status": "proved",
   "theorems": [
    "C23_no_new_extrema",
    "C23_monocent_above_two_refuted",
    "C23_extremum_b64",
    "C23_no_new_extrema_b64"
   ],
   "note": "extended reals; Monocent parameter above 2 refuted. C23_extremum_b64: at a local extremum the face values equal the cell value in binary64 arithmetic as well. C23_no_new_extrema_b64: MinMod and Superbee stay within the range of the three cells in binary64 arithmetic, for differences of at least 2^-900; Monocent has no such theorem in binary64."
  },
  {
   "property": "C24",
   "status": "proved",
   "theorems": [
    "C24_vanleer_negligible",
    "C24_documented_slope_refuted"
   ],
   "note": "binary64; documented slope refuted"
  },
  {
   "property": "C25",
   "status": "proved",
   "theorems": [
    "C25_average_preserved"
   ],
   "note": "extended reals"
  },
  {
   "property": "C26",
   "status": "proved",
   "theorems": [
    "C26_fluxes_finite_hll",
    "C26_fluxes_finite_kt",
    "C26_validated_step_is_finite",
    "C26_positivity_not_checked_refuted"
   ],
   "note": "every arithmetic; cell-centre variables for every scheme, wave speeds and numerical fluxes for HLL and Kurganov-Tadmor; positivity claim of the documentation refuted in binary64"
  },
  {
   "property": "C27",
   "status": "proved",
   "theorems": [
    "C27_local_hll",
    "C27_local_kt",
    "C27_ghost_untouched"
   ],
   "note": "every arithmetic"
  },
  {
   "property": "C28",
   "status": "proved",
   "theorems": [
    "C28_cfl_b64",
    "C28_nan_ignored",
    "C28_infinite_speed",
    "C28_infinite_speed_fails",
    "C28_cfl_condition",
    "C28_left_wave_refuted"
   ],
   "note": "exact arithmetic, every mesh, size and consistent state; the bound for the other wave is refuted by C28_left_wave_refuted C28_cfl_b64 covers the rounding of the step in binary64. C28_nan_ignored and C28_infinite_speed: NaN and infinite wave speeds; C28_infinite_speed_fails: the step of the solver that meets an infinite speed returns DtMin and leaves the state alone."
  },
  {
   "property": "C29",
   "status": "proved",
   "theorems": [
    "C29_step_size",
    "C29_dt_min_error",
    "C29_step_size_b64"
   ],
   "note": "exact arithmetic and binary64, any flux scheme; in binary64 also that time does not run backwards"
  },
  {
   "property": "C30",
   "status": "proved",
   "theorems": [
    "C30_no_progress_b64",
    "C30_no_progress"
   ],
   "note": "any number of calls, exact arithmetic and binary64; without adaptive step control"
  },
  {
   "property": "C31",
   "status": "proved",
   "theorems": [
    "C31_forward_euler",
    "C31_forward_euler_hll",
    "C31_forward_euler_kt",
    "C31_runge_kutta_refuted"
   ],
   "note": "exact arithmetic; any flux scheme, every mode, every state reached from a new solver; the Runge-Kutta claim refuted for every mode but RK1"
  },
  {
   "property": "C32",
   "status": "proved",
   "theorems": [
    "C32_tableaus",
    "C32_ssprk5",
    "C32_ssprk5_refuted"
   ],
   "note": "all rooted trees up to the order, exact rational coefficients; SSPRK5 up to 1e-5 and exactly refuted"
  },
  {
   "property": "C33",
   "status": "proved",
   "theorems": [
    "C33_proposal_bounds",
    "C33_configured",
    "C33_acceptance"
   ],
   "note": "exact arithmetic, every evaluation of the step control, any flux scheme C33_configured and C33_acceptance: which tolerances are used and what they mean."
  },
  {
   "property": "C34",
   "status": "proved",
   "theorems": [
    "C34_step_control_inert",
    "C34_error_control_refuted"
   ],
   "note": "exact arithmetic; any flux scheme, every run of ordinary steps; the tolerance claim refuted for every embedded mode"
  },
  {
   "property": "C35",
   "status": "proved",
   "theorems": [
    "C35_failed_steps",
    "C35_time_only_advances_on_completion"
   ],
   "note": "every arithmetic"
  },
  {
   "property": "C36",
   "status": "proved",
   "theorems": [
    "C36_validation_only_checks",
    "C36_validation_only_checks_run",
    "C36_library_schemes"
   ],
   "note": "every arithmetic; steps and whole runs"
  },
  {
   "property": "C37",
   "status": "proved",
   "theorems": [
    "C37_no_memory_hll",
    "C37_no_memory_kt",
    "C37_no_memory"
   ],
   "note": "every arithmetic; Hll, Kt and every memoryless user scheme; any number of steps"
  },
  {
   "property": "C38",
   "status": "proved",
   "theorems": [
    "C38_faces_untouched",
    "C38_faces_untouched_run",
    "C38_faces_initial"
   ],
   "note": "every arithmetic, all histories"
  },
  {
   "property": "C39",
   "status": "proved",
   "theorems": [
    "C39_run_stops",
    "C39_library_schemes",
    "C39_step_control"
   ],
   "note": "run_counts by induction over the history of the loop; for every arithmetic and every flux scheme that returns (Hll and Kt do). With step control only the loop inside a step can be endless (C39_step_control)."
  },
  {
   "property": "C40",
   "status": "proved",
   "theorems": [
    "C40_output_times",
    "C40_output_count",
    "C40_at_start",
    "C40_planned_count_refuted"
   ],
   "note": "Exact arithmetic; the model proves it for every flux scheme, boundary, validation mode and with step control. C40_planned_count_refuted: a binary64 run with output_counter_max = 1 writes three outputs."
  },
  {
   "property": "C41",
   "status": "proved",
   "theorems": [
    "C41_final_time",
    "C41_exact_end_refuted"
   ],
   "note": "Exact arithmetic bounds; the claim that a run ends at t_end is refuted by a binary64 run (C41_exact_end_refuted)."
  },
  {
   "property": "C42",
   "status": "proved",
   "theorems": [
    "C42_label",
    "C42_output_fails",
    "C42_error_dump",
    "C42_dump_means_failure",
    "C42_failure_means_dump"
   ],
   "note": "Every arithmetic. C42_error_dump gives the whole end of the run after a failing step, the other two the converse directions."
  },
  {
   "property": "C43",
   "status": "proved",
   "theorems": [
    "C43_rerun",
    "C43_rerun_exact"
   ],
   "note": "Every arithmetic: no step, at most the output that is due. In exact arithmetic with dt_min < output interval nothing at all happens."
  },
  {
   "property": "C44",
   "status": "proved",
   "theorems": [
    "C44_file_name",
    "C44_injective",
    "C44_order",
    "C44_order_refuted"
   ],
   "note": "File names of different counters differ for every folder, file name, formatting mode and output_counter_max; string order equals number order up to output_counter_max; refuted beyond it."
  },
  {
   "property": "C45",
   "status": "proved",
   "theorems": [
    "C45_history",
    "C45_run"
   ],
   "note": "History theorem over any number of writer calls with any schedule, and the same for whole runs from init_corries; number formatting is abstract, only assumed not to print blanks, commas or line breaks."
  },
  {
   "property": "C46",
   "status": "proved",
   "theorems": [
    "C46_not_truncated",
    "C46_metadata",
    "C46_run_refuted"
   ],
   "note": "The contents of a file after a first write are the new text overlaid on the old; same for the metadata file; the claim that a file holds what was written is refuted, also by a complete binary64 run."
  },
  {
   "property": "C47",
   "status": "proved",
   "theorems": [
    "C47_columns",
    "C47_row_lengths"
   ],
   "note": "One field per data name in the requested order, header included, by parsing the text with an independent reader."
  },
  {
   "property": "C48",
   "status": "proved",
   "theorems": [
    "C48_cells",
    "C48_written"
   ],
   "note": "The cells written with and without ghost cells for every S >= 5."
  },
  {
   "property": "C49",
   "status": "proved",
   "theorems": [
    "C49_schedule",
    "C49_same_file_refuted"
   ],
   "note": "Any two schedules that carry out each output once give the same writer, files and (for at most one screen output) screen; refuted for two outputs to the same file, which validation accepts."
  },
  {
   "property": "C50",
   "status": "proved",
   "theorems": [
    "C50_counter",
    "C50_start"
   ],
   "note": "Counter = start + number of successful calls over every history; a new writer starts at 0."
  },
  {
   "property": "C51",
   "status": "proved",
   "theorems": [
    "C51_no_panic",
    "C51_empty_names_refuted",
    "C51_bad_index_refuted"
   ],
   "note": "No panic over any use of the writer with existing names; both accepted configurations that panic are proved to panic."
  },
  {
   "property": "C52",
   "status": "proved",
   "theorems": [
    "C52_to_si",
    "C52_cgs_round_trip",
    "C52_si_to_cgs_refuted"
   ],
   "note": "The documented SI to CGS conversion is refuted."
  },
  {
   "property": "C53",
   "status": "proved",
   "theorems": [
    "C53_breakpoint",
    "C53_breakpoint_b64",
    "C53_noh",
    "C53_sod",
    "C53_sod_isothermal",
    "C53_five_cells_refuted"
   ],
   "note": "For every arithmetic with breakpoint = S/2, which is proved for exact arithmetic and for binary64 with S < 2^53; ghost cells and west/east copies included; S = 5 refuted by a binary64 run of init_corries."
  },
  {
   "property": "C54",
   "status": "proved",
   "theorems": [
    "C54_mirror_symmetry",
    "C54_step_size_refuted"
   ],
   "note": "exact arithmetic; step size selection refuted"
  },
  {
   "property": "C55",
   "status": "proved",
   "theorems": [
    "C55_directories",
    "C55_nested_refuted"
   ],
   "note": "Directories exist for all outputs unless a later clearing output's folder properly contains an earlier one's; in that case the output is proved to fail."
  },
  {
   "property": "C56",
   "status": "proved",
   "theorems": [
    "C56_init_never_panics",
    "C56_run_never_panics",
    "C56_library",
    "C56_run_returns",
    "C56_boundary_panic_refuted"
   ],
   "note": "For every arithmetic and every scheme that does not panic itself (HLL and KT are proved not to), over whole executions. Panics modelled: equation indices, output data, field and row counts, sparse configuration cases; array indices and sizes inside the numerics are the subject of C57. A validated configuration that panics is exhibited."
  },
  {
   "property": "C57",
   "status": "proved",
   "theorems": [
    "C57_whole_hll",
    "C57_whole_kt",
    "C57_thread_order",
    "C57_in_range",
    "C57_mesh",
    "C57_init_functions"
   ],
   "note": "A second model at loop level (Loops.v) with checked accesses is proved equal to the first one from initialisation to the end of every run, for both schemes and every order of the parallel loops (the order may depend on the loop and on the data); with C56 it never panics."
  },
  {
   "property": "C58",
   "status": "proved",
   "theorems": [
    "C58_crash_point",
    "C58_history",
    "C58_run",
    "C58_metadata"
   ],
   "note": "FineWriter.v models opening, single writes of any size, failures and stops. C58_crash_point is one call in any file system, C58_history and C58_run any number of completed outputs and whole simulations, C58_metadata the metadata files. Writes are assumed to reach the file in program order."
  },
  {
   "property": "C59",
   "status": "proved",
   "theorems": [
    "C59_interleaving",
    "C59_result",
    "C59_counter",
    "C59_completes",
    "C59_screen_refuted"
   ],
   "note": "C59_interleaving and C59_result relate every interleaving to Writer.v's sequential writes, C59_completes gives termination, C59_screen_refuted mixed lines on the screen."
  },
  {
   "property": "C60",
   "status": "proved",
   "theorems": [
    "C60_closed_box",
    "C60_steps",
    "C60_kt_refuted"
   ],
   "note": "C60_closed_box for whole programs, C60_steps per step, exact arithmetic; C60_kt_refuted in binary64 for the KT flux."
  },
  {
   "property": "C61",
   "status": "proved",
   "theorems": [
    "C61_order_b64",
    "C61_shared_faces_refuted"
   ],
   "note": "binary64, every validated mesh; C61_shared_faces_refuted shows that faces of neighbours can differ."
  },
  {
   "property": "C62",
   "status": "proved",
   "theorems": [
    "C62_units_hll",
    "C62_units_kt",
    "C62_length_refuted"
   ],
   "note": "Exact arithmetic, whole programs. Length refuted in binary64 (C62_length_refuted). KT with VanLeer is excluded in the statement because of the f64::MIN term (C24)."
  },
  {
   "property": "C63",
   "status": "proved",
   "theorems": [
    "C63_nearest",
    "C63_ties_to_even",
    "C63_read_back",
    "C63_distinct",
    "C63_digits_refuted",
    "C63_order",
    "C63_plain",
    "C63_written"
   ],
   "note": "All doubles and precisions; the model of {:.*e} is the documented result (correct rounding, ties to even), see Sci.v."
  },
  {
   "property": "C64",
   "status": "proved",
   "theorems": [
    "C64_aligned",
    "C64_fits",
    "C64_refuted"
   ],
   "note": "For any rendering of numbers whose texts fit; C64_fits discharges this for precisions up to 5; refuted for the default precision (C64_refuted)."
  },
  {
   "property": "C65",
   "status": "proved",
   "theorems": [
    "C65_describes",
    "C65_determines",
    "C65_file",
    "C65_old_file_refuted",
    "C65_infinite_refuted"
   ],
   "note": "Reader after RFC 8259 in SpecJson.v. The text of numbers is any one that JSON accepts (C65_describes) and that tells doubles apart (C65_determines); sci 16 is one. Refuted for folders that are not cleared (C65_old_file_refuted) and for infinite limits (C65_infinite_refuted)."
  },
  {
   "property": "C66",
   "status": "proved",
   "theorems": [
    "C66_init",
    "C66_run",
    "C66_outputs_irrelevant",
    "C66_output_count_refuted"
   ],
   "note": "every arithmetic. Refuted for the number of outputs (C66_output_count_refuted, binary64)."
  },
  {
   "property": "C67",
   "status": "proved",
   "theorems": [
    "C67_run",
    "C67_larger_limit",
    "C67_init"
   ],
   "note": "every arithmetic. C67_init: the initialisation with the same metadata text; initial conditions that do not depend on the limit."
  },
  {
   "property": "C68",
   "status": "proved",
   "theorems": [
    "C68_position_hll",
    "C68_position_kt",
    "C68_kepler_refuted",
    "C68_rounding_refuted"
   ],
   "note": "extended reals; unless an output fails (then both agree up to the failure, C66). Refuted for Kepler modes and for rounding (binary64)."
  },
  {
   "property": "C69",
   "status": "proved",
   "theorems": [
    "C69_counters",
    "C69_no_overflow"
   ],
   "note": "every arithmetic, both flux schemes, all outcomes incl. failing outputs."
  },
  {
   "property": "C70",
   "status": "proved",
   "theorems": [
    "C70_domain_of_dependence",
    "C70_reach_hll",
    "C70_reach_kt"
   ],
   "note": "every arithmetic; local_scheme/memoryless are proved for both flux schemes (C70_reach_hll, C70_reach_kt)."
  },
  {
   "property": "C71",
   "status": "proved",
   "theorems": [
    "C71_symmetric_kt",
    "C71_kt_b64_refuted",
    "C71_symmetric_b64",
    "C71_symmetric",
    "C71_noh_b64",
    "C71_outflow_refuted"
   ],
   "note": "Hll in doubles and in exact arithmetic; Noh as an instance; outflow conditions refuted. Kt: exact arithmetic, validated runs (C71_symmetric_kt); refuted bit for bit in doubles (C71_kt_b64_refuted)."
  },
  {
   "property": "C72",
   "status": "proved",
   "theorems": [
    "C72_stays_healthy",
    "C72_library_step",
    "C72_simulation",
    "C72_noh",
    "C72_sod"
   ],
   "note": "exact arithmetic, Hll; the shipped problems as instances. Steps that are not Courant limited are refuted by C22_left_flow_refuted."
  },
  {
   "property": "C73",
   "status": "proved",
   "theorems": [
    "C73_stays_healthy",
    "C73_simulation",
    "C73_noh",
    "C73_adiabatic_b64_refuted"
   ],
   "note": "exact arithmetic, Kt, isothermal; the shipped collision as an instance. The adiabatic case is refuted in binary64 by C73_adiabatic_b64_refuted (a healthy gas whose first validated step fails at a Courant number of 1/1000)."
  },
  {
   "property": "C74",
   "status": "proved",
   "theorems": [
    "C74_landing",
    "C74_output_times_b64",
    "C74_not_after_refuted"
   ],
   "note": "binary64 with correct rounding; the counterpart of C40 in IEEE arithmetic. C74_not_after_refuted: a run whose output is one representable number after its planned time, so the bound cannot be improved."
  },
  {
   "property": "C75",
   "status": "proved",
   "theorems": [
    "C75_steps_bounded",
    "C75_b64_refuted"
   ],
   "note": "exact arithmetic, no step control, any flux scheme. C75_b64_refuted: in binary64 a run that makes more steps than the bound because t + dt rounds to t."
  },
  {
   "property": "C76",
   "status": "proved",
   "theorems": [
    "C76_velocity_pressure",
    "C76_density",
    "C76_stays_carried",
    "C76_simulation",
    "C76_kt_velocity_pressure",
    "C76_kt_density",
    "C76_kt_stays_carried",
    "C76_kt_simulation"
   ],
   "note": "exact arithmetic, adiabatic gas; HLL, and KT with the limiters that are free of new extrema (MinMod, Superbee, Monocent). Velocity and pressure: for steps of any length in which no density becomes zero. Densities: in Courant limited steps; the bounds over a run with NoGradients at both ends."
  },
  {
   "property": "C77",
   "status": "proved",
   "theorems": [
    "C77_density_velocity",
    "C77_pressure",
    "C77_pressure_positive",
    "C77_fast_flow_b64_refuted"
   ],
   "note": "binary64 arithmetic. The bound on the kinetic energy cannot be dropped: C77_fast_flow_b64_refuted shows a uniform flow with positive density and pressure whose first step fails because the pressure computed from the energy is negative."
  },
  {
   "property": "C78",
   "status": "proved",
   "theorems": [
    "C78_mass_hll",
    "C78_mass_kt",
    "C78_closed_box",
    "C78_momentum_hll",
    "C78_momentum_kt",
    "C78_energy_hll",
    "C78_energy_kt",
    "C78_run_hll",
    "C78_run_kt",
    "C78_closed_box_run",
    "C78_closed_box_energy"
   ],
   "note": "binary64 arithmetic; the fluxes in the statement are those the right-hand side yields at the conserved variables of the start of the step (all stages see these, because the stage coefficients are looked up transposed and are zero). The exact version over the reals is C20 and C60. C78_momentum_hll and C78_momentum_kt cover momentum, which is recomputed from the velocity after a step; C78_run_hll, C78_run_kt and C78_closed_box_run cover any number of steps. C78_energy_hll and C78_energy_kt cover the energy of the adiabatic physics, for densities between 2^-100 and 2^100, velocities up to 2^100 and an adiabatic index with gamma - 1 between 2^-100 and 2^100."
  },
  {
   "property": "C79",
   "status": "proved",
   "theorems": [
    "C79_footprint",
    "C79_every_position",
    "C79_which_calls_work",
    "C79_accessors",
    "C79_accessors_after_steps",
    "C79_values",
    "C79_composed",
    "C79_validate",
    "C79_assign",
    "C79_repeated",
    "C79_independent",
    "C79_assign_refuted"
   ],
   "note": "Programs write single array entries; replacing a whole array by one of another shape is not modelled. C79_assign_refuted: assign leaves eigenvalues and the adiabatic index of the target, so the CFL step and the pressures of the copy differ from those of the original."
  }
 ]
}