{"id": "C01", "title": "Config validation accepts exactly the documented parameter set", "statement": "CorriesConfig::validate returns Ok if and only if xi_in < xi_out, 1 < adiabatic_index < 2, iter_max > 0, t0 >= 0, t_end > t0, dt_min, dt_max, dt_cfl_param > 0, the three Runge-Kutta-Fehlberg tolerances are > 0, a Monocent limiter parameter is > 1, file outputs have non-empty folder and file names, and scalar outputs request no vector data; in particular no accepted configuration has a NaN in any of these fields. The adiabatic index and t0 of an accepted configuration are finite; no other number is required to be: replacing all the others by infinities keeps the configuration accepted.", "quantifier": "every configuration value, with every field ranging over all IEEE binary64 values including NaN, infinities and signed zeros, and every list of output configurations", "why_tests_cant": "There are 2^64 values per field and unboundedly many output lists; NaN and infinity corner cases and the interaction of the checks cannot be enumerated.", "anchors": ["src/config.rs: CorriesConfig::validate", "src/config/meshconfig.rs: MeshConfig::validate", "src/config/physicsconfig.rs: PhysicsConfig::validate", "src/config/numericsconfig.rs: NumericsConfig::validate, NumFluxConfig::validate", "src/config/outputconfig.rs: OutputConfig::validate"]}
{"id": "C02", "title": "Default Riemann-test configuration is always accepted", "statement": "For every t_end greater than 0 and all non-empty folder and file names, CorriesConfig::default_riemann_test returns a configuration that CorriesConfig::validate accepts, for both numerical flux schemes and every number of equations. A successful run of it outputs the start and the end of the simulation, on the screen and in the files of the given name.", "quantifier": "every binary64 t_end > 0, every non-empty folder and file name, every E, both flux schemes", "why_tests_cant": "Ranges over all end times and strings and all equation counts.", "anchors": ["src/config.rs: CorriesConfig::default_riemann_test, validate", "src/config/numericsconfig.rs: NumericsConfig::default_riemann_test", "src/config/outputconfig.rs: OutputConfig::default_stdout, default_file"]}
{"id": "C03", "title": "A flux scheme can only be built from its own configuration", "statement": "Solver construction succeeds with Hll exactly when the configuration selects Hll and with Kt exactly when it selects Kt; a mismatch is an Err (so the shipped template example, which pairs the Hll type with a Kt configuration, always fails in init_corries).", "quantifier": "every configuration, mesh and flux scheme type", "why_tests_cant": "The claim is about all configurations, and it is an if-and-only-if.", "anchors": ["src/rhs/numflux/hll.rs: Hll::new", "src/rhs/numflux/kt.rs: Kt::new", "src/rhs/numflux.rs: init_numflux", "examples/template.rs"]}
{"id": "C04", "title": "The mesh tiles the requested domain", "statement": "Mesh::new on a domain [xi_in, xi_out] with S cells yields S-4 computational cells between two ghost cells on each side; the first computational cell starts at xi_in, the last one ends at xi_out, every cell's east face is the next cell's west face, centres are midpoints and coordinates increase strictly (exact arithmetic).", "quantifier": "every S >= 5 and every pair of reals xi_in < xi_out", "why_tests_cant": "Must hold for every mesh size and every pair of bounds, unbounded in S.", "anchors": ["src/mesh.rs: Mesh::new"]}
{"id": "C05", "title": "The western domain edge is represented exactly in binary64", "statement": "In IEEE binary64 the west face of the first computational cell equals xi_in exactly, with no rounding, whenever the cell size is finite.", "quantifier": "every S and every pair of binary64 bounds whose resulting cell size is finite", "why_tests_cant": "Bit-exactness for all 2^128 pairs of bounds cannot be sampled.", "anchors": ["src/mesh.rs: Mesh::new"]}
{"id": "C06", "title": "Mesh validation: accepted meshes are finite, meshes touching the origin are rejected", "statement": "With the validation feature, whenever Mesh::new returns Ok every geometry array it holds contains only finite numbers; and because the reciprocal coordinates are validated too, a Cartesian mesh with xi_in = 0 is rejected for every S >= 5 and every xi_out, although the configuration passes validation. In exact arithmetic the accepted meshes are exactly those for which none of the 2S+1 equidistant coordinates (faces and centres, ghost cells included) is zero.", "quantifier": "every S and every pair of binary64 bounds", "why_tests_cant": "Universal over bounds and sizes; the rejection claim covers an infinite family.", "anchors": ["src/mesh.rs: Mesh::new, Mesh::validate"]}
{"id": "C07", "title": "Primitive and conservative variables convert back and forth without loss", "statement": "For Euler1DIsot and Euler1DAdiabatic, update_cons_d followed by update_prim_d restores the primitive variables and update_prim_d followed by update_cons_d restores the conservative variables, in every cell with non-zero density and for every adiabatic index other than 1 (exact arithmetic).", "quantifier": "every state of every size with non-zero densities, every adiabatic index different from 1", "why_tests_cant": "Algebraic identity over all real states; tests sample a few literals.", "anchors": ["src/state/systems/euler1disot.rs: update_prim, update_cons", "src/state/systems/euler1dadiabatic.rs: update_prim, update_cons", "src/state.rs: State::update_prim_d, update_cons_d"]}
{"id": "C08", "title": "Variable conversion never changes the density", "statement": "For both physics systems converting between primitive and conservative variables copies the density row unchanged, bit for bit, whatever the arithmetic (including NaN, infinities and rounding).", "quantifier": "every state of every size, every arithmetic", "why_tests_cant": "Bit-exactness for all inputs.", "anchors": ["src/state/systems/euler1disot.rs: cons_to_prim, prim_to_cons", "src/state/systems/euler1dadiabatic.rs: cons_to_prim, prim_to_cons"]}
{"id": "C09", "title": "Fluxes are the Euler fluxes and the reported eigenvalues are their characteristic speeds", "statement": "The physical flux computed from a state is the Euler flux of that state, and the eigenvalue rows v-c, (v,) v+c are exactly the speeds at which that flux propagates small perturbations: along an explicit direction r the derivative of the flux with respect to the conservative variables is lambda times r (exact arithmetic, positive density and, for the adiabatic system, positive pressure).", "quantifier": "every state with positive density (and pressure), every adiabatic index > 1", "why_tests_cant": "It is a statement about derivatives at every point of the state space.", "anchors": ["src/state/systems/euler1disot.rs: calc_flux, update_flux", "src/state/systems/euler1dadiabatic.rs: calc_flux, update_flux", "src/state/physics.rs: update_eigen_vals, update_c_sound"]}
{"id": "C10", "title": "Eigenvalue rows are ordered", "statement": "After update_derived_variables the eigenvalue rows are sorted, eigen_min <= velocity <= eigen_max, in every cell with non-negative sound speed; for the adiabatic system the sound speed is sqrt(gamma p / rho) and non-negative whenever gamma p / rho >= 0.", "quantifier": "every state of every size", "why_tests_cant": "Universal over all states.", "anchors": ["src/state/physics.rs: update_eigen_vals, update_c_sound, update_derived_variables"]}
{"id": "C11", "title": "The isothermal speed of sound never changes", "statement": "In an isothermal simulation the speed of sound of the cell centres is never modified by any number of calls of next_solution or by run_corries, whatever the arithmetic, flux scheme, time integrator setting or error outcome.", "quantifier": "every state, every configuration, every sequence of steps of any length, every arithmetic", "why_tests_cant": "Invariant over unbounded histories.", "anchors": ["src/state/physics.rs: update_c_sound, update_derived_variables", "src/time/rkf.rs: RungeKuttaFehlberg::next_solution", "src/components.rs: run_corries"]}
{"id": "C12", "title": "Primitive, conservative and derived variables are mutually consistent after every update", "statement": "After init_corries and after every completed step the conservative variables are exactly the conversion of the primitive ones, the eigenvalues are those of the primitive variables and sound speed, and the ghost cells satisfy the configured boundary conditions, bit for bit in every arithmetic.", "quantifier": "every initial state, configuration, number of steps and arithmetic", "why_tests_cant": "Invariant over unbounded histories.", "anchors": ["src/state/physics.rs: update_vars_from_prim, update_vars_from_cons", "src/config.rs: init_corries", "src/time/rkf.rs: next_solution"]}
{"id": "C13", "title": "Boundary conditions only write ghost cells of the configured equations", "statement": "Applying a boundary condition changes nothing but the two ghost cells on its own side, only in rows of equations listed in the configuration, and no other field of the state; interior cells are bit-identical.", "quantifier": "every state, mesh with S >= 5, configuration list (any order, duplicates, omissions), arithmetic", "why_tests_cant": "Universal over configuration lists and states.", "anchors": ["src/boundaryconditions/custom.rs: CustomBoundaryConditions::apply"]}
{"id": "C14", "title": "Ghost-cell values of every boundary mode", "statement": "After applying a boundary condition the ghost cells hold the values the mode promises: NoGradients copies the nearest interior cell, Extrapolate continues the line through the two nearest interior cells, NearZero is 1e-10 of the nearest interior cell, Reflecting is the sign-switched mirror image, the Kepler modes follow xi^(-1/2), and with several entries for one equation the last one wins. In a simulation this holds for the condition configured for each side, after initialisation and after every completed step.", "quantifier": "every mode, state, mesh with S >= 6 and configuration list", "why_tests_cant": "Universal over states and lists.", "anchors": ["src/boundaryconditions/custom.rs: extrapolate_west, extrapolate_east, density_kepler_west, density_kepler_east, near_zero_west, near_zero_east, no_gradients_west, no_gradients_east, reflecting_west, reflecting_east, outflow_no_gradients_west, outflow_no_gradients_east"]}
{"id": "C15", "title": "Boundary conditions are idempotent and their order does not matter", "statement": "For meshes with at least two computational cells, applying a boundary condition twice is the same as once, and applying west then east is the same as east then west, bit for bit in every arithmetic; for a mesh with a single computational cell (S = 5) this is false.", "quantifier": "every S >= 6, every pair of configuration lists without duplicate entries, every state and arithmetic; plus a counterexample for S = 5", "why_tests_cant": "Universal over states and configurations.", "anchors": ["src/boundaryconditions/custom.rs: apply", "src/state/physics.rs: update_vars_from_prim"]}
{"id": "C16", "title": "Outflow boundaries reflect inflow and let outflow pass", "statement": "OutflowNoGradients and OutflowExtrapolate act as a wall (Reflecting) when the value in the outermost interior cell points into the domain and as an open boundary when it points out of the domain. The documentation of the modes claims the opposite (outgoing flow is reflected); that documented claim is refuted.", "quantifier": "every state, both sides, both modes", "why_tests_cant": "Universal over states; the sign convention must hold for every value.", "anchors": ["src/boundaryconditions/custom.rs: outflow_no_gradients_west, outflow_no_gradients_east, outflow_extrapolate_west, outflow_extrapolate_east", "src/config.rs: CustomBoundaryMode"]}
{"id": "C17", "title": "Which boundary configurations can panic", "statement": "A NoGradients boundary configuration covers every equation and never panics; a Custom list panics on application if and only if some listed equation index is not smaller than the number of equations - configuration validation does not check this.", "quantifier": "every boundary configuration, every number of equations, every state", "why_tests_cant": "If-and-only-if over all configuration lists.", "anchors": ["src/boundaryconditions.rs: init_boundary_condition", "src/boundaryconditions/custom.rs: apply", "src/config.rs: validate"]}
{"id": "C18", "title": "A uniform flow is a steady state", "statement": "For both flux schemes and every limiter, a state whose cells are all equal produces zero flux differences and the numerical flux equals the physical flux (consistency), in exact arithmetic, for positive sound speed.", "quantifier": "every uniform state, mesh size, limiter and scheme", "why_tests_cant": "Universal over states and sizes.", "anchors": ["src/rhs/numflux/hll.rs: Hll::calc_dflux_dxi", "src/rhs/numflux/kt.rs: Kt::calc_dflux_dxi", "src/rhs/numflux.rs: calc_dflux_xi_generic"]}
{"id": "C19", "title": "Uniform flow stays exactly uniform in floating point", "statement": "With HLL and NoGradients boundaries, a uniform state stays uniform under every step, whatever the rounding (no spurious gradients), and in IEEE binary64 its flux differences are exactly zero wherever the numerical flux and the inverse cell volume are finite.", "quantifier": "every uniform state, mesh size, configuration with HLL and NoGradients boundaries, and number of steps", "why_tests_cant": "Bit-exactness over all states.", "anchors": ["src/rhs/numflux/hll.rs: Hll::calc_dflux_dxi", "src/rhs/numflux.rs: calc_dflux_xi_generic"]}
{"id": "C20", "title": "Discrete conservation", "statement": "Over any completed step, the sum over the computational cells of each conserved quantity changes only by the numerical flux through the two domain boundaries: flux contributions of interior faces cancel exactly (exact arithmetic), for both schemes, every limiter and every Runge-Kutta tableau.", "quantifier": "every state, mesh size, flux scheme, tableau and step size", "why_tests_cant": "Sum over unboundedly many cells; for all states.", "anchors": ["src/rhs/numflux.rs: calc_dflux_xi_generic", "src/rhs/numflux/hll.rs", "src/rhs/numflux/kt.rs", "src/time/rkf.rs: calc_rkf_solution"]}
{"id": "C21", "title": "Upwinding in supersonic flow", "statement": "If all wave speeds at a face point right, the numerical flux at that face is the physical flux of the left state; if all point left, it is that of the right state (HLL and KT, exact arithmetic).", "quantifier": "every pair of neighbouring states", "why_tests_cant": "Universal over states.", "anchors": ["src/rhs/numflux/hll.rs: Hll::calc_dflux_dxi", "src/rhs/numflux/kt.rs: Kt::calc_dflux_dxi"]}
{"id": "C22", "title": "The density stays positive under a two-sided CFL condition", "statement": "One step with HLL, in any Runge-Kutta mode, keeps every density positive if dt times the fastest of |v-c| and |v+c| is at most half a cell width. The same holds for KT with a limiter that creates no new extrema, if the wave speeds of the reconstructed faces satisfy the bound. With the step size the code chooses, the HLL statement is guaranteed for flow to the right (v >= 0 everywhere, dt_cfl_param <= 1/2) and fails for flow to the left, where a negative density can appear and the step still reports Ok.", "quantifier": "every state with positive densities and positive sound speeds, every mesh size; plus a counterexample", "why_tests_cant": "Universal over states and sizes.", "anchors": ["src/rhs/numflux/hll.rs: Hll::calc_dflux_dxi", "src/rhs/numflux/kt.rs: Kt::calc_dflux_dxi", "src/state/physics.rs: calc_dt_cfl"]}
{"id": "C23", "title": "Slope limiters never create new extrema", "statement": "MinMod, Superbee and Monocent return a zero slope at local extrema, a slope with the sign of the differences otherwise, and with MinMod, Superbee and Monocent(p) for p <= 2 the reconstructed face values lie between the neighbouring cell averages; for Monocent(p) with p > 2, which validation accepts, this is false. At a local extremum both face values equal the cell value in f64 arithmetic too, without rounding, as long as the cell values and their differences are finite. With MinMod and Superbee the face values computed in f64 arithmetic never leave the range of the three cell values, when the differences of the cells are zero or at least 2^-900.", "quantifier": "every triple of neighbouring cell values, every limiter parameter", "why_tests_cant": "Universal over reals.", "anchors": ["src/rhs/numflux/kt.rs: Kt::reconstruct", "src/config/numericsconfig/numfluxconfig.rs: LimiterMode, validate"]}
{"id": "C24", "title": "The VanLeer limiter does not compute the documented slope", "statement": "The VanLeer limiter is documented as (a|b| + b|a|)/(|a|+|b|). The code adds f64::MIN (the most negative double) to the denominator, so for all arguments of magnitude up to 2^200 the result is smaller than 2^-600 in absolute value: the scheme silently degenerates to first order. The documented claim is refuted.", "quantifier": "every pair of finite binary64 differences up to 2^200 in magnitude", "why_tests_cant": "Universal over doubles.", "anchors": ["src/rhs/numflux/kt.rs: Kt::reconstruct", "src/config/numericsconfig/numfluxconfig.rs: LimiterMode::VanLeer"]}
{"id": "C25", "title": "Reconstruction preserves cell averages", "statement": "In the KT scheme the average of the reconstructed west and east face values of every cell is the cell value, for every limiter (exact arithmetic).", "quantifier": "every state, limiter and mesh size", "why_tests_cant": "Universal over states.", "anchors": ["src/rhs/numflux/kt.rs: Kt::reconstruct"]}
{"id": "C26", "title": "What the run-time validation guarantees", "statement": "With the validation feature, whenever next_solution returns Ok every primitive and conservative variable of the cell centres is finite (no NaN, no infinity), and so are the wave speeds and the numerical fluxes of the last evaluation, with either flux scheme. The documented further promise, that positive densities and pressures are checked, is refuted: a step on a state with negative density returns Ok.", "quantifier": "every state, configuration, flux scheme and arithmetic, for all step counts", "why_tests_cant": "Universal over executions.", "anchors": ["src/state.rs: State::validate", "src/state/variables.rs: Variables::validate", "src/time/rkf.rs: next_solution", "src/lib.rs", "src/rhs/numflux/hll.rs: validate", "src/rhs/numflux/kt.rs: validate"]}
{"id": "C27", "title": "Finite domain of dependence", "statement": "The flux difference of a computational cell depends only on the cells at distance at most 1 (HLL) or 2 (KT): two states that agree there give bit-identical results in that cell, whatever the arithmetic; ghost-cell entries of the right-hand side are never written.", "quantifier": "every pair of states, cell index, mesh size and arithmetic", "why_tests_cant": "Relational property over pairs of states.", "anchors": ["src/rhs/numflux/hll.rs", "src/rhs/numflux/kt.rs", "src/rhs/numflux.rs: calc_dflux_xi_generic"]}
{"id": "C28", "title": "CFL condition", "statement": "calc_dt_cfl returns a finite step dt such that dt |v+c| / cell width <= dt_cfl_param in every cell, with equality in the fastest one, and Err if no such step exists; the corresponding bound for the other acoustic wave |v-c| does not hold (refuted), so left-running flow is not limited. In f64 arithmetic the step equals this value up to a factor within 2^-51 of one. A cell whose wave speed is NaN does not take part in the choice of the step, and an infinite wave speed yields the step 0 and no error.", "quantifier": "every state and mesh; plus a counterexample", "why_tests_cant": "Universal over states.", "anchors": ["src/state/physics.rs: calc_dt_cfl", "src/state.rs: State::calc_dt_cfl"]}
{"id": "C29", "title": "The step size respects dt_min, dt_max and the next output time", "statement": "A step that next_solution performs without adaptive step control uses dt <= dt_max and t + dt <= t_next_output, never a negative dt, and is only smaller than dt_min if it was shortened to hit the next output time, which it then hits exactly, or if dt_max itself is smaller than dt_min; if the CFL step falls below dt_min the call returns Err. In binary64 time never runs backwards, a step that is not shortened also ends at most at the next output time, rounding included, and a shortened one has the rounded difference as its length.", "quantifier": "every time step state with 0 <= t <= t_next_output, 0 < t_next_output, every CFL step", "why_tests_cant": "Universal over time states.", "anchors": ["src/time/timestep.rs: TimeStep::calc_dt_expl, cap_dt", "src/time/rkf.rs: next_solution"]}
{"id": "C30", "title": "A freshly initialised solver makes no progress without the run loop", "statement": "Calling Solver::next_solution directly on the result of init_corries (as its documentation example does) leaves the time unchanged: the very first output time is t0, so the step is capped to length zero, for every configuration.", "quantifier": "every valid configuration (t0 >= 0), state and flux scheme, without adaptive step control; in binary64 and in exact arithmetic", "why_tests_cant": "Universal over configurations.", "anchors": ["src/solver.rs: Solver::next_solution", "src/time/timestep.rs: TimeStep::new, cap_dt"]}
{"id": "C31", "title": "Every Runge-Kutta mode is executed as a forward Euler step", "statement": "For every RKF mode, a successful non-adaptive step gives u - dt * (sum of the weights) * f(u), a forward Euler step, because the stage coefficients are looked up transposed and are all zero. The documented claim that the configured Runge-Kutta method is performed is refuted for every mode with more than one stage.", "quantifier": "every mode, state, flux scheme (including user-defined ones) and step size", "why_tests_cant": "Universal over states and right-hand sides.", "anchors": ["src/time/rkf.rs: calc_rkf_solution", "src/time/rkf/butchertableau.rs: ButcherTableau::new"]}
{"id": "C32", "title": "Butcher tableaus: shapes, consistency and order conditions", "statement": "Each tableau is square of the reported order, strictly lower triangular, and the stored coefficients satisfy the consistency condition and all order conditions of the method they are named after and of its embedded method, except SSPRK5: its coefficients meet them only up to 1e-5, its weights sum to 0.999995, its row sums miss the nodes in two rows, and the weights used for the solution are those of the lower order (3) while the embedded ones have order 4.", "quantifier": "every RKF mode (and every right-hand side, since order conditions quantify over all of them)", "why_tests_cant": "Exact rational identities; a floating-point test can only check them approximately.", "anchors": ["src/time/rkf/butchertableau.rs: ButcherTableau::new, get_order"]}
{"id": "C33", "title": "Bounds on the adaptive step size proposal", "statement": "With automated step control one evaluation never proposes more than four times the tested step; an accepted evaluation (error < 1) proposes at most 4 dt, a rejected one between dt/4 and dt, and after two consecutive rejections with the same error at most 0.9 dt. The error of an evaluation is below 1 exactly if the solutions of high and low order agree within the configured tolerances, |high - low| < |rtol (high + atol)|, in every computational cell.", "quantifier": "every error history, step size, tolerance and order", "why_tests_cant": "Universal over error histories, involves exp and ln.", "anchors": ["src/time/rkf.rs: calc_rkf_solution"]}
{"id": "C34", "title": "Automated step control is inoperative", "statement": "For the embedded methods whose two weight sets both sum to one (RK3, Heun2, RKF12, RKF45, SSPRK3) the error estimate is always zero, so every step is accepted at the first attempt and its size is set to four times the CFL step (before capping), whatever the tolerances; the documented claim that the error is kept below the tolerance is refuted.", "quantifier": "every state, tolerance setting and flux scheme for those modes", "why_tests_cant": "Universal over states.", "anchors": ["src/time/rkf.rs: next_solution, calc_rkf_solution", "src/config/numericsconfig/timeintegrationconfig.rs"]}
{"id": "C35", "title": "Failed steps are atomic", "statement": "If next_solution returns Err before the new solution is stored (step size, flux evaluation, internal check), the state and the time are unchanged, bit for bit. A failing call can only modify the state if the final check finds a non-finite value, the time then being unchanged, or if the step completed and the iteration limit is reached. The time only advances when a step completed, by exactly dt.", "quantifier": "every state, configuration, flux scheme (including failing ones) and arithmetic", "why_tests_cant": "Universal over executions and failure points.", "anchors": ["src/time/rkf.rs: next_solution, calc_rkf_solution", "src/solver.rs: Solver::next_solution"]}
{"id": "C36", "title": "The validation feature does not influence results", "statement": "If a step succeeds with the validation feature, the same step without the feature succeeds with the identical result.", "quantifier": "every state, configuration and arithmetic", "why_tests_cant": "Relational property over all executions of two builds.", "anchors": ["src/time/rkf.rs", "src/rhs/numflux/hll.rs", "src/rhs/numflux/kt.rs", "src/mesh.rs"]}
{"id": "C37", "title": "Steps do not depend on leftover scratch data", "statement": "Without adaptive step control the result of next_solution depends only on the state, the time data and the configuration, not on the solver's internal buffers left over from earlier steps, so a simulation can be restarted from its State.", "quantifier": "every pair of solvers with different internal buffers, every state and arithmetic", "why_tests_cant": "Relational property over all histories.", "anchors": ["src/time/rkf.rs: calc_rkf_solution", "src/rhs.rs: Rhs::update", "src/rhs/numflux/hll.rs", "src/rhs/numflux/kt.rs"]}
{"id": "C38", "title": "Face states of the user's State are never updated by stepping", "statement": "next_solution modifies only the centre variables of the State; the west and east face variables keep the primitive and conserved variables and sound speeds init_corries gave them, which are those of the centre at the start, in every arithmetic and after any number of steps.", "quantifier": "every state, configuration, number of steps, arithmetic", "why_tests_cant": "Invariant over histories.", "anchors": ["src/time/rkf.rs: next_solution", "src/state.rs: State::init_west_east"]}
{"id": "C39", "title": "A simulation run always stops", "statement": "Without adaptive step control run_corries performs at most iter_max time steps and then stops, in every arithmetic; the iteration counter never exceeds iter_max, equals the number of steps, and reaching iter_max is reported as Err.", "quantifier": "every configuration, state, flux scheme, arithmetic", "why_tests_cant": "Termination over all executions.", "anchors": ["src/components.rs: run_corries", "src/solver.rs: Solver::next_solution"]}
{"id": "C40", "title": "Output times", "statement": "In exact arithmetic, for dt_min <= output interval, the k-th output of a run is written at a time within dt_min below t0 + k (t_end - t0)/output_counter_max and never after it (an error dump: never after it); the output times do not decrease; a successful run writes at least output_counter_max + 1 outputs and at most one more.", "quantifier": "every valid configuration and every sequence of CFL step sizes of any length", "why_tests_cant": "Invariant over unbounded step sequences.", "anchors": ["src/components.rs: run_corries", "src/time/timestep.rs: TimeStep::new, cap_dt"]}
{"id": "C41", "title": "The final time can overshoot t_end", "statement": "A successful run ends with t >= t_end - dt_min/100 and never beyond t_end plus one output interval; the tighter claim that it ends at t_end is refuted, because a step landing between t_end - dt_min and t_end - dt_min/100 is followed by a step that is no longer capped at t_end.", "quantifier": "every valid configuration and every sequence of CFL step sizes; plus a counterexample", "why_tests_cant": "Invariant over unbounded step sequences.", "anchors": ["src/components.rs: run_corries", "src/time/timestep.rs: cap_dt"]}
{"id": "C42", "title": "Error dump", "statement": "If a step fails, run_corries writes exactly one more output, labelled with dt kind err and containing the state the failing call left behind, and returns the error of the step; if that output itself fails, its error is returned.", "quantifier": "every configuration, failure point and arithmetic", "why_tests_cant": "Universal over failure points.", "anchors": ["src/components.rs: run_corries", "src/time.rs: DtKind"]}
{"id": "C43", "title": "Running a finished simulation again does nothing", "statement": "Calling run_corries again after it returned Ok neither steps nor changes the state or time; it writes no output unless the last step landed within dt_min of the next output time.", "quantifier": "every finished simulation, every arithmetic", "why_tests_cant": "Universal over final states.", "anchors": ["src/components.rs: run_corries"]}
{"id": "C44", "title": "Output files are numbered injectively and sort chronologically", "statement": "Vector output files of different output counters have different names, and for counters up to output_counter_max lexicographic order of the file names is numeric order of the counters; beyond output_counter_max (error dump, extra output) the ordering can fail.", "quantifier": "every pair of counters, every output_counter_max, every folder and file name", "why_tests_cant": "Universal over numbers and strings.", "anchors": ["src/writer/output.rs: Output::new, write_output"]}
{"id": "C45", "title": "Contents of output files in a cleared folder", "statement": "When the output folder was cleared at start-up, after any number of outputs each vector file contains exactly one header and one line per cell of its own output, and a scalar file contains the header once followed by one line per output in order.", "quantifier": "every number of outputs, every data, precision and formatting mode", "why_tests_cant": "Invariant over histories of writes.", "anchors": ["src/writer/output.rs: write_output, write_into_stream, get_header"]}
{"id": "C46", "title": "Existing files are not truncated", "statement": "Writing into an already existing longer file leaves the old file's tail in place: the file contents after a first write are the new text followed by the old contents beyond its length, so the claim that a file contains what was written is refuted when the folder is not cleared.", "quantifier": "every old file contents and every new text", "why_tests_cant": "Universal over file contents.", "anchors": ["src/writer/output.rs: write_output, write_metadata"]}
{"id": "C47", "title": "Column structure of the output", "statement": "Every line of an output, including the header, has exactly one field per requested data name, in the requested order, so that splitting a CSV line at commas recovers the fields; vector outputs have one line per printed cell, scalar outputs one line.", "quantifier": "every list of data names, every payload, every number formatting that avoids the delimiter", "why_tests_cant": "Universal over lists and strings.", "anchors": ["src/writer/output.rs: write_into_stream, format_data_to_buffer, get_header"]}
{"id": "C48", "title": "Ghost cells are cut off exactly", "statement": "Vector data written without ghost cells is exactly the computational part of the array, in order, and with ghost cells the complete array, for every mesh size.", "quantifier": "every array and mesh size S >= 5", "why_tests_cant": "Universal over sizes and data.", "anchors": ["src/writer.rs: write_vector", "src/writer/output.rs: Output::new", "src/writer/data.rs: Data::new"]}
{"id": "C49", "title": "Parallel writing is deterministic", "statement": "Outputs are written in parallel; if they go to pairwise different files the resulting files do not depend on the schedule.", "quantifier": "every schedule (order) of the outputs, any number of outputs", "why_tests_cant": "All schedules.", "anchors": ["src/writer.rs: Writer::write_output"]}
{"id": "C50", "title": "The output counter counts successful outputs", "statement": "After any history of write_output calls the output counter equals the number of calls that succeeded; a failing call leaves it unchanged so that the next call reuses the number.", "quantifier": "every history of successes and failures", "why_tests_cant": "Invariant over histories.", "anchors": ["src/writer.rs: Writer::write_output"]}
{"id": "C51", "title": "Which accepted output configurations panic", "statement": "Collecting and writing data never panics if the list of data names is not empty and all Prim and Cons indices are below the number of equations; configuration validation accepts an empty list and out-of-range indices, and with those the first output panics.", "quantifier": "every output configuration, state and mesh", "why_tests_cant": "Universal over configurations.", "anchors": ["src/writer/output.rs: write_into_stream", "src/state/variables.rs: Variables::collect_data", "src/config/outputconfig.rs: OutputConfig::validate"]}
{"id": "C52", "title": "Unit conversion", "statement": "Conversions to SI are correct for both unit systems and CGS values survive conversion to SI and back; the claim that values are converted to CGS is refuted for simulations set up in SI units, which get their input back unchanged.", "quantifier": "every value and both unit modes", "why_tests_cant": "Universal over reals.", "anchors": ["src/units.rs: Units"]}
{"id": "C53", "title": "Initial conditions of the shipped test problems", "statement": "init_noh and init_sod followed by init_corries' updates produce, for every S >= 6 and NoGradients boundaries, exactly the documented piecewise constant states with the jump between cells S/2 - 1 and S/2, including ghost cells; init_sod on isothermal physics returns Err.", "quantifier": "every S >= 6, both physics systems", "why_tests_cant": "Universal over mesh sizes.", "anchors": ["src/initfuncs.rs: init_noh, init_sod", "src/config.rs: init_corries"]}
{"id": "C54", "title": "Mirror symmetry of the HLL scheme", "statement": "Mirroring a state (reversing the cells and the velocity) mirrors the HLL flux differences: scalar rows are reversed, the momentum row is reversed with opposite sign (exact arithmetic); the step size selection does not have this symmetry (refuted).", "quantifier": "every state and mesh size", "why_tests_cant": "Relational property over all states.", "anchors": ["src/rhs/numflux/hll.rs: Hll::calc_dflux_dxi", "src/state/physics.rs: calc_dt_cfl"]}
{"id": "C55", "title": "Preparing one output does not disable another", "statement": "After init_corries created and cleared the output folders every output file can be opened, file system permitting; this is refuted when an output's folder lies inside the folder of a later output that clears its folder: initialisation succeeds and the output fails.", "quantifier": "every list of outputs, every folder name, every initial directory tree", "why_tests_cant": "Universal over lists of folders and directory trees.", "anchors": ["src/writer/output.rs: Output::new, write_output", "src/writer.rs: Writer::new"]}
{"id": "C56", "title": "Whole simulations do not panic", "statement": "For a mesh of at least five cells, boundary conditions and outputs that name existing equations and fields, and an initial condition that does not itself panic, neither initialisation nor the run panics, whatever the rest of the configuration, the numbers, the file system and the thread schedule are; without adaptive step control such a run returns Ok or an error. A validated configuration alone is not enough: a boundary condition for an equation that does not exist makes initialisation panic.", "quantifier": "every configuration, physics, scheme, arithmetic, initial condition, file system history, schedule and run length", "why_tests_cant": "Universal over configurations and whole executions, including all failing ones.", "anchors": ["src/config.rs: CorriesConfig::init_corries", "src/components.rs: run_corries", "src/solver.rs: Solver::next_solution", "src/boundaryconditions.rs: init_boundary_condition", "src/writer/data.rs: Collectable"]}
{"id": "C57", "title": "Array accesses stay in range and loop order does not matter", "statement": "With every array index, slice, array size and unsigned subtraction of the mesh construction, the physics, the boundary conditions, the flux schemes, the time integrator and the shipped initial conditions checked, neither initialisation nor a run ever goes out of range; and the loops, executed in the order of the code, with the parallel loops in whatever order the threads choose, compute the same components, states and outputs.", "quantifier": "every mesh of at least five cells, physics, scheme, configuration, arithmetic, file system history, run length and every order of the elements of the parallel loops", "why_tests_cant": "Universal over mesh sizes, thread orders and run lengths; a test sees one interleaving of one size.", "anchors": ["src/mesh.rs: Mesh::new", "src/state/physics.rs: update_vars_from_prim, update_vars_from_cons", "src/boundaryconditions/custom.rs", "src/rhs/numflux/hll.rs: calc_dflux_dxi", "src/rhs/numflux/kt.rs: new, calc_dflux_dxi", "src/time/rkf.rs: next_solution", "src/initfuncs.rs: init_noh, init_sod"]}
{"id": "C58", "title": "Interrupted output", "statement": "Whenever the process stops, or a write fails, in the middle of an output: directories and files of no output are unchanged; every file of the current output holds what it held before, overwritten or continued by a beginning of the text the output writes. In a folder that was cleared at the start, every file of an earlier output is complete, the file of the interrupted output is missing or a beginning of its table, a log file holds all earlier lines followed by a beginning of the next one, and no file of a later output exists. The same holds for the metadata files.", "quantifier": "every configuration with separate files, every number of completed outputs, every interleaving of the threads, every size of the single writes, every point at which the process stops or a write fails", "why_tests_cant": "Universal over crash points, partial writes and thread interleavings.", "anchors": ["src/writer/output.rs: write_output, write_into_stream, write_metadata", "src/writer.rs: Writer::write_output, write_metadata", "src/components.rs: run_corries"]}
{"id": "C59", "title": "Interleaved output", "statement": "However the single writes of the outputs of one write_output call are interleaved, a successful call leaves the same files, directories and writer as carrying out the outputs one after the other in any order, and the same screen if at most one output goes to the screen; it succeeds exactly if the sequential call does, if no write fails; and it ends once every thread got a certain number of turns. With two outputs to the screen their lines can be mixed in a way that no order of the outputs explains.", "quantifier": "every set of outputs with separate files, every interleaving of the writes, every file system", "why_tests_cant": "Universal over thread interleavings, which a test cannot control.", "anchors": ["src/writer.rs: Writer::write_output (par_iter_mut)", "src/writer/output.rs: write_output, write_into_stream"]}
{"id": "C60", "title": "Closed boxes keep their contents", "statement": "With walls on both sides (mirrored velocity, continued density and pressure), the HLL flux and validation, the total mass of the computational cells, and with adiabatic physics the total energy, is exactly the same (in exact arithmetic) in every output of the program and at the end of a successful run. With the KT flux this is false: the same box leaks.", "quantifier": "every closed-box configuration (mode, bounds, sizes, schedule of outputs), every initial condition function that keeps array sizes, every number of steps", "why_tests_cant": "Universal over configurations, initial data and run lengths; a test compares a few totals up to a tolerance.", "anchors": ["src/boundaryconditions.rs: CustomBoundaryConditions, Condition::Reflecting, Condition::NoGradients", "src/rhs/numflux/hll.rs", "src/rhs/numflux/kt.rs", "src/time/rkf.rs: RungeKuttaFehlberg::next_solution", "src/components.rs: run_corries"]}
{"id": "C61", "title": "Mesh coordinates in binary64 are ordered", "statement": "In binary64, on every mesh that passes validation, each cell's west face is not right of its centre and its centre not right of its east face, the faces of a cell differ, the width is positive, and faces and centres never decrease from one cell to the next. The east face of a cell and the west face of its right neighbour, however, are computed separately and need not be the same number.", "quantifier": "every mesh configuration in binary64 that validation accepts, every number of cells", "why_tests_cant": "Universal over floating point bounds and sizes; rounding differs from case to case.", "anchors": ["src/mesh.rs: Mesh::new", "src/config/meshconfig.rs: MeshConfig::validate"]}
{"id": "C62", "title": "Units of mass and time do not matter", "statement": "In exact arithmetic, for all positive factors of density and velocity: a program whose initial densities, velocities, pressures and sound speeds and whose times (t0, t_end, dt_min, dt_max) are given in other units of mass and time ends with the same outcome, and each of its outputs is the corresponding output of the original program in the other units (same number of outputs, iteration numbers and kinds of step). This holds for every physics, boundary condition, Runge-Kutta mode without step control, HLL, and KT with every limiter but VanLeer. For the unit of length it is false: cell volumes are compared with f64::EPSILON, and a shock tube given in a very large unit of length stands still.", "quantifier": "every configuration without step control, every initial condition that sets primitive variables and sound speed, all positive factors, every file system and length of run", "why_tests_cant": "Universal over factors, configurations and initial data; a test compares a few runs up to a tolerance.", "anchors": ["src/components.rs: run_corries", "src/config.rs: init_corries", "src/rhs/numflux/hll.rs", "src/rhs/numflux/kt.rs", "src/mesh.rs: deta_dphi_d_volume", "src/time/rkf.rs", "src/time/timestep.rs"]}
{"id": "C63", "title": "Printed numbers", "statement": "A finite double written with precision p appears as a decimal number with p+1 significant digits that is at least as close to the double as any other such number. Printed numbers keep the order of the doubles and contain no separators. With precision 16 or more, different doubles have different texts and the double closest to the printed number is the printed double, so all array values can be recovered from a vector file. With precision 15 or less, and with the default of 7, different doubles can share a text.", "quantifier": "every double, every precision; for files every mesh, configuration, state and output number", "why_tests_cant": "Universal over 2^64 doubles and all precisions; the argument needs the spacing of doubles and of decimal numbers everywhere, including powers of two and subnormal numbers.", "anchors": ["src/writer/output.rs: format_data_to_buffer", "src/writer/output.rs: write_into_stream", "src/config/outputconfig.rs: precision"]}
{"id": "C64", "title": "Aligned columns of TSV files", "statement": "If no title and no value of a TSV table is longer than the column width min(12, precision+7), all lines of the file have the same length and the text of each column stands at the same place, right-aligned, in every line. For precision at most 5 and values of magnitude 1e-99 to 1e99 (or zero) no value is longer. For the default precision 7 it is false: lines of one output can have different lengths.", "quantifier": "every mesh, configuration, state and output; every precision and double for the second part", "why_tests_cant": "Universal over tables, precisions and values.", "anchors": ["src/writer/output.rs: Output::new (width)", "src/writer/output.rs: get_header", "src/writer/output.rs: write_into_stream", "src/writer/output.rs: format_data_to_buffer"]}
{"id": "C65", "title": "Metadata describes the simulation", "statement": "The metadata text is a JSON document that lists every field of the configuration under its name with its value, whatever names, folders and numbers the configuration has. Two accepted configurations of doubles with the same metadata are equal. For every file output with metadata whose folder is cleared, or holds no metadata file of that name yet, this text is the content of its metadata file after initialisation and still at the end of the run, also if the run fails. It is false for folders that are not cleared: over the longer file of an earlier simulation the result is not JSON any more. Infinite limits are accepted, but appear as null.", "quantifier": "every configuration, every output, every file system and schedule of the writing loop, every length and outcome of the run", "why_tests_cant": "Universal over configurations (including names that need escaping), file systems and runs; uniqueness compares all pairs of configurations.", "anchors": ["src/config.rs: CorriesConfig (Serialize)", "src/config/*.rs", "src/writer.rs: write_metadata", "src/writer/output.rs: write_metadata"]}
{"id": "C66", "title": "Outputs do not influence the simulation", "statement": "Whatever a configuration writes (banner, screen, files, formats, folders, precision), and in whatever order the parallel writes happen, the simulation goes through the states it goes through without any output, to the same end; if an output fails, it has done so until then. Without outputs nothing is printed and no file is touched. It is false that the number of outputs is without influence: steps are shortened to end at the output times, and the results change.", "quantifier": "every configuration, initial condition, file system, schedule of the writing loop, length and outcome of the run", "why_tests_cant": "Universal over pairs of configurations, over all states of the file system and all failures of outputs.", "anchors": ["src/components.rs: run_corries", "src/config.rs: init_corries", "src/writer.rs: Writer::update, Writer::write_output"]}
{"id": "C67", "title": "The iteration limit only stops", "statement": "With a larger iteration limit a simulation goes through the same states and writes the same files with the same outcome, unless it has been stopped by the smaller limit; then the smaller one ends with the iteration error and an error dump, and until then both have gone through the same states. In particular a simulation that ends successfully ends in the same way with every larger limit.", "quantifier": "every configuration, pair of limits, initial condition, file system, schedule, length and outcome of the run", "why_tests_cant": "Universal over pairs of runs of any length.", "anchors": ["src/solver.rs: next_solution", "src/components.rs: run_corries", "src/time/timestep.rs: TimeStep"]}
{"id": "C68", "title": "The position of the domain does not matter", "statement": "In exact arithmetic, a simulation whose domain is moved along the axis, started from the same values in the cells, has all cell coordinates moved by the same amount and goes through the same states to the same end, for both flux schemes, every integrator (with and without step control) and all boundary conditions but the two Kepler modes. With a Kepler mode it is false, and in binary64 it is false in the last digits because cell widths are differences of rounded coordinates.", "quantifier": "every configuration, shift, initial condition, output list, file system, length and outcome of the run", "why_tests_cant": "Universal over pairs of runs and over all shifts.", "anchors": ["src/mesh.rs: Mesh::new", "src/rhs/numflux/kt.rs: Kt::new", "src/boundaryconditions/custom.rs", "src/state/physics.rs: calc_dt_cfl"]}
{"id": "C69", "title": "Counters do not overflow", "statement": "In every run that starts below its iteration limit the iteration counter never exceeds the limit, neither in an output nor at the end, however the run ends, and the output counter exceeds the number of iterations by at most one. After an initialisation with a limit below 2^64 - 1 neither counter leaves the range of a 64 bit integer, so the unbounded counters of the model are those of the program.", "quantifier": "every configuration, initial condition that leaves the time variables alone, file system, write schedule, number format, length and outcome of the run", "why_tests_cant": "A test would need 2^64 iterations; the bound is an invariant of the loop over all outcomes.", "anchors": ["src/components.rs: run_corries", "src/time/timestep.rs: TimeStep", "src/writer.rs: Writer::write_output"]}
{"id": "C70", "title": "Domain of dependence of steps", "statement": "What a cell contains after a number of successful steps depends only on the sizes of the steps and on the gas within a fixed number of cells: one cell per stage of the Runge-Kutta mode and step for Hll, two for Kt. Two simulations of the same configuration, from whatever initial states and histories, that take steps of the same sizes and hold the same gas within that distance of a cell hold the same gas in it afterwards, bit for bit: distant gas, rejected steps, old buffers and the validation switch do not matter.", "quantifier": "every arithmetic (exact and binary64), physics mode, number of cells >= 6, mesh, boundary condition, limiter, Runge-Kutta mode with and without step control, pair of histories, number of steps, cell and radius", "why_tests_cant": "It compares all pairs of simulations that agree near a cell; a stencil reading one cell too far, or a buffer left over from another step, shows only for particular data far away.", "anchors": ["src/rhs.rs: Rhs::update", "src/rhs/numflux/hll.rs: Hll::calc_dflux_dxi", "src/rhs/numflux/kt.rs: Kt::calc_dflux_dxi", "src/time/rkf.rs: RungeKuttaFehlberg::next_solution", "src/boundaryconditions/custom.rs: CustomBoundaryConditions::apply"]}
{"id": "C71", "title": "Symmetric problems stay symmetric", "statement": "If the initial condition is its own mirror image (densities, pressures and sound speeds equal, velocities opposite) and both sides have the same copying, reflecting, linearly extrapolating or near-zero boundary conditions, then every state after a step, every output and the final state of a run is its own mirror image. With Hll this holds exactly in exact arithmetic, and in doubles, with validation on, bit for bit up to the sign of zeros; with Kt and any limiter it holds in exact arithmetic with validation on, but not bit for bit in doubles. In particular the Noh problem on an even number of cells never prefers a side. The outflow conditions are not even-handed and break the symmetry already at rest.", "quantifier": "both physics modes, both flux schemes, every limiter, every number of cells >= 6, mesh, gamma, even-handed boundary condition, symmetric initial condition function, Runge-Kutta mode with and without step control, number of steps, output schedule and writer", "why_tests_cant": "Rounding is not associative, so an expression that treats the two sides differently breaks the symmetry for particular data only; the statement ranges over all symmetric doubles and all runs.", "anchors": ["src/rhs/numflux/hll.rs: Hll::calc_dflux_dxi", "src/rhs/numflux/kt.rs: Kt::calc_dflux_dxi, slope functions", "src/rhs.rs: Rhs::update", "src/time/rkf.rs: RungeKuttaFehlberg::next_solution", "src/boundaryconditions/custom.rs: CustomBoundaryConditions::apply", "src/initfuncs.rs: init_noh", "src/lib.rs: run_corries"]}
{"id": "C72", "title": "A sensible gas stays sensible", "statement": "If all variables are finite and all densities, sound speeds and (adiabatic) pressures positive, in ghost cells too, then with Hll, between boundary conditions that copy or scale densities and pressures, every successful step in which no wave (|v-c| or |v+c|) travels further than half a cell leaves a state with the same property, which passes validation; so does any number of such steps. The shipped Noh and Sod problems start in such a state. The step size chosen by the library is short enough if the waves to the left are at most r times as fast as the fastest wave to the right and dt_cfl_param is at most 1/(2r).", "quantifier": "both physics modes, every number of cells >= 6, mesh, gamma > 1, gentle boundary condition (walls included), state, Runge-Kutta mode with and without step control, number of steps", "why_tests_cant": "Positivity of pressure is a nonlinear inequality over all states and all sequences of steps.", "anchors": ["src/rhs/numflux/hll.rs: Hll::calc_dflux_dxi", "src/rhs.rs: Rhs::update", "src/time/rkf.rs: RungeKuttaFehlberg::next_solution", "src/boundaryconditions/custom.rs: CustomBoundaryConditions::apply", "src/state/physics.rs: calc_dt_cfl", "src/initfuncs.rs: init_noh, init_sod"]}
{"id": "C73", "title": "A sensible isothermal gas stays sensible with the second order scheme", "statement": "If all variables of an isothermal gas are finite and all densities and sound speeds positive, in ghost cells too, then with Kt and a limiter that creates no new extrema, between boundary conditions that copy or scale densities, every successful step short enough that no wave of a gas with the momentum and density of neighbouring cells travels further than half a cell leaves a state with the same property, which passes validation; so does any number of such steps. The shipped Noh problem starts in such a state. For the adiabatic system this fails: there are gases with positive densities and pressures for which the first step reports non-finite values even at a Courant number of 1/1000, while Hll computes it.", "quantifier": "isothermal physics; MinMod, Superbee, Monocent with parameter in (0, 2]; every number of cells >= 6, mesh, gentle boundary condition (walls included), state, Runge-Kutta mode with and without step control, number of steps", "why_tests_cant": "Positivity of reconstructed densities and of the update is an inequality over all states and all sequences of steps.", "anchors": ["src/rhs/numflux/kt.rs: Kt::calc_dflux_dxi, Kt::reconstruct", "src/rhs.rs: Rhs::update", "src/time/rkf.rs: RungeKuttaFehlberg::next_solution", "src/boundaryconditions/custom.rs: CustomBoundaryConditions::apply", "src/initfuncs.rs: init_noh"]}
{"id": "C74", "title": "Output times in binary64", "statement": "In binary64, without step control, output number i of a run shows a finite time that is at most the next representable number after the i-th planned output time (the output interval added up i times), and, unless it is an error dump, not before that time less dt_min; times do not decrease. A step shortened to the next output time ends there or at a neighbouring number. That a run's output can really be one representable number late is shown by an example. Needs that the output interval is not lost in rounding.", "quantifier": "every flux scheme, physics, mesh, initial state, validated configuration without step control, number of steps, outcome of the run", "why_tests_cant": "Rounding depends on every step size of the run; the bound must hold for all of them.", "anchors": ["src/time/timestep.rs: TimeStep::cap_dt, TimeStep::new", "src/components.rs: run_corries", "src/time/rkf.rs: RungeKuttaFehlberg::next_solution"]}
{"id": "C75", "title": "The number of steps is bounded by the configuration", "statement": "In exact arithmetic and without step control, a run with M output intervals of length D, smallest step dt_min and d not above dt_min and dt_max makes at most (M + 1 + dt_min/D)(D/d + 1) successful steps and perhaps one that fails, whatever iter_max is: a larger iteration limit is never the reason why it fails. In binary64 this is false: a run whose step is below half the distance of representable times never moves and ends with the iteration limit.", "quantifier": "every flux scheme, physics, mesh, initial state, validated configuration without step control, iter_max, outcome of the run", "why_tests_cant": "Each step size depends on the solution; the bound must hold for every sequence of step sizes the solution can cause.", "anchors": ["src/components.rs: run_corries", "src/time/timestep.rs: TimeStep::calc_dt_expl, TimeStep::cap_dt", "src/solver.rs: Solver::next_solution"]}
{"id": "C76", "title": "Density profiles in a uniform flow", "statement": "A gas with uniform velocity and pressure and any density profile (a contact discontinuity, a dense blob) keeps exactly this velocity and pressure with HLL, and with KT and the MinMod, Superbee or Monocent limiter, and copying boundary conditions: a step makes no pressure waves or velocity disturbances at density jumps. In Courant limited steps the density in a cell stays between the densities of the cell and its neighbours, and over a whole run between the smallest and the largest initial density.", "quantifier": "every mesh size and extent, adiabatic index, velocity, pressure, density profile, RK mode, number of steps", "why_tests_cant": "Shock tube tests look at one profile with a tolerance; spurious pressure waves at contacts depend on the profile, the velocity and the mesh.", "anchors": ["src/rhs/numflux/hll.rs: Hll::calc_dflux_dxi", "src/rhs/numflux/kt.rs: Kt::calc_dflux_dxi, Kt::reconstruct", "src/rhs.rs: Rhs::update", "src/state/systems/euler1dadiabatic.rs", "src/boundaryconditions.rs"]}
{"id": "C77", "title": "Converting between primitive and conservative variables loses little", "statement": "Converting density, velocity and pressure to mass, momentum and energy and back in f64 arithmetic returns the same density, the velocity up to two roundings, and the pressure up to 2^-49 times the sum of pressure and kinetic energy. So a positive pressure stays positive as long as the kinetic energy does not exceed the pressure by a factor of about 2^48.", "quantifier": "all f64 values of density, velocity, pressure between 2^-100 and 2^100 in absolute value (velocity also zero), every adiabatic index above 1, every cell and mesh size", "why_tests_cant": "Round trip tests look at a few values with a tolerance; cancellation in the pressure grows with the square of the Mach number and no test bounds it for all values.", "anchors": ["src/state/systems/euler1dadiabatic.rs: update_prim, update_cons, cons_to_prim, prim_to_cons", "src/state/systems/euler1disot.rs: update_prim, update_cons", "src/state/physics.rs: update_vars_from_prim, update_vars_from_cons"]}
{"id": "C78", "title": "In f64 arithmetic, mass, momentum and energy change only by what flows through the edges, up to rounding", "statement": "One call of next_solution changes the sum of the densities of the computational cells by the weighted mass fluxes through the first and the last face, up to a rounding error of at most 2^-47 times the sum of the sizes of the densities and flux differences that were added up (plus a term for underflow). Between solid walls, with HLL, the computed mass fluxes through the walls are exactly zero, so the total mass itself stays the same up to that error, and so does the total energy of the adiabatic physics. The same bound holds for the sum of the momenta and, with the kinetic energies added to the sizes and for densities, velocities and an adiabatic index minus one of ordinary size, for the sum of the energies. Over any number of successive steps the changes of the mass and the bounds add up.", "quantifier": "all simulations in f64 arithmetic reached from any prepared state by any number of steps, both flux schemes, both physics, all boundary conditions, all Runge-Kutta modes, every mesh and cell count, steps that are validated or end with finite conserved variables and whose size is between 2^-500 and 2^500", "why_tests_cant": "A test compares the total mass of one run with a guessed tolerance. Whether the drift comes from rounding or from fluxes that do not cancel between neighbouring cells is only settled by a bound for all states.", "anchors": ["src/solver.rs: next_solution", "src/time/rkf.rs: calc_rkf_solution", "src/rhs.rs: update", "src/rhs/numflux/hll.rs: calc_dflux_dxi", "src/rhs/numflux/kt.rs: calc_dflux_dxi", "src/boundaryconditions/custom.rs: CustomBoundaryConditions::apply"]}
{"id": "C79", "title": "Methods of State touch only what they name", "statement": "A method of State changes only the fields it is named after and only at the position (west face, centre, east face) it is called for; it works the same way at each position, calls for different positions do not interfere, and repeating an update changes nothing. A call panics exactly if the position, an array entry or an equation it names does not exist. In every state a program can make, and after any number of solver steps, the accessors (density, velocity, momentum, pressure, energy, eigenvalues) return the row they are named after, and zeros for variables the physics system lacks. The consistency check of the physics accepts exactly positive densities and pressures. Assigning a state copies primitive and conservative variables and the speed of sound, but not, as documented, all fields: eigenvalues, fluxes and the adiabatic index stay.", "quantifier": "all sequences of method calls and writes to array entries, all positions (also numbers that are none), both physics systems, every cell count, every arithmetic, any number of solver steps", "why_tests_cant": "The methods are generic over a position given as a number and are called in any order; the doc tests call each once on a fresh state and look at one entry.", "anchors": ["src/state.rs: State::update_prim_d and the other methods, State::assign, State::init_west_east, get_vars, get_vars_mut", "src/state/physics.rs: accessors, Physics::validate", "src/state/variables.rs: Variables::assign, zero_vec, eigen_min, eigen_max", "src/directions.rs: Direction"]}
