# Formal model of tbreslein/corries in Rocq

## 1. Approach

The model lives in `rocq/theories` and follows the source function by function;
every definition cites the file and lines it models. Number operations come from
a record `Num` (Num.v) with one field for every `f64` operation the code uses
and no propositional fields. So there are three kinds of theorems:

* **(A)** for every `Num`: nothing is assumed about the arithmetic, so rounding,
  overflow, NaN and signed zeros are all included. "Bit for bit" means this.
* **(R)** for `XRn` (XReal.v): exact real numbers extended by +inf, -inf and NaN.
  Finiteness checks, divisions by zero and comparisons behave as in IEEE, except
  that nothing is rounded, nothing overflows and there is one zero. "Exact
  arithmetic" in a property means this.
* **(F)** for `B64n ln exp` (B64.v): IEEE binary64 with round to nearest even
  from Flocq (`BinarySingleNaN`). The functions `ln` and `exp` of the platform
  are arbitrary parameters.

Panics and `Err` values are explicit outcomes (`res`, Base.v). Functions that
take `&mut` return the new value also when they fail. The two loops without a
static bound (`run_corries`, adaptive step control) carry fuel; running out of
it is the separate outcome `Fuel`, and C39 proves when it cannot occur. Arrays
are lists, `Array2` is a list of rows. The const generic `S` is a natural
number, `E` follows from the physics system (`phys := Isot | Adiab`). The
`validation` cargo feature is a boolean parameter. The flux scheme is a record
`numflux_impl` with the two instances `Hll` and `Kt`; theorems about the time
integrator hold for every such record.

The numerics are modelled twice. The files up to Runner.v describe arrays by
element formulas with total reads, which is the form the properties are proved
about. Loops.v follows the code's loops, with every index, slice, array size and
`usize` difference checked and the parallel loops in an arbitrary order. C57
proves the two equal from initialisation to the end of every run.

Files: model (Base Num XReal B64 Config Mesh State NumFlux Time Writer Runner Loops
FineWriter Sci Json),
specifications independent of the model's helpers (Spec*.v), lemmas
(the files without prefix), and `P_*.v` with the property theorems. Each
theorem is followed by an `Example` that meets its hypotheses with concrete
data, and by `Print Assumptions`.

Some properties are claims of the documentation that the code does not keep.
For those the theorem states what the code does, and a second theorem with the
suffix `_refuted` proves the documented claim false with a concrete execution.

## 2. Trusted base

1. The kernel of Coq 8.16.1 (`coqc`, and `coqchk`, which vcheck runs), including
   its virtual machine for the `vm_compute` steps (coqchk re-checks those with
   the lazy reduction).
2. The axioms that `Print Assumptions` lists. Only these four axioms of the
   standard library occur; section 7 gives the list per theorem.
   * `ClassicalDedekindReals.sig_forall_dec`
   * `ClassicalDedekindReals.sig_not_dec`
   * `FunctionalExtensionality.functional_extensionality_dep`
   * `Classical_Prop.classic`
   They enter with the real numbers, which Flocq's binary64 also uses in its
   proofs. No axiom is added by this development.
3. The reading of the Rust code, that is, that the definitions of the model do
   what the cited lines do, within the limits of section 4.
4. The specifications in `Spec*.v` and the theorem statements in `P_*.v`.

Libraries: the standard library, Flocq (binary64), Coquelicot is not used.

## 3. What is modelled

| source | model | remarks |
|--------|-------|---------|
| config.rs, config/*.rs (all types, `validate`, `default_*` constructors) | Config.v | |
| config.rs `init_corries`, components.rs `run_corries` | Runner.v | |
| mesh.rs (`new`, `validate`, collecting) | Mesh.v, Writer.v | |
| state.rs, state/variables.rs, state/physics.rs, state/systems/*.rs | State.v | both physics systems |
| state.rs: the public methods with a position, directions.rs | StateApi.v | calls and writes of entries; replacing whole arrays is not modelled |
| boundaryconditions.rs, boundaryconditions/custom.rs | State.v | all eight custom modes, NoGradients |
| rhs.rs, rhs/numflux.rs, rhs/numflux/hll.rs, rhs/numflux/kt.rs | NumFlux.v | all five limiters |
| time/timestep.rs, time/rkf.rs, time/rkf/butchertableau.rs, solver.rs, time.rs | Time.v | all nine modes, step control |
| writer.rs, writer/output.rs, writer/data.rs | Writer.v | with a file system |
| the rendering of doubles, `{:.*e}` in writer/output.rs | Sci.v | the standard library's documented result |
| the writes of writer.rs, writer/output.rs as single interleaved operations | FineWriter.v | related to Writer.v by C59 |
| the `Serialize` implementations in config.rs, config/*.rs | Json.v | rendering of serde_json's `to_string_pretty` |
| initfuncs.rs, units.rs | Runner.v | |
| the numerical loops of the above with checked array accesses | Loops.v | related to the rest by C57 |
| macros.rs, errorhandling/* (finiteness and positivity checks) | Config.v, Mesh.v, State.v | inlined |
| examples/template.rs, tests/noh.rs, tests/sod.rs | used in theorems and examples | C03, C53, C56 |

## 4. What is not modelled, and simplifications

* `usize` overflow: `iter` and the output counter are unbounded; C69 shows that
  they stay below 2^64 for every limit below 2^64 - 1. `S - 4` with
  `S < 4` is a panic, as in builds with overflow checks.
* Error values are an enumeration (`error`, Base.v); the report texts of
  color_eyre are not modelled.
* In most theorems the decimal rendering of doubles (`{:.*e}`) is an arbitrary
  function `fmt`; where one needs a fact about `fmt` it says so in a hypothesis.
  Sci.v defines the rendering; C63 shows that it meets these hypotheses. The
  algorithm of the standard library is not modelled, only its documented result.
* In most theorems the metadata is an arbitrary text. Json.v defines it as
  serde_json renders the derived `Serialize` implementations: field order,
  externally tagged enums, escapes, two blanks of indentation. The text of
  floating point numbers (serde_json uses the shortest one) is a parameter; bytes
  above 127 are copied as they are.
* File system: paths are compared as texts, an operation on a path either
  always or never fails (`w_bad`), writes are complete. Rayon's parallel loop is
  a list of output positions carried out one after the other, for every such
  list. A failure stops the loop, later positions are then not carried out.
  FineWriter.v drops these restrictions for the writes: single operations of
  the outputs are interleaved, may write a part of the text or fail, and the
  process may stop after each of them (C58, C59). It still assumes that the
  writes of one output reach its file in program order.
* `Output::new` computes the counter width with a floating point logarithm; the
  model counts decimal digits (they agree below 10^15).
* The banner text, logging, `benches/`, and the `Direction`
  `Cent` panic in the boundary condition constructor (never called so).
* ndarray broadcasts arrays of length one; Loops.v panics for any size mismatch
  instead, and C57 shows that none occurs. A parallel loop is a sequence of
  element updates in an arbitrary order.
* `XRn` has no signed zeros and no overflow; statements (R) are about exact
  arithmetic and say nothing about rounding errors.
* The trait `Physics` could be implemented by users; the model covers the two
  shipped systems. User-defined flux schemes are covered where theorems
  quantify over `numflux_impl`.

## 5. Findings

Behaviour of the code that differs from its documentation or from what a user
would expect. Each has a theorem.

1. Every Runge-Kutta mode is a forward Euler step. rkf.rs L166 reads `a[[p, q]]`
   with `p < q` from lower triangular tableaus, so all stages are evaluated at
   the old state (C31_runge_kutta_refuted). For SSPRK5 the weights sum to
   0.999995, so the step is also slightly too short.
2. SSPRK5: two row sums miss their node, and the weights used for the solution
   are those of the lower order (C32_ssprk5, C32_ssprk5_refuted).
3. Adaptive step control does nothing: the error estimate is zero, each step is
   accepted and set to four times the CFL step (C34_step_control_inert,
   C34_error_control_refuted).
4. `Solver::next_solution` after `init_corries` makes no progress, because the
   first output time is `t0` and the step is capped to zero (C30_no_progress).
5. The run can overshoot `t_end` and write one more output than planned
   (C41_exact_end_refuted, C40_planned_count_refuted).
6. The CFL condition uses only `v + c`: left-running flow is not limited and can
   reach negative densities with `Ok` (C28_left_wave_refuted,
   C22_left_flow_refuted, C54_step_size_refuted).
7. Positivity of density and pressure is documented as checked, but never is
   (C26_positivity_not_checked_refuted).
8. The VanLeer limiter adds `f64::MIN`, the most negative double, to its
   denominator and is practically zero (C24).
9. Monocent with a parameter above 2 is accepted and overshoots
   (C23_monocent_above_two_refuted).
10. Outflow conditions do the opposite of their documentation
    (C16_documented_refuted).
11. A mesh with a zero coordinate is rejected under validation although the
    configuration is accepted; so is `S = 4` (C06). `S < 4` panics (C04_mesh_total).
12. With one computational cell (`S = 5`) boundary conditions depend on their
    order, and init_noh's left ghost cells hold the right state
    (C15_one_cell_refuted, C53_five_cells_refuted).
13. Custom boundary conditions with an equation index out of range are accepted
    and panic (C17_panic_iff, C17_not_validated).
14. Files are opened without truncation (C46_not_truncated, C46_run_refuted).
15. Empty data name lists and indices out of range are accepted and panic at the
    first output (C51_*_refuted).
16. File names sort wrongly beyond `output_counter_max` (C44_order_refuted).
17. Values are not converted from SI to CGS (C52_si_to_cgs_refuted).
18. examples/template.rs pairs `Hll` with a KT configuration and always fails
    (C03_template_fails).
19. An output whose folder lies inside the folder of a later output that clears
    it cannot write (C55_nested_refuted).
20. Two outputs may write the same file; the result depends on the schedule
    (C49_same_file_refuted).
21. A step that reaches `iter_max` is completed and still reported as an error,
    with one more output (C39, C42).
22. Two outputs to the screen are accepted; their lines can be mixed
    (C59_screen_refuted).
23. With the KT flux solid walls are not tight: mirrored velocity and continued
    density make the reconstruction at the wall asymmetric, and a box loses mass
    (C60_kt_refuted). With HLL they are tight (C60_closed_box).
24. Faces of neighbouring cells are computed separately: in binary64 the east
    face of a cell can differ from the west face of the next one
    (C61_shared_faces_refuted, domain [1,2] with 100 cells).
25. Results depend on the unit of length: fluxes are divided by the volume of a
    cell plus f64::EPSILON, so with cells not much larger than 1e-16 the gas
    hardly moves (C62_length_refuted). Units of mass and time do not matter
    (C62_units_hll, C62_units_kt).
26. The default precision of file outputs (7) does not determine the values;
    17 significant digits (precision 16) are needed to read a state back exactly
    (C63_digits_refuted, C63_read_back).
27. TSV columns get the width min(12, precision + 7), presumably meant as a
    maximum; with precision 7 columns are not aligned (C64_refuted).
28. Infinite limits such as `dt_max` pass validation, but serde_json writes them
    as `null`, so the metadata does not tell +inf from -inf (C65_infinite_refuted).
29. Metadata files are opened without truncation, as data files are: in a folder
    that is not cleared, a shorter metadata text keeps the tail of the longer one
    of an earlier simulation and the file is not JSON (C65_old_file_refuted).
30. `output_counter_max` changes the results: steps are shortened to end at the
    output times (C66_output_count_refuted). Which files are written, and how,
    does not (C66_outputs_irrelevant).
31. With the boundary modes ExtrapolateDensityKepler and ExtrapolateEtaVelocityKepler
    results depend on the distance of the domain from the origin, as intended; on
    every domain they depend on it in the last digits (C68_kepler_refuted,
    C68_rounding_refuted).
32. The outflow boundary conditions treat the two sides differently: for a density
    (or any positive variable) in a resting gas OutflowNoGradients reflects the sign on
    the west side, giving ghost densities of -1, and copies on the east side
    (C71_outflow_refuted).
33. KT does not keep symmetric problems symmetric bit for bit: the distances from
    a cell centre to its two faces round differently on meshes far from the
    origin (C71_kt_b64_refuted). In exact arithmetic it does (C71_symmetric_kt).
34. KT reconstructs momentum and energy independently, so that an adiabatic gas
    with positive pressures in all cells can get negative pressures at faces; the
    step then fails with non-finite values, even at a Courant number of 1/1000
    (C73_adiabatic_b64_refuted). HLL computes the same step. The isothermal
    system does not have this problem (C73_stays_healthy).
35. Because `dt = t_next - t` and `t + dt` are both rounded, an output can happen
    one representable number after its planned time; also after the end time
    (C74_not_after_refuted). It is never later than that (C74_output_times_b64),
    unless the output interval itself is lost when added to the time.
36. `dt_min` is compared with the step, not with the spacing of representable
    times: if `t + dt` rounds to `t`, the run repeats steps without the time
    moving until `iter_max` (C75_b64_refuted). In exact arithmetic the number
    of steps is bounded by the configuration alone (C75_steps_bounded).
37. The pressure is computed as `(γ-1)(E - ½m²/ρ)`; its error is a rounding
    unit of the kinetic energy, not of the pressure. A uniform flow with
    `ρ = 0.3`, `v = 8127427`, `p = 1e-4` is accepted and its first step fails
    with a NaN sound speed although all fluxes cancel
    (C77_fast_flow_b64_refuted). Nothing in the code guards against it.
38. `State::assign` is documented to assign the fields of its argument, but
    copies only primitive and conservative variables and the speed of sound:
    `calc_dt_cfl` on the copy uses the old eigenvalues, and a later update of
    the copy uses the old adiabatic index (C79_assign_refuted).
39. `calc_dt_cfl` only looks at the quotient: a cell whose wave speed is NaN
    is ignored (C28_nan_ignored), so the step of a broken state can look
    ordinary, and an infinite wave speed gives `Ok(0.0)`, not an error
    (C28_infinite_speed); the latter only shows when the time step is compared
    with `dt_min`, as C28_infinite_speed_fails says of the whole step.
40. Validation asks for finite numbers only where a bound on both sides forces
    it: the adiabatic index and `t0` (C01_finite_fields).  Any accepted
    configuration stays accepted with the domain (-inf, inf), an infinite end
    time, step limits, CFL parameter, tolerances and Monocent parameter
    (C01_infinite_accepted).

## 6. Properties

Kind: (A), (R), (F) as in section 1.

| id | property | model and proof |
|----|----------|-----------------|
| C01 | Config validation accepts exactly the documented parameter set | Config.v: all config types and validators over binary64. Iff-theorem against a separate real-number specification. |
| C02 | Default Riemann-test configuration is always accepted | Config.v default constructors; validator evaluated symbolically for every t_end. The outputs of its runs follow from the theorems about output times (C40, C74). |
| C03 | A flux scheme can only be built from its own configuration | Hll::new / Kt::new as result-valued functions; iff on the variant. |
| C04 | The mesh tiles the requested domain | Mesh.v mesh_new over extended reals; index identities by lia, coordinates by field. |
| C05 | The western domain edge is represented exactly in binary64 | mesh_new over Flocq binary64; x + dxi*0 = x via Flocq correctness lemmas. |
| C06 | Mesh validation: accepted meshes are finite, meshes touching the origin are rejected | mesh_new with the validation flag, binary64; finiteness read off the validator, rejection via recip 0 = inf. |
| C07 | Primitive and conservative variables convert back and forth without loss | update_prim/update_cons on matrices (R); field per cell. |
| C08 | Variable conversion never changes the density | same functions, every arithmetic; row equality. |
| C09 | Fluxes are the Euler fluxes and the reported eigenvalues are their characteristic speeds | cell flux composed with cell conversion; derivative along explicit eigenvectors with derivable_pt_lim/Coquelicot is_derive. |
| C10 | Eigenvalue rows are ordered | update_eigen_vals over extended reals; order by lra. |
| C11 | The isothermal speed of sound never changes | invariant by induction over next_solution calls and over the run loop, every arithmetic. |
| C12 | Primitive, conservative and derived variables are mutually consistent after every update | invariant by induction, every arithmetic. |
| C13 | Boundary conditions only write ghost cells of the configured equations | apply_modes as a fold over the list; frame lemma by induction over the list. |
| C14 | Ghost-cell values of every boundary mode | per-mode closed forms; last-wins by induction. For simulations: the state between steps is a fixed point of both configured boundary conditions (C12), so the closed forms apply to it. |
| C15 | Boundary conditions are idempotent and their order does not matter | fold/commutation lemmas; vm_compute witness for S = 5. |
| C16 | Outflow boundaries reflect inflow and let outflow pass | case analysis on the sign test; witness for the documented claim. |
| C17 | Which boundary configurations can panic | iff by induction over the list. |
| C18 | A uniform flow is a steady state | NumFlux.v HLL and KT over extended reals. |
| C19 | Uniform flow stays exactly uniform in floating point | HLL over binary64: x - x = 0; uniformity lemma for every arithmetic. |
| C20 | Discrete conservation | telescoping sum by induction over cells, lifted through the RK combination and update_vars_from_cons. |
| C21 | Upwinding in supersonic flow | case analysis on the min/max of wave speeds. |
| C22 | The density stays positive under a two-sided CFL condition | algebraic bound on the mass flux through a face for HLL and, with the face densities bounded by C23 and C25, for KT; binary64 or exact witness for the failure. |
| C23 | Slope limiters never create new extrema | limiter functions over extended reals; lra/nra case analysis. |
| C24 | The VanLeer limiter does not compute the documented slope | binary64 bound with Flocq rounding lemmas; counterexample against the documented formula. |
| C25 | Reconstruction preserves cell averages | field on reconstruct. |
| C26 | What the run-time validation guarantees | read off the validators; for the fluxes: whatever every successful evaluation of the right-hand side leaves behind is there after the step; witness for negative density. |
| C27 | Finite domain of dependence | relational lemma, every arithmetic. |
| C28 | CFL condition | fold of max over cells; witness for |v-c|. Rounding of the step in binary64 by relative errors. NaN and infinity: induction over the fold of f64::max. |
| C29 | The step size respects dt_min, dt_max and the next output time | cap_dt and calc_dt_expl over extended reals, and the bit-exact landing in binary64 by Sterbenz. |
| C30 | A freshly initialised solver makes no progress without the run loop | ts_new then cap_dt, (R) and (F). |
| C31 | Every Runge-Kutta mode is executed as a forward Euler step | RK driver over extended reals, generic in the flux scheme; refutation by a concrete right-hand side. |
| C32 | Butcher tableaus: shapes, consistency and order conditions | tableaus as rationals; vm_compute on closed rational identities (finite set of modes, all covered). |
| C33 | Bounds on the adaptive step size proposal | controller formula over extended reals with exp/ln. The error estimate is unfolded to the two solutions and the configured tolerances. |
| C34 | Automated step control is inoperative | RK driver with asc, extended reals. |
| C35 | Failed steps are atomic | case analysis on the failure point, every arithmetic, generic in the flux scheme. |
| C36 | The validation feature does not influence results | relational lemma between the two values of the validation flag. |
| C37 | Steps do not depend on leftover scratch data | relational lemma on scratch buffers. |
| C38 | Face states of the user's State are never updated by stepping | invariant by induction, every arithmetic. |
| C39 | A simulation run always stops | run loop as a fuelled function with an explicit out-of-fuel outcome; iter_max bounds the fuel. |
| C40 | Output times | run loop over extended reals; invariant t <= t_next_output = t0 + k dt_output. |
| C41 | The final time can overshoot t_end | same invariant; witness schedule. |
| C42 | Error dump | case analysis of the loop. |
| C43 | Running a finished simulation again does nothing | unfolding of one loop iteration. |
| C44 | Output files are numbered injectively and sort chronologically | Writer.v file names as Coq strings with the decimal printer of the standard library. |
| C45 | Contents of output files in a cleared folder | file system model (path to contents); induction over the list of outputs. |
| C46 | Existing files are not truncated | overlay semantics of open-without-truncate. |
| C47 | Column structure of the output | rendered text as a list of lines of fields; split/join round trip. |
| C48 | Ghost cells are cut off exactly | write_vector as list slicing. |
| C49 | Parallel writing is deterministic | permutation of writes to distinct paths. |
| C50 | The output counter counts successful outputs | induction over the history of outcomes. |
| C51 | Which accepted output configurations panic | result-valued collect/write functions; iff on the names. |
| C52 | Unit conversion | Runner.v; field and a witness. |
| C53 | Initial conditions of the shipped test problems | Runner.v; index reasoning for every S. |
| C54 | Mirror symmetry of the HLL scheme | HLL over extended reals on the reversed state. |
| C55 | Preparing one output does not disable another | output_prepare over the file system model; induction over the outputs; witness for nested folders. |
| C56 | Whole simulations do not panic | well-formedness invariant preserved by every step of init and run; witness for an accepted configuration that panics. |
| C57 | Array accesses stay in range and loop order does not matter | second, loop-level model with checked accesses; refinement to the first model by size invariants and permutation-insensitive loop lemmas. |
| C58 | Interrupted output | third model of the writer with single operations (FineWriter.v); invariant over event sequences. |
| C59 | Interleaved output | the same invariant, compared with the sequential model of Writer.v; witness for two outputs to the screen. |
| C60 | Closed boxes keep their contents | invariant over steps of the program in exact arithmetic: at a wall the HLL flux of mass and energy is zero by symmetry, so the telescoped sum vanishes; binary64 run for KT. |
| C61 | Mesh coordinates in binary64 are ordered | binary64 model of Mesh::new: monotonicity of rounding along the formulas; witness for faces that differ. |
| C62 | Units of mass and time do not matter | relation between two runs in exact arithmetic, each quantity multiplied by its factor, preserved by every function of the model; binary64 run for the unit of length. |
| C63 | Printed numbers | integer model of the decimal rendering; equal to Flocq's rounding in radix 10, read back with an independent reader; spacing argument for 17 digits. |
| C64 | Aligned columns of TSV files | raw lines of the text model; length of rendered numbers from the exponent bounds; witness with precision 7. |
| C65 | Metadata describes the simulation | printer of serde_json on a JSON tree; a reader in the specification; reading back by induction on the tree; fields of the configuration by lookup; file invariant of the run. |
| C66 | Outputs do not influence the simulation | two runs side by side, one with an empty writer; induction on the main loop; binary64 witness for the number of outputs. |
| C67 | The iteration limit only stops | every function of a step commutes with replacing the limit; two runs side by side by induction on the main loop. |
| C68 | The position of the domain does not matter | every function of a step depends on the mesh through widths, distances and areas only; these do not change; two runs side by side; binary64 witnesses for Kepler modes and rounding. |
| C69 | Counters do not overflow | induction on the run loop: each round makes at most one output and one iteration, a failing round ends the run. |
| C70 | Domain of dependence of steps | locality of boundary filling, variable updates and flux differences; induction over the stages of a step and over the steps, with the buffers of the two solvers related by same_setup. |
| C71 | Symmetric problems stay symmetric | a record of sign laws (negation commutes with rounding, min/max swap, ...) proved for exact numbers and for doubles up to the sign of zeros; congruence of every stage under the mirror image; induction over stages, steps and the run; for Kt the limiters are shown odd and symmetric in their two differences. |
| C72 | A sensible gas stays sensible | states with positive density and pressure form a convex cone; the HLL intermediate states lie in it; the update of a cell is a positive combination; boundary values and sound speeds follow; induction over steps. |
| C73 | A sensible isothermal gas stays sensible with KT | reconstructed densities and momenta lie between those of neighbouring cells, so face velocities are bounded by mixed quotients; C22 for KT; boundary values follow; induction over steps. Adiabatic: witness computed in binary64. |
| C74 | Output times in binary64 | error of the rounded difference is half a unit in the last place of the output time, so rounding the sum ends at it or next to it; invariant over the run as for C40; the next planned time is at least one number later. Lateness: witness computed in binary64. |
| C75 | Number of steps | invariant over the history of a run: of n steps, a are at least d long and so fit into the elapsed time, the other b ended exactly on an output time, each on another one; the number of outputs is bounded as in C40. Binary64: witness computed. |
| C76 | Uniform flow carries densities | invariant over steps; in such a flow momentum and energy are affine in the density and so are the HLL fluxes, therefore the new momentum and energy are the same affine functions of the new density; this density is a mean of the old ones with weights that are not negative (C72's argument). KT: the limiters commute with multiplication, so that the reconstruction keeps velocity and pressure too; the new density is a mean of the densities at the faces. |
| C77 | Conversions lose little | error analysis: away from overflow and underflow each operation is exact up to a factor within 2^-53 of one; the factors of the products are collected, the two kinetic energies and the final difference are bounded by the triangle inequality. Witness for the lost pressure computed in the binary64 model. |
| C78 | Mass in binary64 | every new density is the old one minus the weighted slopes of the stages, operation by operation; the errors of the products and sums are collected per cell, then the fluxes of neighbouring cells cancel in the sum as real numbers. Walls: the two cells at a wall are mirror images up to the sign of zeros, so the computed flux equals its own negative. Momentum: the error of m -> m/rho -> (m/rho)*rho, there and back, is added per cell. Energy: the errors of energy -> pressure -> energy and of the two ways to compute the kinetic energy are collected (EnergyB64.v). Many steps: induction over the steps. |
| C79 | Methods of State | the calls are a data type, a program is a list of calls; shape of the arrays and the vector of zeros are invariants of every program and every step; footprints by cases on the calls. |

## 7. Assumptions per theorem

As printed by `Print Assumptions`.

Closed under the global context (no axioms):

C03_hll_iff, C03_kt_iff, C03_mismatch_is_err, C03_template_fails,
C04_mesh_total, C06_accepted_is_finite, C08_density_copied,
C11_sound_speed_constant, C11_sound_speed_constant_run,
C12_consistent_after_init, C12_consistent_after_step, C13_only_ghost_cells,
C14_configured_sides, C15_idempotent, C15_order_irrelevant,
C17_no_gradients_total, C17_panic_iff, C19_uniform_stays_uniform,
C26_fluxes_finite_hll, C26_fluxes_finite_kt, C26_validated_step_is_finite,
C27_ghost_untouched, C27_local_hll, C27_local_kt, C29_dt_min_error,
C33_configured, C35_failed_steps, C35_time_only_advances_on_completion,
C36_library_schemes, C36_validation_only_checks,
C36_validation_only_checks_run, C37_no_memory, C37_no_memory_hll,
C37_no_memory_kt, C38_faces_initial, C38_faces_untouched,
C38_faces_untouched_run, C39_library_schemes, C39_run_stops,
C39_step_control, C40_at_start, C42_dump_means_failure, C42_error_dump,
C42_failure_means_dump, C42_label, C42_output_fails, C43_rerun,
C44_file_name, C44_injective, C44_order, C44_order_refuted, C45_history,
C45_run, C46_metadata, C46_not_truncated, C47_columns, C47_row_lengths,
C48_cells, C48_written, C49_same_file_refuted, C49_schedule, C50_counter,
C50_start, C51_bad_index_refuted, C51_empty_names_refuted, C51_no_panic,
C53_noh, C53_sod, C53_sod_isothermal, C55_directories, C55_nested_refuted,
C56_init_never_panics, C56_library, C56_run_never_panics, C56_run_returns,
C57_in_range, C57_init_functions, C57_mesh, C57_thread_order, C57_whole_hll,
C57_whole_kt, C58_crash_point, C58_history, C58_metadata, C58_run,
C59_completes, C59_counter, C59_interleaving, C59_result, C59_screen_refuted,
C64_aligned, C65_describes, C65_file, C66_init, C66_outputs_irrelevant,
C66_run, C67_init, C67_larger_limit, C67_run, C69_counters, C69_no_overflow,
C70_domain_of_dependence, C70_reach_hll, C70_reach_kt, C79_accessors,
C79_accessors_after_steps, C79_assign, C79_composed, C79_every_position,
C79_footprint, C79_independent, C79_repeated, C79_validate, C79_values,
C79_which_calls_work

Resting on `ClassicalDedekindReals.sig_forall_dec`, `ClassicalDedekindReals.sig_not_dec`, `Classical_Prop.classic`, `FunctionalExtensionality.functional_extensionality_dep`:

C01_finite_fields, C01_infinite_accepted, C01_no_nan, C01_no_nan_limiter,
C01_validation_iff, C02_default_accepted, C02_default_outputs,
C02_default_outputs_b64, C04_mesh_tiles_domain, C05_west_edge_exact,
C06_accepted_exactly, C06_no_cells_rejected, C06_origin_rejected,
C06_zero_coordinate_rejected, C07_cons_roundtrip, C07_conserved_quantities,
C07_prim_roundtrip, C09_euler_system, C10_eigenvalues_ordered,
C10_eigenvalues_ordered_b64, C10_sound_speed, C14_ghost_values,
C14_simulation, C15_one_cell_refuted, C16_documented_refuted, C16_outflow,
C16_outflow_b64, C17_not_validated, C18_uniform_steady_hll,
C18_uniform_steady_kt, C19_zero_flux_difference, C20_conservation_hll,
C20_conservation_kt, C21_supersonic_hll, C21_supersonic_kt, C21_upwind_hll,
C21_upwind_kt, C22_density_positive, C22_density_positive_kt,
C22_left_flow_refuted, C22_right_flow, C23_extremum_b64,
C23_monocent_above_two_refuted, C23_no_new_extrema, C23_no_new_extrema_b64,
C24_documented_slope_refuted, C24_vanleer_negligible, C25_average_preserved,
C26_positivity_not_checked_refuted, C28_cfl_b64, C28_cfl_condition,
C28_infinite_speed, C28_infinite_speed_fails, C28_left_wave_refuted,
C28_nan_ignored, C29_step_size, C29_step_size_b64, C30_no_progress,
C30_no_progress_b64, C31_forward_euler, C31_forward_euler_hll,
C31_forward_euler_kt, C31_runge_kutta_refuted, C32_ssprk5,
C32_ssprk5_refuted, C32_tableaus, C33_acceptance, C33_proposal_bounds,
C34_error_control_refuted, C34_step_control_inert, C40_output_count,
C40_output_times, C40_planned_count_refuted, C41_exact_end_refuted,
C41_final_time, C43_rerun_exact, C46_run_refuted, C52_cgs_round_trip,
C52_si_to_cgs_refuted, C52_to_si, C53_breakpoint, C53_breakpoint_b64,
C53_five_cells_refuted, C54_mirror_symmetry, C54_step_size_refuted,
C56_boundary_panic_refuted, C60_closed_box, C60_kt_refuted, C60_steps,
C61_order_b64, C61_shared_faces_refuted, C62_length_refuted, C62_units_hll,
C62_units_kt, C63_digits_refuted, C63_distinct, C63_nearest, C63_order,
C63_plain, C63_read_back, C63_ties_to_even, C63_written, C64_fits,
C64_refuted, C65_determines, C65_infinite_refuted, C65_old_file_refuted,
C66_output_count_refuted, C68_kepler_refuted, C68_position_hll,
C68_position_kt, C68_rounding_refuted, C71_kt_b64_refuted, C71_noh_b64,
C71_outflow_refuted, C71_symmetric, C71_symmetric_b64, C71_symmetric_kt,
C72_library_step, C72_noh, C72_simulation, C72_sod, C72_stays_healthy,
C73_adiabatic_b64_refuted, C73_noh, C73_simulation, C73_stays_healthy,
C74_landing, C74_not_after_refuted, C74_output_times_b64, C75_b64_refuted,
C75_steps_bounded, C76_density, C76_kt_density, C76_kt_simulation,
C76_kt_stays_carried, C76_kt_velocity_pressure, C76_simulation,
C76_stays_carried, C76_velocity_pressure, C77_density_velocity,
C77_fast_flow_b64_refuted, C77_pressure, C77_pressure_positive,
C78_closed_box, C78_closed_box_energy, C78_closed_box_run, C78_energy_hll,
C78_energy_kt, C78_mass_hll, C78_mass_kt, C78_momentum_hll, C78_momentum_kt,
C78_run_hll, C78_run_kt, C79_assign_refuted

