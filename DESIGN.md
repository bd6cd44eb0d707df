# Formal model of TiborVoelcker/post in Rocq (Coq 8.16.1)

## 1. Structure

The Rust crate `sim` computes with `f64` and nalgebra's 3-vectors.  The model is
written **once**, function by function, over an arbitrary record of arithmetic
operations `Num` (theories/Num.v), and is instantiated twice:

* `B64 lm` (theories/B64.v): IEEE-754 binary64, round-to-nearest-even, all
  special values, with an *arbitrary* mathematical library `lm` (sin, cos, tan,
  asin, acos, atan, exp, powf, `Rotation3::from_matrix`).  Theorems over
  `B64 lm` therefore hold for all inputs of the real program, whatever libm.
* `XR rot` (theories/XR.v): exact extended reals (reals, ±∞, NaN).  It is the
  program without rounding, overflow and signed zeros.  Geometric, analytic and
  physical properties are stated here.

Three kinds of theorems result: for every `Num` (control flow, inheritance,
decoding, totality); for `B64 lm` (IEEE facts); for `XR rot` (mathematics).

| file | models |
|---|---|
| Num.v | f64 operation record, nalgebra vector/matrix operations, `powi`, `clamp`, panics |
| Constants.v | utils/constants.rs |
| State.v | state.rs (state, 56 variables, names) |
| Tables.v | utils/tables/mod.rs, linear_interpolation.rs |
| Config.v, Json.v | config.rs, `Deserialize` of every configuration type |
| Planet.v, Atmosphere.v, Transformations.v, Steering.v, Vehicle.v | files of the same name |
| RungeKutta.v | integration/runge_kutta.rs, integration/mod.rs |
| Phase.v | phase.rs (equations of motion, event logic, inheritance, init, run loop) |
| Simulation.v | lib.rs `Simulation::run`, with its output trace |
| Text.v | the text of the output: the `println!` of phase.rs and lib.rs |
| Plot.v | utils/plot/plot.py: `parse_test_output` (regular expressions, `re.split`, `re.findall`) |

Every definition cites the lines it models.  A Rust function that can panic
returns `outcome`.  The run loop takes `fuel` (number of iterations followed) and
returns the history so far and `Finished | Aborted | Running`, so theorems about
`run fuel` for every `fuel` speak about every prefix of every run, terminating or
not.

Specifications (files Spec*.v) are written over the standard library's reals,
lists and Coquelicot's derivatives, without reference to the model's helpers.
Theorem files are Prop_*.v: one or more theorems per property followed by
`Example`s that meet the hypotheses.  Prop_Mission.v restates the record laws
(C03-C06, C11, C13, C15, C22-C24, C26, C40, C46, C47) in terms of the list of configurations
and the blocks of the output only.

## 2. Trusted base

* Coq's kernel (and `coqchk`); `vm_compute` is used for closed computations.
* Axioms: see section 5, what `Print Assumptions` lists.  Theorems for every
  `Num` are closed under the global context.  Theorems over reals use the
  standard library's classical reals (`ClassicalDedekindReals.sig_forall_dec`,
  `sig_not_dec`, `functional_extensionality_dep`, `classic`).  Theorems whose proof uses
  the Interval tactic additionally list the primitive integer/float operations
  and their specification axioms of `Coq.Numbers.Cyclic.Int63`/`Coq.Floats`.
* That the model is the program: transcribed by hand, see section 3.

## 3. Modelled and not modelled

Modelled: everything in sim/src that runs outside `#[cfg(test)]`, except:

* `Rotation3::from_matrix` (nalgebra) is an iterative projection on the rotation
  group.  In `B64` it is arbitrary; in `XR` it is a parameter `rot`, and theorems
  on frames assume `rot_contract rot` (it returns a rotation unchanged; the real
  routine does so up to its convergence threshold).
* nalgebra and std routines are modelled from their documentation and source:
  summation order of `dot`/`norm`/matrix products, `angle`, `partition_point`
  (binary search), `clamp`, `powi` (square and multiply; Rust leaves its
  rounding unspecified), `Iterator::sum` starting from +0.
* The text level of the input: serde_json's parser, number parsing, error messages,
  file I/O, clap.  JSON documents are trees.  The text of the output is modelled
  (Text.v): `{:.0}` with the rounding to an integer as a parameter whose contract is
  "nearest, ties either way", and nalgebra's `Display` of vectors, transcribed from
  nalgebra 0.32 (not vendored in /repo).
* Of the plotting script, everything but the reading of the output (Plot.v): pandas,
  PyVista, file handling.
* usize is `nat` (no array is near 2^64 elements); `end_criterion_tries` stays
  below 22.
* `XR`: no rounding, no signed zero (x/0 has the sign of x), `powf` of negative or
  infinite operands simplified to NaN, `tan` undefined (NaN) at its poles.
* `#[cfg(test)]` code and example_data.rs.
* The repository has no Cargo.lock, so the versions of nalgebra and serde are not
  pinned; the model follows the semantics common to the versions its Cargo.toml admits.

## 4. Plan per property

| id | model part | instance | method |
|---|---|---|---|
| C01 | Transformations | XR | matrix identities from sin²+cos²=1 (ring/nsatz) |
| C02 | Transformations | XR | compare with elementary rotations and the local up/north/east triad |
| C03 | Planet.gravity | XR | chain rule (Coquelicot) along an arbitrary differentiable curve, field |
| C04 | Planet.gravity | XR | algebra |
| C05 | Planet.altitude | XR | sin∘asin, sqrt algebra; monotonicity of t ↦ (t r) on the ellipsoid form |
| C06 | geopotential_altitude | XR | field/inequalities |
| C07 | Phase.init | XR (position), B64 (velocity) | algebra; Flocq: 0-c=-c, c-c=0 |
| C08 | Phase.init | all | refutation: result independent of `altitude` |
| C09 | Phase.init | XR | refutation for oblate planets, proof for spherical ones |
| C10 | get_table_row | all / XR | loop invariant; sortedness of the table |
| C11 | Atmosphere | XR | case analysis on the 22 layers, interval bounds |
| C12 | Atmosphere | XR | derivative per layer; boundary values with Interval; refutation at two boundaries |
| C13, C14 | aero_force, system | B64 | case analysis on IEEE special values |
| C15, C16 | aero_force, alpha | XR | algebra; atan bounds; refutation for v_z<0 |
| C17 | try_new | all | induction on arrays |
| C18 | at_state | all | binary search stays in range, index bounds |
| C19, C20 | interpolation | XR, B64 | binary search result = number of bases below x; algebra; piecewise continuity; refutation of bit-exactness by computation; in B64 a forward error analysis of every cell (Flocq's relative error bounds) composed over the dimensions |
| C21 | auto_throttle, system | B64 | clamp cases |
| C22 | auto_throttle | XR | law of sines, triangle geometry |
| C23 | system, run | all, XR | guard of `system`; C22 |
| C24 | thrust, massflow | XR | permutation of sums |
| C25 | integrator | B64, XR | sign preservation under rounding; exact RK4 sum |
| C26 | Phase.new, system | all | case analysis |
| C27 | system | XR | refutation |
| C28 | Phase.new, run | all | case analysis, invariant of the run loop |
| C29 | Phase.reset | all | refutation: invariant base_stepsize = 1 |
| C30 | Simulation | all | induction on the configuration list |
| C31, C32 | step, run_loop | all, XR | case analysis and induction on fuel |
| C33 | time_to_go | XR | algebra |
| C34 | run_loop | XR, B64 | induction on the distance to the target; in B64 with the rounding of clock, difference and secant step (Prop_TimeIEEE.v) |
| C35 | run_loop | XR | refutation by computation, invariant under bracketing |
| C36 | integrator_step, run | all, XR | induction |
| C37, C38 | system, step | all | unfolding, non-interference |
| C39, C40 | Steering | XR | algebra; refutation with variable `time` |
| C41 | RungeKutta (OrderFour.v: pure real analysis; smooth k = k times continuously differentiable, by partial derivatives) | exact reals | algebra for polynomial quadrature; Taylor expansion for the order; SmoothFacts.v / Prop_VacuumOrder.v: smoothness of the code's vacuum equations by closure under composition |
| C42, C43 | names | – | computation over the finite list, string inequality in general |
| C44 | Json | all | lemmas on field lookup |
| C45 | Simulation | all | induction |
| C46, C47 | system | XR | algebra, C01 |
| C48 | Planet.gravity | XR | explicit form of the field; derivative of r × v |
| C49 | Phase, Simulation, Json | all, XR | every lookup of an accepted table succeeds, induction on runs; vacuum: C22 |
| C50, C51 | aero_force, alpha | B64, XR | NaN propagation; sign of the scalar product; refutations |
| C52 | system, integrator, run | XR, B64 | every operation of one evaluation keeps real numbers real away from singular states; induction over stages and iterations; refutation by symbolic execution of a coasting phase with a constant criterion |
| C53 | printed text | B64 | decimal numerals are injective; a number ends at the first character no number contains; column width is determined by the first line of the box |
| C54 | printed text, script's reader | B64 | regular expressions as scanning functions; a pattern cannot match where its first character does not occur; induction over records and phases; refutation by running a simulation with a negative time |
| C55 | Phase::run with a mass criterion, vacuum | XR | the throttle in vacuum as function of the mass (monotone, Lipschitz); mass used by a Runge-Kutta step is h times a nonincreasing Lipschitz average; secant overshoots shrink geometrically; induction over steps and retries |
| C56 | Simulation::run of two missions that differ in the launch longitude | XR | relation `turned` between states (vectors of the inertial and planet frames turned about the axis, the rest equal); preserved by Phase::init, every equation of motion (rotation about z commutes with gravity, spin and the launch frame), the Runge-Kutta sum, the event handling and inheritance; induction over iterations and phases |
| C57 | Simulation::run of two missions that differ in a phase cut in two | all Num, then XR and B64 | relation between the clocks of corresponding states, preserved by every evaluation and step (everything but the time since the event is equal); the phase before the event ends after exactly n full steps; the evaluation at the event reproduces the last state; the re-initialised steering gives the same angles; next phases start in equal phases |
| C58 | Simulation::run of two missions that differ in their lists of engines | all Num, then XR and B64 | lists with equal sums of thrust (at every pressure) and flow are interchangeable in Phase::system, hence in step, run and, through configuration and reset, in the whole simulation; sums are invariant under permutation (commutative and associative addition incl. infinities) and clustering; IEEE addition is commutative |
| C59 | Simulation::run with engines and atmosphere off | XR | gravity is a multiple of the position plus an axial part that vanishes for a sphere or is in the plane; flatness is kept by sums and multiples, hence by every stage of the integrator, every iteration, and through configuration and reset |
| C60 | Simulation::run of two missions that differ by a factor in the vehicle's size | all Num with a scaling, then XR | multiplication by k commutes with every operation on masses and forces and drops out of quotients, norms' ratios, angles and comparisons; system, step, run and configuration are equivariant; k > 0 is such a scaling of the extended reals |
| C61 | Simulation::run of two missions with the same settings in effect | all Num | by induction over the phases: with equal settings in effect (C28) two phases entered from the same state are equal after reset, so their runs are equal |
| C62 | Planet::gravity, Planet::altitude in binary64 | B64 lm | Rounding.v: a calculus of (size, relative error) pairs over Flocq's rounding operators, one lemma per operation; composed along the expressions; the arc sine's argument is within [-1,1] because sqrt(fl(z*z)+..) >= fl(sqrt(fl(z*z))) >= z by monotonicity of rounding. Hypothesis accurate_sine on the library for the altitude |
| C63 | Integrator::step, RungeKutta, Phase::system/step/run, Planet::gravity, all of Simulation::run | XR and B64 lm | spec `flight` (RK4Error.v, real vectors only). Exact: finite results have finite operands, forces vanish, the weighted sums simplify. IEEE: each stage of the step is an inexact stage (StepIEEE.v/CoastStep.v, with the calculus of Rounding.v and C62_gravity); the field is Lipschitz with constant lambda^2 outside R0 (FieldBounds.v); one step multiplies the weighted distance lambda*|dx|+|dv| by at most exp(lambda) and adds one rounding error (second_error); induction over the records |
| C64 | Simulation::run of a mission and its mirror image in the equatorial plane | XR | reflection commutes with every operation: rotations about the polar axis are kept, axes of attitude are reflected with left and right exchanged, cross products change sign; negation is a homomorphism of the extended reals; evaluation, step, run and configuration are equivariant (same induction as C56) |
| C65 | as C63, compared with solutions of x'' = gradient of the potential | real numbers, XR and B64 lm | spec `motion` (Motion.v): a curve with its derivatives. Taylor's formula for curves by the mean value theorem along every direction; each stage of the method is compared with the motion at that time by the Lipschitz constant of the field (FieldBounds.v); stability of the exact step (second_error); induction over the steps; triangle inequality with C63 |
| C66 | Simulation::run of a mission and its mirror image in the plane of the prime meridian | XR | as C64 with the reflection y -> -y, which also reverses the planet's rotation; the transformations of vehicle and steering are those of C64 |
| C67 | as C63 around a planet without oblateness, compared with the motion on an ellipse | real numbers, XR and B64 lm | spec in Kepler.v: `energy`, `momentum`, `semi_major`, `eccentricity`, `perigee`, `apogee` (Prop_Kepler.v: `kepler_orbit`). The motion is constructed: Kepler's equation has an inverse (a function that increases everywhere), positions and velocities by Lagrange's coefficients, the differential equation by polynomial identities. Records: C65_whole with delta = 0 (induction over the records: near the motion, hence in range, hence the next step is near); energy and momentum are Lipschitz there |
| C68 | `Phase::step` and `run` from the initial state of a phase, the criterion in effect, the blocks of the output | XR and B64 lm | spec: `seconds` (the list 1, 2, ...), `criterion_in_effect`, `over`. Induction over the chain of iterations: clock, step size 1 and counter 0 are invariant until the criterion comes within a step; IEEE: sums of integers below 2^53 are exact and the tolerance test fails at a distance of at least 1 and succeeds at 0; within a second of T all differences are exact (Sterbenz), so the step to go is exactly T - m and the clock arrives at T itself (Prop_SecondsIEEE.v). Whole missions (Prop_MissionClock.v, spec `records`, `lasts`): `mission_induction` over the blocks of the output |

Properties of the list that turn out false of the code are kept in the list; a
theorem with suffix `_refuted` proves their negation (with a concrete witness) and a
theorem with suffix `_partial` the strongest true part.

## 5. Axioms per theorem (`Print Assumptions`)

Only axioms of Coq's standard library occur:

* Closed under the global context (no axioms) (85 theorems): C10_total, C15_same_instant, C17_document, C17_decoded, C17_table1_accepted, C17_table2_accepted, C17_table3_accepted, C17_table1_errors, C17_table2_errors, C17_table3_errors, C18_interpolation_total, C18_default_table_accepted, C23_reported, C26_simulation, C26_reported, C26_start, C26_first, C27_system_partial, C27_run_partial, C28_inheritance, C28_state, C28_default, C28_run_keeps_parameters, C28_effective, C28_records, C29_stepsize_is_one, C30_empty, C30_init_required, C30_init_ignored_later, C30_order, C30_concat, C30_outcome_independent_of_fuel, C31_finished, C31_simulation, C31_returned, C32_iteration, C32_abort, C32_retries, C32_give_up, C32_counter_starts_at_zero, C36_step, C36_start, C37_self_consistent, C37_initial, C37_primary_from_integrator, C37_reported, C38_step_input, C38_function, C38_system, C38_run, C38_reads, C38_zero, C38_first_phase, C38_later_phase, C40_constant_coefficients, C40_start_angles, C40_axes_independent, C41_clock, C42_manual, C42_accepted, C42_unambiguous, C42_undocumented, C43_names, C43_refuted, C43_custom, C44_strict, C44_order, C44_null, C44_table_dimension, C44_roundtrip, C44_decoded, C45_phase_output, C45_records, C45_last_record, C45_reported, C45_blocks, C46_reported, C47_equation_of_motion, C49_system, C49_step, C49_run, C49_simulation, C49_program, C57_printed, C61_settings.

* `ClassicalDedekindReals.sig_forall_dec`, `FunctionalExtensionality.functional_extensionality_dep` (1 theorems): C53_accuracy.

* `ClassicalDedekindReals.sig_forall_dec`, `ClassicalDedekindReals.sig_not_dec`, `FunctionalExtensionality.functional_extensionality_dep` (2 theorems): C01_isometry, C24_axis_unit.

* `ClassicalDedekindReals.sig_forall_dec`, `ClassicalDedekindReals.sig_not_dec`, `Classical_Prop.classic`, `FunctionalExtensionality.functional_extensionality_dep` (226 theorems): C01_inertial_to_launch, C01_launch_to_body, C01_inertial_to_body, C01_inertial_to_planet, C02_launch_frame, C02_body_frame, C02_inertial_to_body, C02_pitch_over, C02_planet_frame, C02_mission, C02_records, C03_gradient, C03_energy, C03_simulation, C03_records, C04_spherical, C04_default_is_spherical, C04_simulation, C04_default_simulation, C05_simulation, C05_radial_height, C05_sign, C05_symmetric, C05_reported, C05_records, C06_simulation, C06_geopotential, C06_bounds, C06_increasing, C06_records, C07_at_rest_ieee, C07_surface, C08_refuted, C08_zero_partial, C09_spherical_partial, C09_refuted, C10_selects, C11_atmosphere, C11_reported, C11_simulation, C12_hydrostatic, C12_decreasing_partial, C12_refuted, C13_no_area, C13_no_atmosphere, C13_reported, C13_simulation, C14_no_nan, C14_reported, C15_force, C15_reported, C15_simulation, C16_forward, C16_from_below_partial, C16_finite, C16_refuted, C16_reported, C17_bases_not_nan, C19_node1, C19_node2, C19_node3, C19_ieee_refuted, C19_node_ieee, C19_node2_ieee, C19_node3_ieee, C20_linear, C20_bilinear, C20_trilinear, C20_chord, C20_extrapolate_below, C20_extrapolate_above, C20_constant, C20_affine, C20_biaffine, C20_triaffine, C20_continuous, C20_continuous2, C20_linear_ieee, C20_bilinear_ieee, C20_trilinear_ieee, C20_joint_continuity2, C20_joint_continuity3, C21_auto_throttle, C21_states, C21_reported, C22_vacuum_reported, C22_simulation, C22_records, C22_largest_throttle, C22_unlimited, C22_overload, C22_hopeless, C23_limit, C23_no_abort, C23_unlimited, C23_simulation, C24_simulation, C24_records, C24_thrust, C24_massflow, C24_engine_order, C24_no_engines, C25_mass_ieee, C25_step_ieee, C25_exact, C25_bounds, C25_full_throttle, C25_no_engines, C25_vacuum, C25_run_vacuum, C25_run_bounds, C27_burnout_partial, C27_sufficient_partial, C27_sufficient_any_partial, C27_refuted, C29_refuted, C31_finished_ieee, C31_simulation_ieee, C33_secant, C33_retry, C34_coast, C34_terminates, C34_duration, C34_mission, C34_terminates_ieee, C34_clock_stalls_ieee, C35_forward_partial, C35_monotone_partial, C35_timed_partial, C35_mission_partial, C35_refuted, C36_records, C36_lockstep, C38_refuted, C39_jump, C39_continuous_partial, C39_time_since_event_partial, C39_refuted, C40_simulation, C40_unsteered, C40_law, C40_unavailable, C41_order_four, C41_cubic_exact, C41_simulation, C41_vacuum_flight, C43_constants, C43_manual_custom_refuted, C46_position_planet, C46_velocity_planet, C46_kinematics, C46_corotating, C46_simulation, C46_records, C47_newton, C47_simulation, C48_no_torque, C48_axisymmetric, C48_mirror, C48_polar_angular_momentum, C49_coasting, C49_coasting_ieee, C49_vacuum, C49_vacuum_limited, C49_vacuum_flight, C49_vacuum_limited_flight, C49_unlimited, C50_side_force_partial, C50_no_side_table_partial, C50_drag_lift_refuted, C51_drag_brakes_partial, C51_refuted, C51_updraft_refuted, C52_evaluation, C52_step_partial, C52_run_partial, C52_timed_run, C52_refuted, C52_simulation_partial, C52_start, C53_labels, C53_unambiguous, C54_plot_partial, C54_refuted, C55_burnout, C55_burnout_unlimited, C56_longitude, C57_event, C57_event_ieee, C58_order, C58_cluster, C58_two_engines_ieee, C59_phase, C59_simulation, C59_records, C59_vertical, C60_similar, C62_altitude, C62_records, C62_gravity, C63_exact, C63_next, C63_records, C64_evaluation, C64_mirror, C65_flight, C65_next, C65_records, C65_whole, C65_exact, C65_spherical, C65_timed, C66_evaluation, C66_mirror, C67_ellipse, C67_conserved, C67_exact, C67_timed, C68_mission_ieee, C68_schedule_ieee, C68_total_ieee, C68_seconds, C68_records, C68_seconds_ieee, C68_whole_ieee, C68_records_ieee.

* the axioms `ClassicalDedekindReals.sig_forall_dec`, `ClassicalDedekindReals.sig_not_dec`, `Classical_Prop.classic`, `FunctionalExtensionality.functional_extensionality_dep` and, through the Interval tactic, the primitive 63-bit integers and their specification: `PrimInt63.add`, `PrimInt63.addc`, `PrimInt63.addcarryc`, `PrimInt63.addmuldiv`, `PrimInt63.compare`, `PrimInt63.div`, `PrimInt63.diveucl`, `PrimInt63.diveucl_21`, `PrimInt63.eqb`, `PrimInt63.head0`, `PrimInt63.int`, `PrimInt63.land`, `PrimInt63.leb`, `PrimInt63.lor`, `PrimInt63.lsl`, `PrimInt63.lsr`, `PrimInt63.ltb`, `PrimInt63.lxor`, `PrimInt63.mod`, `PrimInt63.mul`, `PrimInt63.mulc`, `PrimInt63.sub`, `PrimInt63.subc`, `PrimInt63.subcarryc`, `PrimInt63.tail0`, `Uint63.add_spec`, `Uint63.addc_def_spec`, `Uint63.addcarryc_def_spec`, `Uint63.addmuldiv_def_spec`, `Uint63.compare_def_spec`, `Uint63.div_spec`, `Uint63.diveucl_21_spec`, `Uint63.diveucl_def_spec`, `Uint63.eqb_correct`, `Uint63.eqb_refl`, `Uint63.head0_spec`, `Uint63.land_spec`, `Uint63.leb_spec`, `Uint63.lor_spec`, `Uint63.lsl_spec`, `Uint63.lsr_spec`, `Uint63.ltb_spec`, `Uint63.lxor_spec`, `Uint63.mod_spec`, `Uint63.mul_spec`, `Uint63.mulc_spec`, `Uint63.of_to_Z`, `Uint63.sub_spec`, `Uint63.subc_def_spec`, `Uint63.subcarryc_def_spec`, `Uint63.tail0_spec` (2 theorems): C12_continuous_partial, C12_pressure_partial.

The checker's list of axioms in the *context* of the compiled files is longer, because
importing Interval, Coquelicot and mathcomp loads modules with primitive floats and
sealed module fields; no theorem depends on those, as the lists above show.
