{
 "claims": [
  {
   "property": "C01",
   "status": "proved",
   "theorems": [
    "C01_inertial_to_launch",
    "C01_launch_to_body",
    "C01_inertial_to_body",
    "C01_inertial_to_planet",
    "C01_isometry"
   ],
   "note": "Exact arithmetic, all angles; libm and the unspecified re-orthonormalisation of nalgebra's Rotation3 enter through the contract of XR's rot parameter (identity on rotation matrices), see DESIGN.md."
  },
  {
   "property": "C02",
   "status": "proved",
   "theorems": [
    "C02_launch_frame",
    "C02_body_frame",
    "C02_inertial_to_body",
    "C02_pitch_over",
    "C02_planet_frame",
    "C02_mission",
    "C02_records"
   ],
   "note": "Exact arithmetic."
  },
  {
   "property": "C03",
   "status": "proved",
   "theorems": [
    "C03_gradient",
    "C03_energy",
    "C03_simulation",
    "C03_records"
   ],
   "note": "Exact arithmetic: gradient of the zonal potential with Legendre polynomials; energy conservation along ballistic trajectories (C03_energy)."
  },
  {
   "property": "C04",
   "status": "proved",
   "theorems": [
    "C04_spherical",
    "C04_default_is_spherical",
    "C04_simulation",
    "C04_default_simulation"
   ],
   "note": ""
  },
  {
   "property": "C05",
   "status": "proved",
   "theorems": [
    "C05_simulation",
    "C05_radial_height",
    "C05_sign",
    "C05_symmetric",
    "C05_reported",
    "C05_records"
   ],
   "note": ""
  },
  {
   "property": "C06",
   "status": "proved",
   "theorems": [
    "C06_simulation",
    "C06_geopotential",
    "C06_bounds",
    "C06_increasing",
    "C06_records"
   ],
   "note": ""
  },
  {
   "property": "C07",
   "status": "proved",
   "theorems": [
    "C07_at_rest_ieee",
    "C07_surface"
   ],
   "note": "Position in exact arithmetic (C07_surface), rest relative to the planet bit-exactly in IEEE arithmetic for every libm (C07_at_rest_ieee)."
  },
  {
   "property": "C08",
   "status": "partial",
   "theorems": [
    "C08_refuted",
    "C08_zero_partial"
   ],
   "note": "REFUTED: init.altitude has no influence on anything (C08_refuted). The strongest true part: altitude 0 is honoured (C08_zero_partial)."
  },
  {
   "property": "C09",
   "status": "partial",
   "theorems": [
    "C09_spherical_partial",
    "C09_refuted"
   ],
   "note": "REFUTED for every oblate planet and latitude other than 0 (C09_refuted: the tangent is scaled by the wrong power of the axis ratio). True on spherical planets (C09_spherical_partial)."
  },
  {
   "property": "C10",
   "status": "proved",
   "theorems": [
    "C10_selects",
    "C10_total"
   ],
   "note": "Totality for every arithmetic incl. IEEE with NaN (C10_total), selection in exact arithmetic."
  },
  {
   "property": "C11",
   "status": "proved",
   "theorems": [
    "C11_atmosphere",
    "C11_reported",
    "C11_simulation"
   ],
   "note": ""
  },
  {
   "property": "C12",
   "status": "partial",
   "theorems": [
    "C12_hydrostatic",
    "C12_decreasing_partial",
    "C12_refuted",
    "C12_continuous_partial",
    "C12_pressure_partial"
   ],
   "note": "REFUTED at the boundaries of the mistyped table row (C12_refuted: temperature drops by 31 K and pressure rises by 15 % within 1 m). Hydrostatic law in all layers (C12_hydrostatic); monotone within layers; all boundaries but the two of the bad row agree to the stated tolerance, and pressure never increases beyond it when starting outside that row."
  },
  {
   "property": "C13",
   "status": "proved",
   "theorems": [
    "C13_no_area",
    "C13_no_atmosphere",
    "C13_reported",
    "C13_simulation"
   ],
   "note": "IEEE, every libm."
  },
  {
   "property": "C14",
   "status": "proved",
   "theorems": [
    "C14_no_nan",
    "C14_reported"
   ],
   "note": "IEEE, every libm."
  },
  {
   "property": "C15",
   "status": "proved",
   "theorems": [
    "C15_force",
    "C15_same_instant",
    "C15_reported",
    "C15_simulation"
   ],
   "note": "C15_same_instant: every arithmetic; C15_reported: the reported force is half rho v^2 S times the coefficients, all quantities being those of the same record."
  },
  {
   "property": "C16",
   "status": "partial",
   "theorems": [
    "C16_forward",
    "C16_from_below_partial",
    "C16_finite",
    "C16_refuted",
    "C16_reported"
   ],
   "note": "REFUTED: flow without forward component and v_z <= -1e-6 gives 0 instead of -pi/2 (C16_refuted). Forward flow (C16_forward), flow from below (C16_from_below_partial), finiteness (C16_finite)."
  },
  {
   "property": "C17",
   "status": "proved",
   "theorems": [
    "C17_document",
    "C17_decoded",
    "C17_table1_accepted",
    "C17_table2_accepted",
    "C17_table3_accepted",
    "C17_table1_errors",
    "C17_table2_errors",
    "C17_table3_errors",
    "C17_bases_not_nan"
   ],
   "note": "Every arithmetic, arrays of any size."
  },
  {
   "property": "C18",
   "status": "proved",
   "theorems": [
    "C18_interpolation_total",
    "C18_default_table_accepted"
   ],
   "note": "Every arithmetic incl. IEEE NaN arguments."
  },
  {
   "property": "C19",
   "status": "partial",
   "theorems": [
    "C19_node1",
    "C19_node2",
    "C19_node3",
    "C19_ieee_refuted",
    "C19_node_ieee",
    "C19_node2_ieee",
    "C19_node3_ieee"
   ],
   "note": "Proved in exact arithmetic for 1D, 2D and 3D tables (C19_node1-3); the IEEE sentence (bit-exact reproduction) is REFUTED by a counterexample (C19_ieee_refuted). Proved instead in binary64: every stored value is reproduced to within 2^-47 of the largest value of the table per dimension (C19_node_ieee, C19_node2_ieee, C19_node3_ieee)."
  },
  {
   "property": "C20",
   "status": "proved",
   "theorems": [
    "C20_linear",
    "C20_bilinear",
    "C20_trilinear",
    "C20_chord",
    "C20_extrapolate_below",
    "C20_extrapolate_above",
    "C20_constant",
    "C20_affine",
    "C20_biaffine",
    "C20_triaffine",
    "C20_continuous",
    "C20_continuous2",
    "C20_linear_ieee",
    "C20_bilinear_ieee",
    "C20_trilinear_ieee",
    "C20_joint_continuity2",
    "C20_joint_continuity3"
   ],
   "note": "Exact arithmetic; continuity in each argument and jointly. In binary64, inside the range of the table and for entries of ordinary magnitude: within 2^-47 of the largest value per dimension of the exact interpolant (C20_linear_ieee, C20_bilinear_ieee, C20_trilinear_ieee)."
  },
  {
   "property": "C21",
   "status": "proved",
   "theorems": [
    "C21_auto_throttle",
    "C21_states",
    "C21_reported"
   ],
   "note": "IEEE, every libm."
  },
  {
   "property": "C22",
   "status": "proved",
   "theorems": [
    "C22_vacuum_reported",
    "C22_simulation",
    "C22_records",
    "C22_largest_throttle",
    "C22_unlimited",
    "C22_overload",
    "C22_hopeless"
   ],
   "note": "Exact arithmetic. C22_overload and C22_hopeless describe what happens outside the hypothesis (no throttle meets the limit: full throttle)."
  },
  {
   "property": "C23",
   "status": "proved",
   "theorems": [
    "C23_reported",
    "C23_limit",
    "C23_no_abort",
    "C23_unlimited",
    "C23_simulation"
   ],
   "note": "Guard: every arithmetic; absence of aborts: exact arithmetic."
  },
  {
   "property": "C24",
   "status": "proved",
   "theorems": [
    "C24_simulation",
    "C24_records",
    "C24_thrust",
    "C24_axis_unit",
    "C24_massflow",
    "C24_engine_order",
    "C24_no_engines"
   ],
   "note": ""
  },
  {
   "property": "C25",
   "status": "proved",
   "theorems": [
    "C25_mass_ieee",
    "C25_step_ieee",
    "C25_exact",
    "C25_bounds",
    "C25_full_throttle",
    "C25_no_engines",
    "C25_vacuum",
    "C25_run_vacuum",
    "C25_run_bounds"
   ],
   "note": "Sign of the change in IEEE arithmetic (C25_mass_ieee, C25_step_ieee); amounts in exact arithmetic, also for whole phases (C25_run_vacuum, C25_run_bounds)."
  },
  {
   "property": "C26",
   "status": "proved",
   "theorems": [
    "C26_simulation",
    "C26_reported",
    "C26_start",
    "C26_first"
   ],
   "note": ""
  },
  {
   "property": "C27",
   "status": "partial",
   "theorems": [
    "C27_burnout_partial",
    "C27_system_partial",
    "C27_run_partial",
    "C27_sufficient_partial",
    "C27_sufficient_any_partial",
    "C27_refuted"
   ],
   "note": "REFUTED: the code has no depletion check; C27_refuted runs a vehicle to propellant mass below -20 kg with undiminished thrust in IEEE arithmetic. C27_run_partial: the structure mass, i.e. the point of depletion, influences nothing but the reported propellant mass; C27_sufficient_any_partial: if the propellant suffices for the duration at full throttle, it stays non-negative, in any atmosphere and with any limit."
  },
  {
   "property": "C28",
   "status": "proved",
   "theorems": [
    "C28_inheritance",
    "C28_state",
    "C28_default",
    "C28_run_keeps_parameters",
    "C28_effective",
    "C28_records"
   ],
   "note": "C28_records: for the records of a whole simulation."
  },
  {
   "property": "C29",
   "status": "partial",
   "theorems": [
    "C29_stepsize_is_one",
    "C29_refuted"
   ],
   "note": "REFUTED: Phase::reset always restores the default 1 s; every phase starts with step 1 whatever is configured (C29_stepsize_is_one for all configurations, C29_refuted)."
  },
  {
   "property": "C30",
   "status": "proved",
   "theorems": [
    "C30_empty",
    "C30_init_required",
    "C30_init_ignored_later",
    "C30_order",
    "C30_concat",
    "C30_outcome_independent_of_fuel"
   ],
   "note": ""
  },
  {
   "property": "C31",
   "status": "proved",
   "theorems": [
    "C31_finished_ieee",
    "C31_finished",
    "C31_simulation",
    "C31_returned",
    "C31_simulation_ieee"
   ],
   "note": "Every arithmetic (C31_finished), with the distance bounded in the reals for IEEE (C31_finished_ieee); C31_simulation, C31_returned and C31_simulation_ieee for the output and outcome of a whole simulation."
  },
  {
   "property": "C32",
   "status": "proved",
   "theorems": [
    "C32_iteration",
    "C32_abort",
    "C32_retries",
    "C32_give_up",
    "C32_counter_starts_at_zero"
   ],
   "note": ""
  },
  {
   "property": "C33",
   "status": "proved",
   "theorems": [
    "C33_secant",
    "C33_retry"
   ],
   "note": ""
  },
  {
   "property": "C34",
   "status": "proved",
   "theorems": [
    "C34_coast",
    "C34_terminates",
    "C34_duration",
    "C34_mission",
    "C34_terminates_ieee",
    "C34_clock_stalls_ieee"
   ],
   "note": "Exact arithmetic for every target; binary64 with any mathematical library for clocks up to 2^40 s, including rounding of clock, difference and secant step. C34_clock_stalls_ieee: in binary64 a phase of 2^53+2 s or longer never ends."
  },
  {
   "property": "C35",
   "status": "partial",
   "theorems": [
    "C35_forward_partial",
    "C35_monotone_partial",
    "C35_timed_partial",
    "C35_mission_partial",
    "C35_refuted"
   ],
   "note": "REFUTED: with a criterion already passed at the start the clock runs backwards (C35_refuted, IEEE run). True as long as the criterion variable approaches its target (C35_forward_partial, C35_monotone_partial), for every phase whose time criterion has not passed at its start (C35_timed_partial) and for whole simulations whose phases have durations (C35_mission_partial)."
  },
  {
   "property": "C36",
   "status": "proved",
   "theorems": [
    "C36_step",
    "C36_start",
    "C36_records",
    "C36_lockstep"
   ],
   "note": "C36_records: for the records of a whole simulation."
  },
  {
   "property": "C37",
   "status": "proved",
   "theorems": [
    "C37_self_consistent",
    "C37_initial",
    "C37_primary_from_integrator",
    "C37_reported"
   ],
   "note": ""
  },
  {
   "property": "C38",
   "status": "partial",
   "theorems": [
    "C38_step_input",
    "C38_function",
    "C38_system",
    "C38_run",
    "C38_reads",
    "C38_zero",
    "C38_first_phase",
    "C38_later_phase",
    "C38_refuted"
   ],
   "note": "REFUTED for the first evaluation of a later phase, which sees leftovers of the previous phase (C38_refuted; C38_later_phase says exactly which). Everything else proved: independence when only early variables are used (C38_function, C38_system, C38_run), zero for late variables in all other evaluations (C38_zero, C38_first_phase)."
  },
  {
   "property": "C39",
   "status": "partial",
   "theorems": [
    "C39_jump",
    "C39_continuous_partial",
    "C39_time_since_event_partial",
    "C39_refuted"
   ],
   "note": "REFUTED when steering with a variable that is not zero at the event (C39_refuted). C39_jump gives the exact jump, C39_continuous_partial the exact condition for continuity, C39_time_since_event_partial the usual case."
  },
  {
   "property": "C40",
   "status": "proved",
   "theorems": [
    "C40_simulation",
    "C40_unsteered",
    "C40_constant_coefficients",
    "C40_start_angles",
    "C40_axes_independent",
    "C40_law",
    "C40_unavailable"
   ],
   "note": ""
  },
  {
   "property": "C41",
   "status": "proved",
   "theorems": [
    "C41_order_four",
    "C41_cubic_exact",
    "C41_clock",
    "C41_simulation",
    "C41_vacuum_flight"
   ],
   "note": "Exact arithmetic; right-hand sides four times continuously differentiable, any dimension; C41_vacuum_flight shows that the simulation's own equations of motion in vacuum are such and bounds the error of one step against any exact motion."
  },
  {
   "property": "C42",
   "status": "proved",
   "theorems": [
    "C42_manual",
    "C42_accepted",
    "C42_unambiguous",
    "C42_undocumented"
   ],
   "note": ""
  },
  {
   "property": "C43",
   "status": "partial",
   "theorems": [
    "C43_names",
    "C43_refuted",
    "C43_custom",
    "C43_constants",
    "C43_manual_custom_refuted"
   ],
   "note": "REFUTED: \"fisher_1960\" is rejected (the accepted spelling is fisher1960), and the manual's custom example is not the Smithsonian planet (C43_manual_custom_refuted). The other names and the constants of all four: C43_names, C43_constants, C43_custom."
  },
  {
   "property": "C44",
   "status": "proved",
   "theorems": [
    "C44_strict",
    "C44_order",
    "C44_null",
    "C44_table_dimension",
    "C44_roundtrip",
    "C44_decoded"
   ],
   "note": ""
  },
  {
   "property": "C45",
   "status": "proved",
   "theorems": [
    "C45_phase_output",
    "C45_records",
    "C45_last_record",
    "C45_reported",
    "C45_blocks"
   ],
   "note": ""
  },
  {
   "property": "C46",
   "status": "proved",
   "theorems": [
    "C46_position_planet",
    "C46_velocity_planet",
    "C46_kinematics",
    "C46_corotating",
    "C46_reported",
    "C46_simulation",
    "C46_records"
   ],
   "note": ""
  },
  {
   "property": "C47",
   "status": "proved",
   "theorems": [
    "C47_equation_of_motion",
    "C47_newton",
    "C47_simulation"
   ],
   "note": ""
  },
  {
   "property": "C48",
   "status": "proved",
   "theorems": [
    "C48_no_torque",
    "C48_axisymmetric",
    "C48_mirror",
    "C48_polar_angular_momentum"
   ],
   "note": ""
  },
  {
   "property": "C49",
   "status": "proved",
   "theorems": [
    "C49_coasting",
    "C49_coasting_ieee",
    "C49_vacuum",
    "C49_vacuum_limited",
    "C49_vacuum_flight",
    "C49_vacuum_limited_flight",
    "C49_system",
    "C49_step",
    "C49_run",
    "C49_simulation",
    "C49_program",
    "C49_unlimited"
   ],
   "note": "Every arithmetic for the list of reasons; vacuum statements and C49_unlimited (any atmosphere, no limit) in exact arithmetic."
  },
  {
   "property": "C50",
   "status": "partial",
   "theorems": [
    "C50_side_force_partial",
    "C50_no_side_table_partial",
    "C50_drag_lift_refuted"
   ],
   "note": "REFUTED for drag and lift: an unconfigured lift table makes drag zero and vice versa (C50_drag_lift_refuted, for all vehicles and states). The side force is independent (C50_side_force_partial, C50_no_side_table_partial)."
  },
  {
   "property": "C51",
   "status": "partial",
   "theorems": [
    "C51_drag_brakes_partial",
    "C51_refuted",
    "C51_updraft_refuted"
   ],
   "note": "REFUTED for airflow from behind (C51_refuted in general, C51_updraft_refuted for a concrete configuration). True for forward airflow (C51_drag_brakes_partial)."
  },
  {
   "property": "C52",
   "status": "partial",
   "theorems": [
    "C52_evaluation",
    "C52_step_partial",
    "C52_run_partial",
    "C52_timed_run",
    "C52_refuted",
    "C52_simulation_partial",
    "C52_start"
   ],
   "note": "REFUTED in binary64 for every libm (C52_refuted): a phase whose criterion variable does not change during a step (constant mass above its target) gets an infinite step size, and then every record has infinite time and NaN mass. Exact arithmetic: one evaluation aborts or is entirely real (C52_evaluation); all records of a run are real, or an evaluation took place at a singular state, or an iteration left the criterion variable unchanged (C52_run_partial); the latter cannot happen for time criteria (C52_timed_run). C52_simulation_partial lifts this to whole simulations, C52_start says when the first state is singular."
  },
  {
   "property": "C53",
   "status": "proved",
   "theorems": [
    "C53_labels",
    "C53_accuracy",
    "C53_unambiguous"
   ],
   "note": "The rounding of {:.0} is a parameter with the contract of rounding to the nearest integer, ties either way (nearest_even is a witness)."
  },
  {
   "property": "C54",
   "status": "partial",
   "theorems": [
    "C54_plot_partial",
    "C54_refuted"
   ],
   "note": "REFUTED for negative times, which the script's pattern does not match: C54_refuted runs a simulation with two records of which the script finds two positions and velocities but one time (building its table then fails). C54_plot_partial: true for every simulation whose records have finite positions and velocities and finite times without minus sign."
  },
  {
   "property": "C55",
   "status": "proved",
   "theorems": [
    "C55_burnout",
    "C55_burnout_unlimited"
   ],
   "note": "Exact arithmetic. One step uses used(m,h) = h * flow * (average throttle of the four stages); with the throttle of C22 a secant repetition overshoots again by at most c/(2-c) <= 1/7 of the previous overshoot, so 21 repetitions suffice."
  },
  {
   "property": "C56",
   "status": "proved",
   "theorems": [
    "C56_longitude"
   ],
   "note": "Exact arithmetic; whole simulations, by a relation between the two runs that every evaluation, step, iteration and phase change preserves. Hypothesis: every evaluation of the original run takes place at a real, non-singular state (C52); ex_longitude is a mission that meets it."
  },
  {
   "property": "C57",
   "status": "proved",
   "theorems": [
    "C57_event",
    "C57_printed",
    "C57_event_ieee"
   ],
   "note": "C57_event in exact arithmetic, C57_event_ieee bit for bit (unsteered flights of up to 2^53 seconds), C57_printed for the text. The restriction on steering is necessary (C39_refuted)."
  },
  {
   "property": "C58",
   "status": "proved",
   "theorems": [
    "C58_order",
    "C58_cluster",
    "C58_two_engines_ieee"
   ],
   "note": "C58_order (any permutation) and C58_cluster in exact arithmetic including infinite and NaN values; C58_two_engines_ieee bit for bit. C58_three_engines_ieee shows that the restriction to two in IEEE arithmetic is necessary."
  },
  {
   "property": "C59",
   "status": "proved",
   "theorems": [
    "C59_phase",
    "C59_simulation",
    "C59_records",
    "C59_vertical"
   ],
   "note": "C59_phase, C59_simulation, C59_records and C59_vertical in exact arithmetic, for every finite record; C59_nonvacuous flies a two-phase mission over the equator."
  },
  {
   "property": "C60",
   "status": "proved",
   "theorems": [
    "C60_similar"
   ],
   "note": "C60_similar in exact arithmetic, for every mission, with infinities and NaN; C60_nonvacuous doubles a burn under an acceleration limit."
  },
  {
   "property": "C61",
   "status": "proved",
   "theorems": [
    "C61_settings"
   ],
   "note": "C61_settings in every arithmetic, so bit for bit in IEEE; the relation same_settings compares the value in effect of every setting in every phase."
  },
  {
   "property": "C62",
   "status": "proved",
   "theorems": [
    "C62_altitude",
    "C62_records",
    "C62_gravity"
   ],
   "note": "IEEE binary64. C62_gravity, C62_altitude for the functions, C62_records for every record of every mission. The altitude needs a contract on the library (accurate_sine: sin(asin x) is within 2^-50 of x on [-1,1], a hypothesis of the theorem); gravity needs none. |J2| <= 1/50, |J3|,|J4| <= 1/1000, polar and equatorial radius within 10 %."
  },
  {
   "property": "C63",
   "status": "proved",
   "theorems": [
    "C63_exact",
    "C63_next",
    "C63_records"
   ],
   "note": "C63_exact: exact arithmetic, records = flight. C63_records: IEEE binary64, every library, within drift k of the flight (C63_next: the last record may be out of range). Needs 2 mu/R0^2 <= W <= R0/50, distances R0..M (M <= 10^6 R0), Re <= 1.05 R0, |J2| <= 1/500, |J3|,|J4| <= 1/10000, lambda <= 1/10 and a total drift below R0/100 - all met near the Earth; steps of one second, i.e. records up to the first event search (the reported time tells)."
  },
  {
   "property": "C64",
   "status": "proved",
   "theorems": [
    "C64_evaluation",
    "C64_mirror"
   ],
   "note": "Exact arithmetic; C64_evaluation for one evaluation, C64_mirror for whole simulations. Hypotheses as in C56 (every evaluation at a real, non-singular state); C64_nonvacuous mirrors the mission of C56, C64_evaluation_nonvacuous a canted, rolling and yawing vehicle with side force on a pear-shaped planet."
  },
  {
   "property": "C65",
   "status": "proved",
   "theorems": [
    "C65_flight",
    "C65_next",
    "C65_records",
    "C65_whole",
    "C65_exact",
    "C65_spherical",
    "C65_timed"
   ],
   "note": "C65_flight for the method, C65_records in IEEE binary64 (every library), C65_exact in exact arithmetic; C65_spherical needs no hypothesis on the acceleration for an inverse-square field, only that x solves the differential equation; C65_whole needs no range of the records (C65_next: only of those before), a margin of the motion suffices. The bound is of second order (it uses that the field is Lipschitz and that the acceleration along the motion has a second derivative bounded by K), so it is larger than the true error of the method. C65_nonvacuous: a mission that is in circular orbit, executed in binary64, is within a centimetre of the circle (ten centimetres by C65_spherical, C65_spherical_nonvacuous)."
  },
  {
   "property": "C66",
   "status": "proved",
   "theorems": [
    "C66_evaluation",
    "C66_mirror"
   ],
   "note": "Exact arithmetic; C66_evaluation for one evaluation, C66_mirror for whole simulations, under the hypotheses of C64. C66_nonvacuous mirrors the mission of C56, C66_evaluation_nonvacuous the canted, rolling and yawing vehicle of C64."
  },
  {
   "property": "C67",
   "status": "proved",
   "theorems": [
    "C67_ellipse",
    "C67_conserved",
    "C67_exact",
    "C67_timed"
   ],
   "note": "Kepler.v proves that the motion exists for every such state (Lagrange coefficients, Kepler's equation inverted). C67_ellipse, C67_conserved: IEEE binary64, every library; C67_exact: exact arithmetic, no hypothesis on the rounding. The ranges and margins are those of C63/C65 (lambda <= 1/10, speed below R0/50 per second, total error below R0/100); records in range follow (C65_whole). C67_nonvacuous: the mission of C65, executed in binary64, is within ten centimetres of its ellipse. C67_timed: for a phase with a duration nothing is assumed of the times (C68)."
  },
  {
   "property": "C68",
   "status": "proved",
   "theorems": [
    "C68_mission_ieee",
    "C68_schedule_ieee",
    "C68_total_ieee",
    "C68_seconds",
    "C68_records",
    "C68_seconds_ieee",
    "C68_whole_ieee",
    "C68_records_ieee"
   ],
   "note": "C68_seconds, C68_records: exact arithmetic; C68_seconds_ieee, C68_whole_ieee: binary64, every library ; C68_records_ieee: any duration of at least one second in binary64, the secant step to the end is exact (C68_half_nonvacuous: 2.5 seconds, executed). Non-vacuity: C68_nonvacuous (the mission of C65, executed), C68_exact_nonvacuous (2.5 seconds: 1, 2, 2, 2.5). C68_mission_ieee, C68_schedule_ieee, C68_total_ieee: the whole mission in binary64 (C68_mission_nonvacuous: two phases, executed). Corollaries C65_timed, C67_timed."
  }
 ]
}