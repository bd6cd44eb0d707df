NOTES={
"C01":("proved","Exact arithmetic, all angles; libm and the unspecified re-orthonormalisation of nalgebra's Rotation3 enter through the contract of XR's rot parameter (identity on rotation matrices), see DESIGN.md."),
"C02":("proved","Exact arithmetic."),
"C03":("proved","Exact arithmetic: gradient of the zonal potential with Legendre polynomials; energy conservation along ballistic trajectories (C03_energy)."),
"C04":("proved",""),
"C05":("proved",""),
"C06":("proved",""),
"C07":("proved","Position in exact arithmetic (C07_surface), rest relative to the planet bit-exactly in IEEE arithmetic for every libm (C07_at_rest_ieee)."),
"C08":("partial","REFUTED: init.altitude has no influence on anything (C08_refuted). The strongest true part: altitude 0 is honoured (C08_zero_partial)."),
"C09":("partial","REFUTED for every oblate planet and latitude other than 0 (C09_refuted: the tangent is scaled by the wrong power of the axis ratio). True on spherical planets (C09_spherical_partial)."),
"C10":("proved","Totality for every arithmetic incl. IEEE with NaN (C10_total), selection in exact arithmetic."),
"C11":("proved",""),
"C12":("partial","REFUTED at the boundaries of the mistyped table row (C12_refuted: temperature drops by 31 K and pressure rises by 15 % within 1 m). Hydrostatic law in all layers (C12_hydrostatic); monotone within layers; all boundaries but the two of the bad row agree to the stated tolerance, and pressure never increases beyond it when starting outside that row."),
"C13":("proved","IEEE, every libm."),
"C14":("proved","IEEE, every libm."),
"C15":("proved","C15_same_instant: every arithmetic; C15_reported: the reported force is half rho v^2 S times the coefficients, all quantities being those of the same record."),
"C16":("partial","REFUTED: flow without forward component and v_z <= -1e-6 gives 0 instead of -pi/2 (C16_refuted). Forward flow (C16_forward), flow from below (C16_from_below_partial), finiteness (C16_finite)."),
"C17":("proved","Every arithmetic, arrays of any size."),
"C18":("proved","Every arithmetic incl. IEEE NaN arguments."),
"C19":("partial","Proved in exact arithmetic for 1D, 2D and 3D tables (C19_node1-3); the IEEE sentence (bit-exact reproduction) is REFUTED by a counterexample (C19_ieee_refuted). Proved instead in binary64: every stored value is reproduced to within 2^-47 of the largest value of the table per dimension (C19_node_ieee, C19_node2_ieee, C19_node3_ieee)."),
"C20":("proved","Exact arithmetic; continuity in each argument and jointly. In binary64, inside the range of the table and for entries of ordinary magnitude: within 2^-47 of the largest value per dimension of the exact interpolant (C20_linear_ieee, C20_bilinear_ieee, C20_trilinear_ieee)."),
"C21":("proved","IEEE, every libm."),
"C22":("proved","Exact arithmetic. C22_overload and C22_hopeless describe what happens outside the hypothesis (no throttle meets the limit: full throttle)."),
"C23":("proved","Guard: every arithmetic; absence of aborts: exact arithmetic."),
"C24":("proved",""),
"C25":("proved","Sign of the change in IEEE arithmetic (C25_mass_ieee, C25_step_ieee); amounts in exact arithmetic, also for whole phases (C25_run_vacuum, C25_run_bounds)."),
"C26":("proved",""),
"C27":("partial","REFUTED: the code has no depletion check; C27_refuted runs a vehicle to propellant mass below -20 kg with undiminished thrust in IEEE arithmetic. C27_run_partial: the structure mass, i.e. the point of depletion, influences nothing but the reported propellant mass; C27_sufficient_any_partial: if the propellant suffices for the duration at full throttle, it stays non-negative, in any atmosphere and with any limit."),
"C28":("proved","C28_records: for the records of a whole simulation."),
"C29":("partial","REFUTED: Phase::reset always restores the default 1 s; every phase starts with step 1 whatever is configured (C29_stepsize_is_one for all configurations, C29_refuted)."),
"C30":("proved",""),
"C31":("proved","Every arithmetic (C31_finished), with the distance bounded in the reals for IEEE (C31_finished_ieee); C31_simulation, C31_returned and C31_simulation_ieee for the output and outcome of a whole simulation."),
"C32":("proved",""),
"C33":("proved",""),
"C34":("proved","Exact arithmetic for every target; binary64 with any mathematical library for clocks up to 2^40 s, including rounding of clock, difference and secant step. C34_clock_stalls_ieee: in binary64 a phase of 2^53+2 s or longer never ends."),
"C35":("partial","REFUTED: with a criterion already passed at the start the clock runs backwards (C35_refuted, IEEE run). True as long as the criterion variable approaches its target (C35_forward_partial, C35_monotone_partial), for every phase whose time criterion has not passed at its start (C35_timed_partial) and for whole simulations whose phases have durations (C35_mission_partial)."),
"C36":("proved","C36_records: for the records of a whole simulation."),
"C37":("proved",""),
"C38":("partial","REFUTED for the first evaluation of a later phase, which sees leftovers of the previous phase (C38_refuted; C38_later_phase says exactly which). Everything else proved: independence when only early variables are used (C38_function, C38_system, C38_run), zero for late variables in all other evaluations (C38_zero, C38_first_phase)."),
"C39":("partial","REFUTED when steering with a variable that is not zero at the event (C39_refuted). C39_jump gives the exact jump, C39_continuous_partial the exact condition for continuity, C39_time_since_event_partial the usual case."),
"C40":("proved",""),
"C41":("proved","Exact arithmetic; right-hand sides four times continuously differentiable, any dimension; C41_vacuum_flight shows that the simulation's own equations of motion in vacuum are such and bounds the error of one step against any exact motion."),
"C42":("proved",""),
"C43":("partial","REFUTED: \"fisher_1960\" is rejected (the accepted spelling is fisher1960), and the manual's custom example is not the Smithsonian planet (C43_manual_custom_refuted). The other names and the constants of all four: C43_names, C43_constants, C43_custom."),
"C44":("proved",""),
"C45":("proved",""),
"C46":("proved",""),
"C47":("proved",""),
"C48":("proved",""),
"C49":("proved","Every arithmetic for the list of reasons; vacuum statements and C49_unlimited (any atmosphere, no limit) in exact arithmetic."),
"C50":("partial","REFUTED for drag and lift: an unconfigured lift table makes drag zero and vice versa (C50_drag_lift_refuted, for all vehicles and states). The side force is independent (C50_side_force_partial, C50_no_side_table_partial)."),
"C51":("partial","REFUTED for airflow from behind (C51_refuted in general, C51_updraft_refuted for a concrete configuration). True for forward airflow (C51_drag_brakes_partial)."),
"C52":("partial","REFUTED in binary64 for every libm (C52_refuted): a phase whose criterion variable does not change during a step (constant mass above its target) gets an infinite step size, and then every record has infinite time and NaN mass. Exact arithmetic: one evaluation aborts or is entirely real (C52_evaluation); all records of a run are real, or an evaluation took place at a singular state, or an iteration left the criterion variable unchanged (C52_run_partial); the latter cannot happen for time criteria (C52_timed_run). C52_simulation_partial lifts this to whole simulations, C52_start says when the first state is singular."),
"C53":("proved","The rounding of {:.0} is a parameter with the contract of rounding to the nearest integer, ties either way (nearest_even is a witness)."),
"C54":("partial","REFUTED for negative times, which the script's pattern does not match: C54_refuted runs a simulation with two records of which the script finds two positions and velocities but one time (building its table then fails). C54_plot_partial: true for every simulation whose records have finite positions and velocities and finite times without minus sign."),
"C55":("proved","Exact arithmetic. One step uses used(m,h) = h * flow * (average throttle of the four stages); with the throttle of C22 a secant repetition overshoots again by at most c/(2-c) <= 1/7 of the previous overshoot, so 21 repetitions suffice."),
"C56":("proved","Exact arithmetic; whole simulations, by a relation between the two runs that every evaluation, step, iteration and phase change preserves. Hypothesis: every evaluation of the original run takes place at a real, non-singular state (C52); ex_longitude is a mission that meets it."),
"C57":("proved","C57_event in exact arithmetic, C57_event_ieee bit for bit (unsteered flights of up to 2^53 seconds), C57_printed for the text. The restriction on steering is necessary (C39_refuted)."),
"C58":("proved","C58_order (any permutation) and C58_cluster in exact arithmetic including infinite and NaN values; C58_two_engines_ieee bit for bit. C58_three_engines_ieee shows that the restriction to two in IEEE arithmetic is necessary."),
"C59":("proved","C59_phase, C59_simulation, C59_records and C59_vertical in exact arithmetic, for every finite record; C59_nonvacuous flies a two-phase mission over the equator."),
"C60":("proved","C60_similar in exact arithmetic, for every mission, with infinities and NaN; C60_nonvacuous doubles a burn under an acceleration limit."),
"C61":("proved","C61_settings in every arithmetic, so bit for bit in IEEE; the relation same_settings compares the value in effect of every setting in every phase."),
"C62":("proved","IEEE binary64. C62_gravity, C62_altitude for the functions, C62_records for every record of every mission. The altitude needs a contract on the library (accurate_sine: sin(asin x) is within 2^-50 of x on [-1,1], a hypothesis of the theorem); gravity needs none. |J2| <= 1/50, |J3|,|J4| <= 1/1000, polar and equatorial radius within 10 %."),
"C63":("proved","C63_exact: exact arithmetic, records = flight. C63_records: IEEE binary64, every library, within drift k of the flight (C63_next: the last record may be out of range). Needs 2 mu/R0^2 <= W <= R0/50, distances R0..M (M <= 10^6 R0), Re <= 1.05 R0, |J2| <= 1/500, |J3|,|J4| <= 1/10000, lambda <= 1/10 and a total drift below R0/100 - all met near the Earth; steps of one second, i.e. records up to the first event search (the reported time tells)."),
"C64":("proved","Exact arithmetic; C64_evaluation for one evaluation, C64_mirror for whole simulations. Hypotheses as in C56 (every evaluation at a real, non-singular state); C64_nonvacuous mirrors the mission of C56, C64_evaluation_nonvacuous a canted, rolling and yawing vehicle with side force on a pear-shaped planet."),
"C65":("proved","C65_flight for the method, C65_records in IEEE binary64 (every library), C65_exact in exact arithmetic; C65_spherical needs no hypothesis on the acceleration for an inverse-square field, only that x solves the differential equation; C65_whole needs no range of the records (C65_next: only of those before), a margin of the motion suffices. The bound is of second order (it uses that the field is Lipschitz and that the acceleration along the motion has a second derivative bounded by K), so it is larger than the true error of the method. C65_nonvacuous: a mission that is in circular orbit, executed in binary64, is within a centimetre of the circle (ten centimetres by C65_spherical, C65_spherical_nonvacuous)."),
"C66":("proved","Exact arithmetic; C66_evaluation for one evaluation, C66_mirror for whole simulations, under the hypotheses of C64. C66_nonvacuous mirrors the mission of C56, C66_evaluation_nonvacuous the canted, rolling and yawing vehicle of C64."),
"C67":("proved","Kepler.v proves that the motion exists for every such state (Lagrange coefficients, Kepler's equation inverted). C67_ellipse, C67_conserved: IEEE binary64, every library; C67_exact: exact arithmetic, no hypothesis on the rounding. The ranges and margins are those of C63/C65 (lambda <= 1/10, speed below R0/50 per second, total error below R0/100); records in range follow (C65_whole). C67_nonvacuous: the mission of C65, executed in binary64, is within ten centimetres of its ellipse. C67_timed: for a phase with a duration nothing is assumed of the times (C68)."),
"C68":("proved","C68_seconds, C68_records: exact arithmetic; C68_seconds_ieee, C68_whole_ieee: binary64, every library ; C68_records_ieee: any duration of at least one second in binary64, the secant step to the end is exact (C68_half_nonvacuous: 2.5 seconds, executed). Non-vacuity: C68_nonvacuous (the mission of C65, executed), C68_exact_nonvacuous (2.5 seconds: 1, 2, 2, 2.5). C68_mission_ieee, C68_schedule_ieee, C68_total_ieee: the whole mission in binary64 (C68_mission_nonvacuous: two phases, executed). Corollaries C65_timed, C67_timed.")
}
