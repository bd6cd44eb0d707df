import json
P=[]
def p(id,title,statement,quant,why,anchors):
    P.append(dict(id=id,title=title,statement=statement,quantifier=quant,why_tests_cant=why,anchors=anchors))
S="sim/src/"
p("C01","Frame transformations are proper rotations",
  "Every coordinate transformation the simulator builds (inertial to launch, launch to body, inertial to body, inertial to planet) preserves lengths, angles and handedness: the matrix M satisfies M*M^T = I, M^T*M = I and det M = 1.",
  "all real latitudes, longitudes, azimuths, roll/yaw/pitch angles, times and rotation rates",
  "A test samples a handful of angle triples; orthonormality must hold for the whole continuum of angles, including gimbal-lock ones.",
  [S+"transformations.rs: inertial_to_launch, launch_to_body, inertial_to_body, inertial_to_planet"])
p("C02","Frames point where the manual says",
  "The launch frame has x_L = local geocentric vertical, z_L = horizontal heading `azimuth` measured from north towards east, y_L completing a right-handed triad; the body frame is obtained from the launch frame by rolling about x, then yawing about z, then pitching about y; a pitch of -t tilts the nose by t from the vertical towards the azimuth heading; the planet frame coincides with the inertial frame at time 0 and afterwards turns about z at the rotation rate.",
  "all real latitudes, longitudes, azimuths, Euler angles, times, rates",
  "Sign or order mistakes in one matrix entry vanish at the sampled special angles (0, 90 degrees) and show up only at generic ones.",
  [S+"transformations.rs", "docs/user-manual/project.tex: Coordinate Frames"])
p("C03","Gravity is the gradient of the zonal potential",
  "For every planet (mu, J2, J3, J4, R_e) and every position r != 0 the computed gravity acceleration is the gradient of U = mu/r * (1 - sum_{n=2..4} J_n (R_e/r)^n P_n(z/r)) with P_n the Legendre polynomials; in particular the field is conservative.",
  "all planets (including custom ones) and all non-zero positions",
  "A wrong coefficient in a J3 or J4 term changes the result by 1e-6 relative, far below the tolerances of the unit tests, which only exercise the spherical planet.",
  [S+"planet.rs: Planet::gravity"])
p("C04","Spherical gravity is central and inverse-square",
  "With J2=J3=J4=0 (the default planet and `spherical`) gravity at r is antiparallel to r with magnitude mu/|r|^2, everywhere.",
  "all positions, all mu",
  "Universal over positions.",
  [S+"planet.rs: Planet::gravity, EARTH_SPHERICAL, Planet::update_with_config"])
p("C05","Altitude is the radial height over the reference ellipsoid",
  "altitude(r) = |r| - d(r), where d(r)*r/|r| lies on the ellipsoid (x^2+y^2)/R_e^2 + z^2/R_p^2 = 1; so altitude is 0 exactly on the ellipsoid, positive exactly outside, negative exactly inside, and only depends on |r| and |z|.",
  "all planets with positive radii and all non-zero positions",
  "Tests check four positions on a spherical planet, for which the oblateness term is identically zero.",
  [S+"planet.rs: Planet::altitude"])
p("C06","Geopotential altitude",
  "Geopotential altitude is R_A*h/(R_A+h) with R_A the mean radius: 0 iff h=0, strictly increasing in h, below h for h != 0, and bounded by R_A, for every h > -R_A.",
  "all planets with positive radii, all positions with altitude > -R_A",
  "Monotonicity and bounds quantify over pairs of positions.",
  [S+"planet.rs: Planet::geopotential_altitude"])
p("C07","Launch initialisation puts the vehicle at rest on the surface",
  "After the first phase is created the inertial position lies on the reference ellipsoid (altitude 0) at the configured longitude, and the velocity with respect to the rotating planet is exactly zero (bit-exactly zero in IEEE arithmetic as long as the position is finite).",
  "all planets, latitudes in (-90,90), longitudes, azimuths; for the velocity part all IEEE inputs and all libm implementations",
  "Tests check one launch site on a spherical planet.",
  [S+"phase.rs: Phase::init, Phase::new", S+"planet.rs: Planet::velocity_planet"])
p("C08","The configured launch altitude is honoured",
  "`init.altitude` = h starts the vehicle h metres above the surface.",
  "all init configurations",
  "The only example has altitude 0, for which ignoring the field is invisible.",
  [S+"phase.rs: Phase::init", S+"config.rs: InitConfig::altitude"])
p("C09","The configured latitude is the geodetic latitude of the launch site",
  "The surface point chosen for geodetic latitude phi has an ellipsoid normal inclined by phi to the equatorial plane, i.e. tan(geocentric) = (R_p/R_e)^2 tan(phi).",
  "all planets and latitudes",
  "Only a spherical planet is tested, for which geodetic and geocentric latitude coincide.",
  [S+"phase.rs: Phase::init"])
p("C10","Atmosphere layer lookup is total and selects the right layer",
  "For every altitude the selected row is the last row whose base altitude is <= the altitude; below the first base the first row; above the last base the last row. The lookup never indexes out of range, for any IEEE value including infinities and NaN.",
  "all real altitudes; totality for all 2^64 IEEE values",
  "Tests sample four altitudes out of 22 layers.",
  [S+"atmosphere/standard_atmosphere_1962.rs: get_table_row"])
p("C11","Atmosphere is physically meaningful at every altitude",
  "With the atmosphere enabled, temperature, pressure, density and speed of sound are finite and strictly positive at every real geopotential altitude, they satisfy the ideal gas law p = rho*R*T and a^2 = kappa*R*T, and mach number is |v|/a (finite).",
  "all real altitudes and velocities",
  "Positivity must hold in every layer and in the unbounded top and bottom layers.",
  [S+"atmosphere/standard_atmosphere_1962.rs", S+"atmosphere/mod.rs"])
p("C12","Pressure and temperature profile: hydrostatic inside layers, continuous between layers",
  "Inside each layer pressure is strictly decreasing with altitude and satisfies the hydrostatic equation dp/dH = -p*g0/(R*T) with T linear in H; at layer boundaries the temperature and pressure of the two layers agree (temperature to 3e-4 K, pressure to 0.3 %), so that pressure never increases with altitude by more than these rounding gaps of the table.",
  "all altitudes",
  "Needs all pairs of altitudes; a mistyped base altitude in the 22-row table is invisible to tests at four altitudes.",
  [S+"atmosphere/standard_atmosphere_1962.rs: STD_ATMOS_TABLE, temperature, pressure"])
p("C13","Disabling the atmosphere removes every aerodynamic effect",
  "With the atmosphere disabled, pressure, density and temperature are zero, dynamic pressure is zero (or NaN if the squared airspeed overflows), and the aerodynamic force is exactly zero in all components, whatever the vehicle, its tables, the wind and the velocity, even when interpolation yields NaN or infinity because the mach number is infinite or NaN.",
  "all vehicles, tables, winds and states, all IEEE values, all libm implementations",
  "Depends on 0*inf/NaN corner cases over arbitrary tables.",
  [S+"atmosphere/mod.rs", S+"vehicle.rs: Vehicle::aero_force", S+"phase.rs: Phase::system"])
p("C14","Aerodynamic force never contains NaN",
  "Whatever the tables and the state, no component of the computed aerodynamic force is NaN, in any state the simulation reports.",
  "all vehicles, tables and states (IEEE)",
  "Universal over tables and IEEE states.",
  [S+"vehicle.rs: Vehicle::aero_force"])
p("C15","Drag opposes the airflow, lift is perpendicular to it",
  "With dynamic pressure q, reference area S and coefficients CD, CL, CY the force has component -q*S*CD along the (alpha-)velocity direction, q*S*CL along the perpendicular direction in the body x-z plane (upwards), q*S*CY sideways, and nothing else.",
  "all alpha, q, S and coefficients",
  "A sign error in the rotation by alpha is second-order small at the small angles of the sample data.",
  [S+"vehicle.rs: Vehicle::aero_force"])
p("C16","Angle of attack is the angle between body axis and airflow",
  "For forward airflow the reported alpha is the angle in (-pi/2, pi/2) whose tangent is v_z/v_x; for airflow without forward component and significant v_z it is +-pi/2 with the sign of v_z; it is always finite for finite velocities.",
  "all body-frame velocities",
  "The exceptional branch is never exercised by the sample data.",
  [S+"vehicle.rs: Vehicle::alpha"])
p("C17","A table is accepted exactly when it is well formed",
  "try_new / deserialisation accepts a 1D/2D/3D table exactly when all consulted base arrays are strictly increasing (so contain no NaN when longer than one) and all lengths match; otherwise it reports NotSorted if the first offending array is unsorted, else InvalidLength; the accepted table stores the inputs unchanged.",
  "all arrays of any length and shape, all IEEE values",
  "Lengths and nesting are unbounded.",
  [S+"utils/tables/mod.rs: init::validate, Table1D::try_new, Table2D::try_new, Table3D::try_new"])
p("C18","Interpolating an accepted table never panics",
  "For every accepted table and every state (including NaN and infinite table arguments) evaluation returns a value: no index is out of range and no index subtraction underflows.",
  "all accepted tables of any size/dimension, all IEEE states",
  "Index arithmetic at both ends of arbitrary-length arrays and under NaN.",
  [S+"utils/tables/linear_interpolation.rs", S+"utils/tables/mod.rs: Table::at_state"])
p("C19","Interpolation reproduces the table at its nodes",
  "Evaluated at a base point the result is the stored datum, for 1D, 2D and 3D tables (in exact arithmetic; also bit-exactly in IEEE arithmetic).",
  "all accepted tables, all nodes",
  "Unbounded number of tables; in IEEE arithmetic the failure is a one-ulp effect for specific data.",
  [S+"utils/tables/linear_interpolation.rs"])
p("C20","Interpolation is the piecewise linear interpolant",
  "Between adjacent bases the value lies on the chord (so between the two data values), outside the range it is the linear extrapolation of the two outermost points; a one-entry table is constant; data sampled from an affine function are reproduced everywhere; the result is continuous in the argument. 2D and 3D tables interpolate along y (and z) first and then along x, i.e. they are the tensor-product interpolant, and reproduce multi-affine data.",
  "all accepted tables, all arguments",
  "Continuum of arguments, arbitrary tables.",
  [S+"utils/tables/linear_interpolation.rs: linear_interpolate, bilinear_interpolate, trilinear_interpolate, get_idx"])
p("C21","Throttle is always a fraction",
  "The throttle returned by auto-throttling is between 0 and 1 or NaN, for every input; every state that the equations of motion return has a throttle between 0 and 1 (a NaN throttle aborts).",
  "all vehicles, limits, masses, pressures, forces: all IEEE values, all libm implementations",
  "All IEEE inputs.",
  [S+"vehicle.rs: Vehicle::auto_throttle", S+"phase.rs: Phase::system"])
p("C22","Auto-throttle meets the acceleration limit with maximal thrust",
  "If the aerodynamic force alone does not exceed max_acceleration*mass, the chosen throttle is the largest setting in [0,1] for which |aero + throttle*full thrust| <= max_acceleration*mass; when it is below 1 the limit is met with equality. With no limit (-1) the throttle is 1.",
  "all vehicles with any number and orientation of engines, pressures, aero forces, masses and limits > 0",
  "Geometric optimality over a continuum of force triangles, including collinear and degenerate ones.",
  [S+"vehicle.rs: side_side_angle, Vehicle::auto_throttle, Vehicle::thrust_force"])
p("C23","The acceleration limit is enforced in every reported state",
  "No state accepted by the simulation has a sensed acceleration above 1.001*max_acceleration: the run aborts instead. If in addition aero forces stay within the limit the run never aborts for that reason.",
  "all configurations, all phases, all time steps",
  "Quantifies over all reachable states of unbounded runs.",
  [S+"phase.rs: Phase::system, Phase::step, Phase::run"])
p("C24","Thrust and mass flow model",
  "Full thrust is the sum over engines of (T_vac - A_e*p) times a unit vector given by the incidence angles; thrust and mass flow scale linearly with throttle, do not depend on the order of the engines, vanish without engines, and mass flow is -sum T_vac/(Isp*g0).",
  "all engine lists, throttles, pressures",
  "Arbitrary engine lists.",
  [S+"vehicle.rs: Engine::thrust, Engine::massflow, Vehicle::thrust_force, Vehicle::massflow"])
p("C25","Mass never increases while time advances",
  "With engines of non-negative vacuum thrust and positive Isp, every accepted integration step with non-negative step size leaves the total mass unchanged or smaller, in IEEE arithmetic; in exact arithmetic it decreases by at most h times the full-throttle mass flow, and exactly by that amount when the throttle stays at 1; so in vacuum without acceleration limit mass is an affine function of time during a phase.",
  "all vehicles, states, step sizes >= 0, rounding errors included",
  "Rounding could in principle make mass grow; only a proof over all IEEE values excludes it.",
  [S+"integration/runge_kutta.rs", S+"phase.rs: Phase::step", S+"vehicle.rs: Vehicle::massflow"])
p("C26","Mass bookkeeping across events",
  "At the start of a phase total mass = structure mass (new if configured, else old) + propellant (configured if given, else what is left); configuring neither leaves the mass untouched; afterwards reported propellant_mass = mass - structure_mass in every state.",
  "all phase configurations and previous phases",
  "Four combinations of optional fields times arbitrary histories.",
  [S+"phase.rs: Phase::new, Phase::system"])
p("C27","Thrust stops when the propellant is used up",
  "No thrust is produced and mass never falls below the structure mass once propellant_mass reaches 0.",
  "all configurations",
  "Requires runs past depletion, which the example avoids by ending phases at depletion.",
  [S+"vehicle.rs", S+"phase.rs: Phase::system"])
p("C28","Configuration inheritance",
  "Creating a phase overrides exactly the configured parameters: every parameter not mentioned (or null) keeps the value of the previous phase; every mentioned one takes the configured value; max_acceleration -1 means unlimited; engine lists are replaced as a whole; steering polynomials per axis; the first phase starts from the documented default; integrating a phase never changes any parameter.",
  "all previous phases and all configurations",
  "2^n combinations of optional fields.",
  [S+"phase.rs: Phase::new, Phase::default, Phase::reset", S+"config.rs", S+"vehicle.rs: update_with_config", S+"steering.rs: update_with_config", S+"atmosphere/mod.rs: update_with_config", S+"planet.rs: update_with_config"])
p("C29","The configured step size is used",
  "A phase configured with stepsize h integrates with step h until the event is overshot.",
  "all configurations",
  "The simulation result depends only weakly on the step size, so accuracy tests do not notice.",
  [S+"phase.rs: Phase::new, Phase::reset (base_stepsize)"])
p("C30","init is required for the first phase and ignored afterwards",
  "A simulation whose first phase has no init aborts before simulating; init in later phases has no effect; an empty configuration returns the default state; phases are executed in order, each exactly once, announced as Phase 1, 2, ...; running a concatenation of configurations equals running the first part and continuing from its last phase.",
  "all configuration lists",
  "Arbitrary lists of phases.",
  [S+"lib.rs: Simulation::run", S+"phase.rs: Phase::new"])
p("C31","A finished phase satisfies its end criterion",
  "When a phase ends, the chosen variable of the reported final state is within 1e-3 of the target (IEEE: up to one rounding), and no earlier state accepted by the integrator in this phase was (the initial state itself is not tested).",
  "all phases, criteria, targets, dynamics",
  "All reachable histories.",
  [S+"phase.rs: Phase::step, Phase::run"])
p("C32","Overshooting steps are discarded, and retried a bounded number of times",
  "A step that overshoots the target leaves the state untouched and only changes the step size and the retry counter; a phase performs at most 21 such retries, the next one aborts; every other step either accepts the new state or aborts.",
  "all phases and histories",
  "Histories of unbounded length.",
  [S+"phase.rs: Phase::step, event_is_active"])
p("C33","Secant step size",
  "After an overshoot the new step size is the zero of the secant: if the criterion variable were linear in time the retried step would hit the target exactly; when old and new value bracket the target the new step size lies strictly between 0 and the old one.",
  "all old/new values, targets, step sizes",
  "Continuum.",
  [S+"phase.rs: Phase::time_to_go"])
p("C34","Phases ended by time terminate at that time",
  "A phase whose criterion is time or time_since_event with a target not before the phase start terminates (or aborts in the equations of motion) after at most ceil(target - start) + 2 steps, at the target time (within 1e-3), whatever the dynamics. In binary64 the same holds, with one extra step per 4096 s for rounding, for clocks up to 2^40 s in magnitude (the clock itself stops advancing at 2^53 s).",
  "all phases, all vehicles and environments, all targets",
  "Termination.",
  [S+"phase.rs: Phase::run, Phase::step, Phase::time_to_go"])
p("C35","Time never runs backwards",
  "Within a run the accepted states have non-decreasing time.",
  "all configurations and histories",
  "Needs a criterion that has already been passed when the phase starts.",
  [S+"phase.rs: Phase::step, event_is_active, time_to_go"])
p("C36","The two clocks run in lockstep",
  "time and time_since_event advance by the same step; time_since_event is 0 at the start of each phase, and time - time_since_event is constant during a phase (exact arithmetic), equal to the time of the last event.",
  "all phases, all steps",
  "All histories.",
  [S+"integration/mod.rs", S+"phase.rs: Phase::reset"])
p("C37","Reported states are self-consistent",
  "Every accepted state equals the equations of motion evaluated at its own time, position, velocity and mass, and these primary variables are exactly those produced by the integrator; e.g. altitude, gravity, pressure, mach number, forces, acceleration are those of the reported position/velocity/mass.",
  "all phases, all accepted states",
  "All reachable states.",
  [S+"phase.rs: Phase::system, Phase::step", S+"integration/mod.rs: Integrator::step", S+"state.rs: from_vec, to_primary_vec, to_differentials_vector"])
p("C38","Derived quantities depend on the primary state only",
  "As long as steering and tables refer only to variables computed before they are needed, the equations of motion are a function of time, time_since_event, position, velocity and mass only: leftovers of earlier evaluations never leak. Variables that are not available yet read as zero, as documented, in every evaluation of every phase.",
  "all configurations and states; all 56 variables",
  "Needs all pairs of states with equal primary part.",
  [S+"phase.rs: Phase::system, Phase::run", "docs/user-manual/project.tex: Simulation Variables"])
p("C39","Attitude is continuous across events",
  "At the start of a phase each Euler angle equals its value at the end of the previous phase.",
  "all phase sequences",
  "All histories; the example only steers with time_since_event.",
  [S+"steering.rs", S+"phase.rs: Phase::reset", "docs/user-manual/project.tex: Steering"])
p("C40","Steering law",
  "Each Euler angle is c0 + c1*y + c2*y^2 + c3*y^3 degrees of its own configured variable y, converted to radians, in the order roll, yaw, pitch; axes are independent.",
  "all coefficients, variables and states",
  "Continuum.",
  [S+"steering.rs: calc_coeff, euler_angles, init, update_with_config"])
p("C41","The integrator is a 4th-order Runge-Kutta method",
  "One step from y(t) of a system y' = f(t,y) with smooth f reproduces the exact solution at t+h up to O(h^5); it is exact when f is a cubic polynomial in t alone; time advances by exactly h.",
  "all smooth right-hand sides in any dimension, all initial values",
  "Order of accuracy is an asymptotic statement.",
  [S+"integration/runge_kutta.rs: RungeKutta::step, RK4"])
p("C42","Names of simulation variables",
  "Each of the 38 variable names of the user manual is accepted in configurations and reads the quantity the manual describes; the accepted names are exactly those plus 18 undocumented ones; different names denote different variables.",
  "all strings, all states",
  "All strings; all 56 variables on all states.",
  [S+"state.rs: StateVariable, get_value", "docs/user-manual/project.tex: Simulation Variables"])
p("C43","Planet model names",
  "The planet model names of the user manual (spherical, fisher_1960, smithsonian, custom) are accepted and select the described constants.",
  "all strings",
  "No test deserialises anything but \"spherical\".",
  [S+"config.rs: PlanetConfig", S+"planet.rs: EARTH_FISHER_1960, EARTH_SMITHSONIAN", "docs/user-manual/project.tex: Planet model"])
p("C44","Configuration decoding: null means not specified, unknown keys are errors",
  "Setting an optional parameter to null decodes to the same configuration as omitting it; objects with unknown or duplicate keys are rejected at every level; a table object decodes to the dimension given by which of x, y, z are present; field order is irrelevant.",
  "all JSON documents",
  "All documents.",
  [S+"config.rs", S+"utils/tables/deserialization.rs", S+"utils/tables/mod.rs: Table"])
p("C45","Every integration attempt is reported exactly once",
  "The output contains, per phase, one record per loop iteration with the state current after it; a discarded step repeats the previous record; the last record of the last phase is the returned state.",
  "all configurations",
  "All histories.",
  [S+"phase.rs: Phase::run", S+"lib.rs: Simulation::run"])
p("C46","Planet-relative quantities",
  "position_planet has the same norm and z as the inertial position; velocity_planet is the inertial velocity minus rotation_rate*z x position, so that a point co-rotating with the planet has zero planet-relative velocity and constant planet-relative position; the velocity with respect to the atmosphere is velocity_planet minus wind.",
  "all positions, velocities, times",
  "Continuum.",
  [S+"planet.rs: velocity_planet", S+"transformations.rs: inertial_to_planet", S+"atmosphere/mod.rs: velocity_atmosphere"])
p("C47","Equation of motion",
  "Reported acceleration is gravity plus the sensed (thrust+aero)/mass acceleration rotated from body to inertial frame by the inverse of the attitude rotation; so its non-gravitational part has the same magnitude as the sensed acceleration.",
  "all configurations and states",
  "Continuum.",
  [S+"phase.rs: Phase::system"])
p("C48","The gravity field is symmetric about the planet's axis",
  "Rotating the position about the polar axis rotates the gravity vector with it; gravity exerts no torque about the polar axis, so the polar component of angular momentum is conserved along every ballistic trajectory; with J3 = 0 the field is also mirror-symmetric about the equator.",
  "all planets, all non-zero positions, all rotation angles, all ballistic trajectories",
  "Symmetry relates infinitely many pairs of positions; conservation quantifies over trajectories.",
  [S+"planet.rs: Planet::gravity"])
p("C49","A simulation aborts only for the documented reasons",
  "Whatever the configuration file, if decoding succeeds the simulation can only stop with: missing init in the first phase, acceleration limit exceeded, or end criterion not bracketed after the retries; there is no index, subtraction or unwrap failure. In vacuum with positive mass the acceleration limit never aborts an evaluation, and an unlimited vacuum flight of given duration whose propellant suffices always finishes.",
  "all JSON documents, all IEEE values, all libm implementations, all histories",
  "Absence of panics over all inputs and reachable states.",
  [S+"phase.rs", S+"lib.rs: Simulation::run", S+"utils/tables", S+"config.rs"])
p("C50","Coefficient tables act independently",
  "Leaving one of the three aerodynamic coefficient tables unconfigured removes that force only: drag is unaffected by a missing lift table and vice versa; the side force depends on its own table only.",
  "all vehicles, tables, states (IEEE)",
  "All combinations of tables and states; NaN propagation.",
  [S+"vehicle.rs: Vehicle::aero_force", S+"utils/tables/mod.rs: Default"])
p("C51","Drag never does positive work",
  "With zero lift and side force coefficients and a non-negative drag coefficient, the aerodynamic force has a non-positive component along the airspeed vector.",
  "all airspeed vectors, attitudes, dynamic pressures, areas, drag coefficients >= 0",
  "Needs airflow from behind (strong updraft or falling tail first), which no test has.",
  [S+"vehicle.rs: Vehicle::alpha, Vehicle::aero_force"])
p("C52","Reported numbers are real numbers",
  "With a real-valued configuration and a readable end criterion, every number of every record is a real number, never NaN or infinite, unless the simulation aborts or the flight reaches the planet's centre, zero mass or an altitude at which the geopotential height has no value.",
  "all configurations with real numbers, all run lengths",
  "NaN can only be excluded by following every operation of every evaluation of every run.",
  [S+"phase.rs: Phase::system, Phase::run", S+"runge_kutta.rs", S+"vehicle.rs", S+"planet.rs"])
p("C53","The printed text tells what was reported",
  "Every finite number is printed as an integer within 1/2 of its value, with its sign. Two runs that print the same text reported the same phases with as many records each, and corresponding printed values are both NaN, the same infinity, or finite, of the same sign and at most 1 apart; no layout of vectors makes the text ambiguous.",
  "all pairs of reports, all binary64 values, any rounding to the nearest integer",
  "Injectivity relates every pair of outputs; column widths depend on the values.",
  [S+"phase.rs: Phase::run", S+"lib.rs: Simulation::run"])
p("C54","The plotting script reads every record of the output",
  "From the output of every simulation the plotting script extracts each phase with its number and, for every record of it in order, the time, position and velocity printed.",
  "all simulations, all reported values",
  "Regular expressions with lazy wildcards over texts of unbounded length; negative times and NaN occur only in unusual runs.",
  ["utils/plot/plot.py: parse_test_output", S+"phase.rs: Phase::run", S+"lib.rs: Simulation::run"])
p("C55","A burn that is to end at a mass ends there",
  "A phase in vacuum whose end is given as a total or propellant mass below the initial one terminates with that mass within one gram, without and with an acceleration limit (up to a quarter of the exhaust velocity per second), after a bounded number of iterations; no record shows a mass beyond the target by more than a gram; the duration of the burn lies between the one at full throttle and the one at the lowest throttle, and without limit it is exactly the mass used divided by the flow.",
  "all vehicles, limits, masses and targets within the stated bounds, all histories before the phase",
  "The end is found by repeated secant steps, at most 21 of them; that they converge for every throttle history is an analytic statement.",
  [S+"phase.rs: Phase::step, Phase::run, Phase::time_to_go, Phase::event_is_active", S+"runge_kutta.rs", S+"vehicle.rs: Vehicle::auto_throttle"])
p("C56","The launch longitude only turns the trajectory about the planet's axis",
  "Moving the launch site d degrees further east leaves every record of the whole simulation the same except that position, velocity and acceleration (inertial, planet and air-relative) are turned by d degrees about the polar axis: same times, altitudes, masses, forces, attitude, throttle, same number of records per phase, same end or abort. It needs wind along the axis only and steering, tables and end criteria that use no equatorial vector component.",
  "all missions, longitudes, offsets and run lengths; every evaluation at a real, non-singular state",
  "Relates every pair of simulations that differ in one configuration number.",
  [S+"phase.rs: Phase::init, Phase::system, Phase::step, Phase::run", S+"transformations.rs", S+"planet.rs", S+"lib.rs: Simulation::run"])
p("C57","An event at which nothing changes is invisible",
  "Splitting a phase of n+m seconds into n seconds followed by a phase that configures nothing but its duration of m seconds changes nothing in the whole simulation: the same records with the same values (but for the time since the last event), the same text of the records, the same end or abort, and the same later phases. It holds for tables that do not use the time since the last event or outputs not computed yet, and for axes that stay or turn at a constant rate since the last event (other steering polynomials jump, C39); without steering it holds bit for bit in IEEE arithmetic.",
  "all missions before and after the event, all vehicles and steering rates, all n, m and run lengths, every mathematical library",
  "Relates every pair of missions that differ in how the timeline is cut; the steering is re-initialised at each event.",
  [S+"phase.rs: Phase::new, Phase::reset, Phase::step, Phase::run", S+"steering.rs: Steering::init, Steering::euler_angles", S+"lib.rs: Simulation::run"])
p("C58","Only what the engines add up to matters",
  "The order in which the engines of a vehicle are listed has no influence on any record of the whole simulation, nor has it whether n equal engines are listed one by one or as one engine with n times the thrust and exit area (same specific impulse and incidence). In the program's own arithmetic the first two engines can be exchanged without changing a bit; with three or more only rounding of the sums depends on the order.",
  "all missions, all lists of engines in any of their phases, all numbers of engines, all run lengths, every mathematical library",
  "Relates every pair of missions that differ in how the propulsion is written down; lists are unbounded.",
  [S+"vehicle.rs: Vehicle::thrust_force, Vehicle::massflow, Vehicle::auto_throttle, Engine::thrust, Engine::massflow", S+"phase.rs: Phase::system, Phase::run", S+"lib.rs: Simulation::run"])
p("C59","Ballistic flight stays in its plane",
  "In a phase without engines and without atmosphere the numerical trajectory never leaves the plane through the planet's centre spanned by position and velocity at its start, if the planet is spherical, nor a plane through the polar axis if it is not: every record's position and velocity lie in it, whatever the step sizes and however many records. A vertical fall on a spherical planet stays vertical.",
  "all missions, all planets with the data given, all planes, all run lengths",
  "An invariant of trajectories of unbounded length for every initial condition; errors of integration could break it.",
  [S+"phase.rs: Phase::system, Phase::step, Phase::run", S+"planet.rs: Planet::gravity", S+"runge_kutta.rs", S+"lib.rs: Simulation::run"])
p("C60","Similar vehicles fly the same trajectory",
  "Multiplying all masses, thrusts, nozzle exit areas and the reference area of the vehicle by one positive factor, in every phase, changes nothing in any record of the simulation but the masses, the mass flow and the forces, which are multiplied by the factor: same times, positions, velocities, accelerations, attitude, throttle, same number of records, same end or abort. It needs tables, steering and end criteria that do not use masses, flow or forces (the tolerance of the end criterion is absolute).",
  "all missions, all factors, all run lengths, including infinite and undefined values",
  "Relates every pair of simulations that differ by a factor.",
  [S+"vehicle.rs: Vehicle::thrust_force, Vehicle::massflow, Vehicle::auto_throttle, Vehicle::aero_force", S+"phase.rs: Phase::new, Phase::system, Phase::run", S+"lib.rs: Simulation::run"])
p("C61","Only the settings in effect matter",
  "The result of a simulation depends on the configuration only through the settings in effect in each phase: whether a later phase inherits a setting or repeats it, whether a default is written down or left out, whether no limit is written as -1, which step size is given and whether a later phase has a launch site, changes no bit of the output. Only the masses given at events and the launch site of the first phase count as written, since they act on the vehicle when given.",
  "all pairs of missions with the same settings in effect, any number of phases, all run lengths, every arithmetic",
  "Relates every pair of configuration files; a field missed in the inheritance of one phase shows only in missions that leave it out there.",
  [S+"phase.rs: Phase::new, Phase::update_with_config, Phase::reset, Phase::run", S+"vehicle.rs: Vehicle::update_with_config", S+"steering.rs: Steering::update_with_config", S+"lib.rs: Simulation::run"])
p("C62","Rounding does not spoil gravity and altitude",
  "In the program's own double precision arithmetic the gravity reported in a record differs from the gradient of the planet's potential at the reported position by at most 2^-47 of mu/r^2 in each component, and the reported altitude differs from the radial height over the ellipsoid by at most 2^-49 of the distance plus the equatorial radius (about 25 nanometres near the Earth): both are numbers, never NaN, also over the poles, where the argument of the arc sine comes closest to 1.",
  "all positions from the surface to 2^100 m and all planets of ordinary shape; all records of all missions; every mathematical library whose sine and arc sine are accurate",
  "A bound over about 2^190 positions; cancellation or an argument just above 1 shows only at particular bit patterns.",
  [S+"planet.rs: Planet::gravity, Planet::altitude", S+"phase.rs: Phase::system"])
p("C63","Coasting flight follows the equation of motion, and rounding does not carry it away",
  "In a phase without engines and without atmosphere, as long as the reported time advances by whole seconds, the reported positions and velocities are those of the classical Runge-Kutta method for x'' = gradient of the planet's potential, started from the first record: exactly so in exact arithmetic, and in the program's own double precision to within a bound that grows with the elapsed time k as k exp(lambda k) 2^-53 (distance + speed/lambda), lambda^2 = 7 mu/R0^3. For a flight near the Earth this is less than a millimetre after 1000 s.",
  "all missions, all such phases and all of their records; all positions, speeds and planets of ordinary shape and any number of steps; every mathematical library",
  "A trajectory of thousands of steps rounds at every operation; a test compares one trajectory with one reference, itself rounded, and cannot say how far the two may be apart.",
  [S+"integration/mod.rs: Integrator::step", S+"integration/runge_kutta.rs", S+"phase.rs: Phase::system, Phase::step", S+"planet.rs: Planet::gravity"])
p("C64","North and south are mirror images",
  "The mirror image of a mission - launch site at the opposite latitude with the azimuth reflected, polar wind component, third zonal coefficient, engine yaw incidences, side force table and the steering rates in roll and yaw negated - flies the mirror image of its trajectory: every record has the same time, altitude, masses, throttle, aerodynamic angles, atmosphere and pitch, and its vectors are reflected in the equatorial plane; the same number of records, the same end or abort. It needs tables, steering and end criteria whose variable does not tell the hemispheres apart.",
  "all missions, latitudes, azimuths and run lengths; every evaluation at a real, non-singular state",
  "Relates every pair of mirrored simulations; a wrong sign in any of the rotations, in gravity or in the side forces shows only in the hemisphere that is not tested.",
  [S+"phase.rs: Phase::init, Phase::system, Phase::step, Phase::run", S+"transformations.rs", S+"planet.rs: Planet::gravity, Planet::altitude", S+"steering.rs", S+"vehicle.rs: Vehicle::thrust_force, Vehicle::aero_force", S+"lib.rs: Simulation::run"])
p("C65","Coasting flight follows the true motion",
  "In a phase without engines and without atmosphere, as long as the reported time advances by whole seconds, the reported positions and velocities stay near every true motion - every curve whose acceleration is the gradient of the planet's potential - that starts near the first record: after k seconds the distance (lambda times that of the positions plus that of the velocities) is at most exp(lambda k) (delta + k (2/5 K + lambda^2 (6/5 mu/R0^2 + lambda^2 W)/10)), lambda^2 = 7 mu/R0^3, where delta is the distance at the start, W bounds the speed and K the second derivative of the acceleration; in double precision the rounding of C63 adds to it. Near the Earth that is about two centimetres after three seconds and less than a metre after 100.",
  "all missions, all such phases and all of their records, all motions of the differential equation, planets of ordinary shape, any number of steps; every mathematical library",
  "A test compares the method with itself or with another method; the differential equation has no other closed-form solutions than a few, and the error of a method is a statement about all of them.",
  [S+"integration/mod.rs: Integrator::step", S+"integration/runge_kutta.rs", S+"phase.rs: Phase::system, Phase::step, Phase::run", S+"planet.rs: Planet::gravity"])
p("C66","East and west are mirror images",
  "The mirror image of a mission in the plane of the prime meridian - longitude, azimuth, the planet's rotation rate, the wind component across that plane, engine yaw incidences, side force table and the steering rates in roll and yaw negated - flies the mirror image of its trajectory: every record has the same time, altitude, masses, throttle, aerodynamic angles, atmosphere and pitch, and the second components of its vectors, roll and yaw change their sign; the same number of records, the same end or abort. It needs tables, steering and end criteria whose variable does not tell the two sides apart. A phase that names no planet keeps the reversed one; the first phase's default is the spherical Earth, reversed.",
  "all missions, longitudes, azimuths, rotation rates of either sign and run lengths; every evaluation at a real, non-singular state",
  "Relates every pair of mirrored simulations; a rotation with the wrong sense in one place - planet frame, launch velocity, azimuth - goes unnoticed by tests that all launch eastwards from one planet.",
  [S+"phase.rs: Phase::init, Phase::system, Phase::step, Phase::run", S+"transformations.rs", S+"planet.rs: Planet::gravity, Planet::altitude, Planet::velocity_planet", S+"steering.rs", S+"vehicle.rs: Vehicle::thrust_force, Vehicle::aero_force", S+"lib.rs: Simulation::run"])
p("C67","Coasting flight obeys Kepler's laws",
  "Around a planet without oblateness, if the first record of a phase without engines and without atmosphere lies on an ellipse - negative energy, not falling straight down - that stays outside the given range of distances by a margin, the records stay near the motion on that ellipse: a curve from the first record's position and velocity with the acceleration -mu x/|x|^3, between the perigee a(1-e) and the apogee a(1+e), with constant energy and angular momentum and the period 2 pi sqrt(a^3/mu), a = -mu/(2 energy), e = sqrt(1 - h^2/(mu a)). After k seconds the distance is at most the bound of C65 with delta = 0 (plus C63's rounding); the energy and the angular momentum of every record differ from those of the first by at most a multiple of it. Nothing is assumed of the later records but that they are finite numbers whose reported time advances by whole seconds.",
  "all missions, all such phases and all of their records, all ellipses, spherical planets, any number of steps; every mathematical library",
  "Conservation along one sampled orbit says nothing about another; the claim is over all initial states and all numbers of steps, with the rounding of double precision.",
  [S+"integration/mod.rs: Integrator::step", S+"integration/runge_kutta.rs", S+"phase.rs: Phase::system, Phase::step, Phase::run", S+"planet.rs: Planet::gravity"])
p("C68","A timed phase reports every whole second",
  "The records of a phase that ends T seconds after its event report 1, 2, 3, ... seconds since the event, one per record, as far as T goes. In exact arithmetic a finished phase whose T is within a millisecond of a whole second has exactly one record per second; any other repeats its last whole second and then reports T itself. In the program's own double precision the reported seconds are the exact integers, bit for bit (up to 2^53), and a finished phase of m whole seconds has exactly m records, never more while it runs; a finished phase of any other duration of at least a second reports every whole second, the last one again, and then exactly T (within the program's tolerance of a whole second: just the whole seconds). In a mission whose phases all last whole seconds the n-th record of the output reports the mission time n, every phase begins after the sum of the durations before it, and the mission ends at their sum.",
  "all missions, all phases with a time criterion in effect (configured or inherited), all durations T; every mathematical library",
  "An accumulated clock that drifts, or a criterion that is tested one step late, shows only after some number of steps; a test covers one duration.",
  [S+"phase.rs: Phase::step, Phase::run, Phase::event_is_active, Phase::time_to_go", S+"integration/mod.rs: Integrator::step", S+"lib.rs: Simulation::run"])
with open('/verif/properties.jsonl','w') as f:
    for x in P: f.write(json.dumps(x)+"\n")
print(len(P))
