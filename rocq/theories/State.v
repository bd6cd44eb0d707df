(** * State and state variables

    Models /repo/sim/src/state.rs. *)
From Coq Require Import ZArith List String Ascii.
From Verif Require Import Num.
Import ListNotations.
Set Implicit Arguments.
Set Contextual Implicit.

(** state.rs:16-67, [struct State], same fields in the same order.  The array
    [euler_angles : [f64; 3]] (roll, yaw, pitch) is a [vec3]. *)
Record State (N : Num) := mkState {
  st_time : carrier N;
  st_time_since_event : carrier N;
  st_position : vec3 N;
  st_position_planet : vec3 N;
  st_altitude : carrier N;
  st_altitude_geopotential : carrier N;
  st_velocity : vec3 N;
  st_velocity_planet : vec3 N;
  st_velocity_atmosphere : vec3 N;
  st_acceleration : vec3 N;
  st_thrust_force_body : vec3 N;
  st_aero_force_body : vec3 N;
  st_vehicle_acceleration_body : vec3 N;
  st_gravity_acceleration : vec3 N;
  st_mass : carrier N;
  st_propellant_mass : carrier N;
  st_massflow : carrier N;
  st_temperature : carrier N;
  st_pressure : carrier N;
  st_density : carrier N;
  st_mach_number : carrier N;
  st_dynamic_pressure : carrier N;
  st_alpha : carrier N;
  st_euler_angles : vec3 N;
  st_throttle : carrier N
}.

(** state.rs:117-231, [enum StateVariable]. *)
Inductive StateVariable :=
| Time
| TimeSinceEvent
| Position1
| Position2
| Position3
| PositionNorm
| PositionPlanet1
| PositionPlanet2
| PositionPlanet3
| Altitude
| AltitudeGeopotential
| Velocity1
| Velocity2
| Velocity3
| VelocityNorm
| VelocityPlanet1
| VelocityPlanet2
| VelocityPlanet3
| VelocityPlanetNorm
| VelocityAtmosphere1
| VelocityAtmosphere2
| VelocityAtmosphere3
| VelocityAtmosphereNorm
| Acceleration1
| Acceleration2
| Acceleration3
| AccelerationNorm
| ThrustForceBody1
| ThrustForceBody2
| ThrustForceBody3
| ThrustForceBodyNorm
| AeroForceBody1
| AeroForceBody2
| AeroForceBody3
| AeroForceBodyNorm
| VehicleAccelerationBody1
| VehicleAccelerationBody2
| VehicleAccelerationBody3
| VehicleAccelerationBodyNorm
| GravityAcceleration1
| GravityAcceleration2
| GravityAcceleration3
| GravityAccelerationNorm
| Mass
| PropellantMass
| Massflow
| Temperature
| Pressure
| Density
| MachNumber
| DynamicPressure
| Alpha
| EulerAnglesRoll
| EulerAnglesYaw
| EulerAnglesPitch
| Throttle.

(** All variants with the identifier written in the source. *)
Definition all_variables : list (StateVariable * string) := [
  (Time, "Time"%string);
  (TimeSinceEvent, "TimeSinceEvent"%string);
  (Position1, "Position1"%string);
  (Position2, "Position2"%string);
  (Position3, "Position3"%string);
  (PositionNorm, "PositionNorm"%string);
  (PositionPlanet1, "PositionPlanet1"%string);
  (PositionPlanet2, "PositionPlanet2"%string);
  (PositionPlanet3, "PositionPlanet3"%string);
  (Altitude, "Altitude"%string);
  (AltitudeGeopotential, "AltitudeGeopotential"%string);
  (Velocity1, "Velocity1"%string);
  (Velocity2, "Velocity2"%string);
  (Velocity3, "Velocity3"%string);
  (VelocityNorm, "VelocityNorm"%string);
  (VelocityPlanet1, "VelocityPlanet1"%string);
  (VelocityPlanet2, "VelocityPlanet2"%string);
  (VelocityPlanet3, "VelocityPlanet3"%string);
  (VelocityPlanetNorm, "VelocityPlanetNorm"%string);
  (VelocityAtmosphere1, "VelocityAtmosphere1"%string);
  (VelocityAtmosphere2, "VelocityAtmosphere2"%string);
  (VelocityAtmosphere3, "VelocityAtmosphere3"%string);
  (VelocityAtmosphereNorm, "VelocityAtmosphereNorm"%string);
  (Acceleration1, "Acceleration1"%string);
  (Acceleration2, "Acceleration2"%string);
  (Acceleration3, "Acceleration3"%string);
  (AccelerationNorm, "AccelerationNorm"%string);
  (ThrustForceBody1, "ThrustForceBody1"%string);
  (ThrustForceBody2, "ThrustForceBody2"%string);
  (ThrustForceBody3, "ThrustForceBody3"%string);
  (ThrustForceBodyNorm, "ThrustForceBodyNorm"%string);
  (AeroForceBody1, "AeroForceBody1"%string);
  (AeroForceBody2, "AeroForceBody2"%string);
  (AeroForceBody3, "AeroForceBody3"%string);
  (AeroForceBodyNorm, "AeroForceBodyNorm"%string);
  (VehicleAccelerationBody1, "VehicleAccelerationBody1"%string);
  (VehicleAccelerationBody2, "VehicleAccelerationBody2"%string);
  (VehicleAccelerationBody3, "VehicleAccelerationBody3"%string);
  (VehicleAccelerationBodyNorm, "VehicleAccelerationBodyNorm"%string);
  (GravityAcceleration1, "GravityAcceleration1"%string);
  (GravityAcceleration2, "GravityAcceleration2"%string);
  (GravityAcceleration3, "GravityAcceleration3"%string);
  (GravityAccelerationNorm, "GravityAccelerationNorm"%string);
  (Mass, "Mass"%string);
  (PropellantMass, "PropellantMass"%string);
  (Massflow, "Massflow"%string);
  (Temperature, "Temperature"%string);
  (Pressure, "Pressure"%string);
  (Density, "Density"%string);
  (MachNumber, "MachNumber"%string);
  (DynamicPressure, "DynamicPressure"%string);
  (Alpha, "Alpha"%string);
  (EulerAnglesRoll, "EulerAnglesRoll"%string);
  (EulerAnglesYaw, "EulerAnglesYaw"%string);
  (EulerAnglesPitch, "EulerAnglesPitch"%string);
  (Throttle, "Throttle"%string)].

Section WithNum.
Context {N : Num}.
Local Open Scope num_scope.

(** state.rs:15, [#[derive(Default)]]: all zero. *)
Definition default_state : State N := {|
  st_time := #0;
  st_time_since_event := #0;
  st_position := vzero;
  st_position_planet := vzero;
  st_altitude := #0;
  st_altitude_geopotential := #0;
  st_velocity := vzero;
  st_velocity_planet := vzero;
  st_velocity_atmosphere := vzero;
  st_acceleration := vzero;
  st_thrust_force_body := vzero;
  st_aero_force_body := vzero;
  st_vehicle_acceleration_body := vzero;
  st_gravity_acceleration := vzero;
  st_mass := #0;
  st_propellant_mass := #0;
  st_massflow := #0;
  st_temperature := #0;
  st_pressure := #0;
  st_density := #0;
  st_mach_number := #0;
  st_dynamic_pressure := #0;
  st_alpha := #0;
  st_euler_angles := vzero;
  st_throttle := #0
|}.

(** Field assignments [state.f = v]. *)
Definition set_time (s : State N) (v : carrier N) : State N := {|
  st_time := v; st_time_since_event := st_time_since_event s; st_position := st_position s; st_position_planet := st_position_planet s; st_altitude := st_altitude s; st_altitude_geopotential := st_altitude_geopotential s; st_velocity := st_velocity s; st_velocity_planet := st_velocity_planet s; st_velocity_atmosphere := st_velocity_atmosphere s; st_acceleration := st_acceleration s; st_thrust_force_body := st_thrust_force_body s; st_aero_force_body := st_aero_force_body s; st_vehicle_acceleration_body := st_vehicle_acceleration_body s; st_gravity_acceleration := st_gravity_acceleration s; st_mass := st_mass s; st_propellant_mass := st_propellant_mass s; st_massflow := st_massflow s; st_temperature := st_temperature s; st_pressure := st_pressure s; st_density := st_density s; st_mach_number := st_mach_number s; st_dynamic_pressure := st_dynamic_pressure s; st_alpha := st_alpha s; st_euler_angles := st_euler_angles s; st_throttle := st_throttle s |}.
Definition set_time_since_event (s : State N) (v : carrier N) : State N := {|
  st_time := st_time s; st_time_since_event := v; st_position := st_position s; st_position_planet := st_position_planet s; st_altitude := st_altitude s; st_altitude_geopotential := st_altitude_geopotential s; st_velocity := st_velocity s; st_velocity_planet := st_velocity_planet s; st_velocity_atmosphere := st_velocity_atmosphere s; st_acceleration := st_acceleration s; st_thrust_force_body := st_thrust_force_body s; st_aero_force_body := st_aero_force_body s; st_vehicle_acceleration_body := st_vehicle_acceleration_body s; st_gravity_acceleration := st_gravity_acceleration s; st_mass := st_mass s; st_propellant_mass := st_propellant_mass s; st_massflow := st_massflow s; st_temperature := st_temperature s; st_pressure := st_pressure s; st_density := st_density s; st_mach_number := st_mach_number s; st_dynamic_pressure := st_dynamic_pressure s; st_alpha := st_alpha s; st_euler_angles := st_euler_angles s; st_throttle := st_throttle s |}.
Definition set_position (s : State N) (v : vec3 N) : State N := {|
  st_time := st_time s; st_time_since_event := st_time_since_event s; st_position := v; st_position_planet := st_position_planet s; st_altitude := st_altitude s; st_altitude_geopotential := st_altitude_geopotential s; st_velocity := st_velocity s; st_velocity_planet := st_velocity_planet s; st_velocity_atmosphere := st_velocity_atmosphere s; st_acceleration := st_acceleration s; st_thrust_force_body := st_thrust_force_body s; st_aero_force_body := st_aero_force_body s; st_vehicle_acceleration_body := st_vehicle_acceleration_body s; st_gravity_acceleration := st_gravity_acceleration s; st_mass := st_mass s; st_propellant_mass := st_propellant_mass s; st_massflow := st_massflow s; st_temperature := st_temperature s; st_pressure := st_pressure s; st_density := st_density s; st_mach_number := st_mach_number s; st_dynamic_pressure := st_dynamic_pressure s; st_alpha := st_alpha s; st_euler_angles := st_euler_angles s; st_throttle := st_throttle s |}.
Definition set_position_planet (s : State N) (v : vec3 N) : State N := {|
  st_time := st_time s; st_time_since_event := st_time_since_event s; st_position := st_position s; st_position_planet := v; st_altitude := st_altitude s; st_altitude_geopotential := st_altitude_geopotential s; st_velocity := st_velocity s; st_velocity_planet := st_velocity_planet s; st_velocity_atmosphere := st_velocity_atmosphere s; st_acceleration := st_acceleration s; st_thrust_force_body := st_thrust_force_body s; st_aero_force_body := st_aero_force_body s; st_vehicle_acceleration_body := st_vehicle_acceleration_body s; st_gravity_acceleration := st_gravity_acceleration s; st_mass := st_mass s; st_propellant_mass := st_propellant_mass s; st_massflow := st_massflow s; st_temperature := st_temperature s; st_pressure := st_pressure s; st_density := st_density s; st_mach_number := st_mach_number s; st_dynamic_pressure := st_dynamic_pressure s; st_alpha := st_alpha s; st_euler_angles := st_euler_angles s; st_throttle := st_throttle s |}.
Definition set_altitude (s : State N) (v : carrier N) : State N := {|
  st_time := st_time s; st_time_since_event := st_time_since_event s; st_position := st_position s; st_position_planet := st_position_planet s; st_altitude := v; st_altitude_geopotential := st_altitude_geopotential s; st_velocity := st_velocity s; st_velocity_planet := st_velocity_planet s; st_velocity_atmosphere := st_velocity_atmosphere s; st_acceleration := st_acceleration s; st_thrust_force_body := st_thrust_force_body s; st_aero_force_body := st_aero_force_body s; st_vehicle_acceleration_body := st_vehicle_acceleration_body s; st_gravity_acceleration := st_gravity_acceleration s; st_mass := st_mass s; st_propellant_mass := st_propellant_mass s; st_massflow := st_massflow s; st_temperature := st_temperature s; st_pressure := st_pressure s; st_density := st_density s; st_mach_number := st_mach_number s; st_dynamic_pressure := st_dynamic_pressure s; st_alpha := st_alpha s; st_euler_angles := st_euler_angles s; st_throttle := st_throttle s |}.
Definition set_altitude_geopotential (s : State N) (v : carrier N) : State N := {|
  st_time := st_time s; st_time_since_event := st_time_since_event s; st_position := st_position s; st_position_planet := st_position_planet s; st_altitude := st_altitude s; st_altitude_geopotential := v; st_velocity := st_velocity s; st_velocity_planet := st_velocity_planet s; st_velocity_atmosphere := st_velocity_atmosphere s; st_acceleration := st_acceleration s; st_thrust_force_body := st_thrust_force_body s; st_aero_force_body := st_aero_force_body s; st_vehicle_acceleration_body := st_vehicle_acceleration_body s; st_gravity_acceleration := st_gravity_acceleration s; st_mass := st_mass s; st_propellant_mass := st_propellant_mass s; st_massflow := st_massflow s; st_temperature := st_temperature s; st_pressure := st_pressure s; st_density := st_density s; st_mach_number := st_mach_number s; st_dynamic_pressure := st_dynamic_pressure s; st_alpha := st_alpha s; st_euler_angles := st_euler_angles s; st_throttle := st_throttle s |}.
Definition set_velocity (s : State N) (v : vec3 N) : State N := {|
  st_time := st_time s; st_time_since_event := st_time_since_event s; st_position := st_position s; st_position_planet := st_position_planet s; st_altitude := st_altitude s; st_altitude_geopotential := st_altitude_geopotential s; st_velocity := v; st_velocity_planet := st_velocity_planet s; st_velocity_atmosphere := st_velocity_atmosphere s; st_acceleration := st_acceleration s; st_thrust_force_body := st_thrust_force_body s; st_aero_force_body := st_aero_force_body s; st_vehicle_acceleration_body := st_vehicle_acceleration_body s; st_gravity_acceleration := st_gravity_acceleration s; st_mass := st_mass s; st_propellant_mass := st_propellant_mass s; st_massflow := st_massflow s; st_temperature := st_temperature s; st_pressure := st_pressure s; st_density := st_density s; st_mach_number := st_mach_number s; st_dynamic_pressure := st_dynamic_pressure s; st_alpha := st_alpha s; st_euler_angles := st_euler_angles s; st_throttle := st_throttle s |}.
Definition set_velocity_planet (s : State N) (v : vec3 N) : State N := {|
  st_time := st_time s; st_time_since_event := st_time_since_event s; st_position := st_position s; st_position_planet := st_position_planet s; st_altitude := st_altitude s; st_altitude_geopotential := st_altitude_geopotential s; st_velocity := st_velocity s; st_velocity_planet := v; st_velocity_atmosphere := st_velocity_atmosphere s; st_acceleration := st_acceleration s; st_thrust_force_body := st_thrust_force_body s; st_aero_force_body := st_aero_force_body s; st_vehicle_acceleration_body := st_vehicle_acceleration_body s; st_gravity_acceleration := st_gravity_acceleration s; st_mass := st_mass s; st_propellant_mass := st_propellant_mass s; st_massflow := st_massflow s; st_temperature := st_temperature s; st_pressure := st_pressure s; st_density := st_density s; st_mach_number := st_mach_number s; st_dynamic_pressure := st_dynamic_pressure s; st_alpha := st_alpha s; st_euler_angles := st_euler_angles s; st_throttle := st_throttle s |}.
Definition set_velocity_atmosphere (s : State N) (v : vec3 N) : State N := {|
  st_time := st_time s; st_time_since_event := st_time_since_event s; st_position := st_position s; st_position_planet := st_position_planet s; st_altitude := st_altitude s; st_altitude_geopotential := st_altitude_geopotential s; st_velocity := st_velocity s; st_velocity_planet := st_velocity_planet s; st_velocity_atmosphere := v; st_acceleration := st_acceleration s; st_thrust_force_body := st_thrust_force_body s; st_aero_force_body := st_aero_force_body s; st_vehicle_acceleration_body := st_vehicle_acceleration_body s; st_gravity_acceleration := st_gravity_acceleration s; st_mass := st_mass s; st_propellant_mass := st_propellant_mass s; st_massflow := st_massflow s; st_temperature := st_temperature s; st_pressure := st_pressure s; st_density := st_density s; st_mach_number := st_mach_number s; st_dynamic_pressure := st_dynamic_pressure s; st_alpha := st_alpha s; st_euler_angles := st_euler_angles s; st_throttle := st_throttle s |}.
Definition set_acceleration (s : State N) (v : vec3 N) : State N := {|
  st_time := st_time s; st_time_since_event := st_time_since_event s; st_position := st_position s; st_position_planet := st_position_planet s; st_altitude := st_altitude s; st_altitude_geopotential := st_altitude_geopotential s; st_velocity := st_velocity s; st_velocity_planet := st_velocity_planet s; st_velocity_atmosphere := st_velocity_atmosphere s; st_acceleration := v; st_thrust_force_body := st_thrust_force_body s; st_aero_force_body := st_aero_force_body s; st_vehicle_acceleration_body := st_vehicle_acceleration_body s; st_gravity_acceleration := st_gravity_acceleration s; st_mass := st_mass s; st_propellant_mass := st_propellant_mass s; st_massflow := st_massflow s; st_temperature := st_temperature s; st_pressure := st_pressure s; st_density := st_density s; st_mach_number := st_mach_number s; st_dynamic_pressure := st_dynamic_pressure s; st_alpha := st_alpha s; st_euler_angles := st_euler_angles s; st_throttle := st_throttle s |}.
Definition set_thrust_force_body (s : State N) (v : vec3 N) : State N := {|
  st_time := st_time s; st_time_since_event := st_time_since_event s; st_position := st_position s; st_position_planet := st_position_planet s; st_altitude := st_altitude s; st_altitude_geopotential := st_altitude_geopotential s; st_velocity := st_velocity s; st_velocity_planet := st_velocity_planet s; st_velocity_atmosphere := st_velocity_atmosphere s; st_acceleration := st_acceleration s; st_thrust_force_body := v; st_aero_force_body := st_aero_force_body s; st_vehicle_acceleration_body := st_vehicle_acceleration_body s; st_gravity_acceleration := st_gravity_acceleration s; st_mass := st_mass s; st_propellant_mass := st_propellant_mass s; st_massflow := st_massflow s; st_temperature := st_temperature s; st_pressure := st_pressure s; st_density := st_density s; st_mach_number := st_mach_number s; st_dynamic_pressure := st_dynamic_pressure s; st_alpha := st_alpha s; st_euler_angles := st_euler_angles s; st_throttle := st_throttle s |}.
Definition set_aero_force_body (s : State N) (v : vec3 N) : State N := {|
  st_time := st_time s; st_time_since_event := st_time_since_event s; st_position := st_position s; st_position_planet := st_position_planet s; st_altitude := st_altitude s; st_altitude_geopotential := st_altitude_geopotential s; st_velocity := st_velocity s; st_velocity_planet := st_velocity_planet s; st_velocity_atmosphere := st_velocity_atmosphere s; st_acceleration := st_acceleration s; st_thrust_force_body := st_thrust_force_body s; st_aero_force_body := v; st_vehicle_acceleration_body := st_vehicle_acceleration_body s; st_gravity_acceleration := st_gravity_acceleration s; st_mass := st_mass s; st_propellant_mass := st_propellant_mass s; st_massflow := st_massflow s; st_temperature := st_temperature s; st_pressure := st_pressure s; st_density := st_density s; st_mach_number := st_mach_number s; st_dynamic_pressure := st_dynamic_pressure s; st_alpha := st_alpha s; st_euler_angles := st_euler_angles s; st_throttle := st_throttle s |}.
Definition set_vehicle_acceleration_body (s : State N) (v : vec3 N) : State N := {|
  st_time := st_time s; st_time_since_event := st_time_since_event s; st_position := st_position s; st_position_planet := st_position_planet s; st_altitude := st_altitude s; st_altitude_geopotential := st_altitude_geopotential s; st_velocity := st_velocity s; st_velocity_planet := st_velocity_planet s; st_velocity_atmosphere := st_velocity_atmosphere s; st_acceleration := st_acceleration s; st_thrust_force_body := st_thrust_force_body s; st_aero_force_body := st_aero_force_body s; st_vehicle_acceleration_body := v; st_gravity_acceleration := st_gravity_acceleration s; st_mass := st_mass s; st_propellant_mass := st_propellant_mass s; st_massflow := st_massflow s; st_temperature := st_temperature s; st_pressure := st_pressure s; st_density := st_density s; st_mach_number := st_mach_number s; st_dynamic_pressure := st_dynamic_pressure s; st_alpha := st_alpha s; st_euler_angles := st_euler_angles s; st_throttle := st_throttle s |}.
Definition set_gravity_acceleration (s : State N) (v : vec3 N) : State N := {|
  st_time := st_time s; st_time_since_event := st_time_since_event s; st_position := st_position s; st_position_planet := st_position_planet s; st_altitude := st_altitude s; st_altitude_geopotential := st_altitude_geopotential s; st_velocity := st_velocity s; st_velocity_planet := st_velocity_planet s; st_velocity_atmosphere := st_velocity_atmosphere s; st_acceleration := st_acceleration s; st_thrust_force_body := st_thrust_force_body s; st_aero_force_body := st_aero_force_body s; st_vehicle_acceleration_body := st_vehicle_acceleration_body s; st_gravity_acceleration := v; st_mass := st_mass s; st_propellant_mass := st_propellant_mass s; st_massflow := st_massflow s; st_temperature := st_temperature s; st_pressure := st_pressure s; st_density := st_density s; st_mach_number := st_mach_number s; st_dynamic_pressure := st_dynamic_pressure s; st_alpha := st_alpha s; st_euler_angles := st_euler_angles s; st_throttle := st_throttle s |}.
Definition set_mass (s : State N) (v : carrier N) : State N := {|
  st_time := st_time s; st_time_since_event := st_time_since_event s; st_position := st_position s; st_position_planet := st_position_planet s; st_altitude := st_altitude s; st_altitude_geopotential := st_altitude_geopotential s; st_velocity := st_velocity s; st_velocity_planet := st_velocity_planet s; st_velocity_atmosphere := st_velocity_atmosphere s; st_acceleration := st_acceleration s; st_thrust_force_body := st_thrust_force_body s; st_aero_force_body := st_aero_force_body s; st_vehicle_acceleration_body := st_vehicle_acceleration_body s; st_gravity_acceleration := st_gravity_acceleration s; st_mass := v; st_propellant_mass := st_propellant_mass s; st_massflow := st_massflow s; st_temperature := st_temperature s; st_pressure := st_pressure s; st_density := st_density s; st_mach_number := st_mach_number s; st_dynamic_pressure := st_dynamic_pressure s; st_alpha := st_alpha s; st_euler_angles := st_euler_angles s; st_throttle := st_throttle s |}.
Definition set_propellant_mass (s : State N) (v : carrier N) : State N := {|
  st_time := st_time s; st_time_since_event := st_time_since_event s; st_position := st_position s; st_position_planet := st_position_planet s; st_altitude := st_altitude s; st_altitude_geopotential := st_altitude_geopotential s; st_velocity := st_velocity s; st_velocity_planet := st_velocity_planet s; st_velocity_atmosphere := st_velocity_atmosphere s; st_acceleration := st_acceleration s; st_thrust_force_body := st_thrust_force_body s; st_aero_force_body := st_aero_force_body s; st_vehicle_acceleration_body := st_vehicle_acceleration_body s; st_gravity_acceleration := st_gravity_acceleration s; st_mass := st_mass s; st_propellant_mass := v; st_massflow := st_massflow s; st_temperature := st_temperature s; st_pressure := st_pressure s; st_density := st_density s; st_mach_number := st_mach_number s; st_dynamic_pressure := st_dynamic_pressure s; st_alpha := st_alpha s; st_euler_angles := st_euler_angles s; st_throttle := st_throttle s |}.
Definition set_massflow (s : State N) (v : carrier N) : State N := {|
  st_time := st_time s; st_time_since_event := st_time_since_event s; st_position := st_position s; st_position_planet := st_position_planet s; st_altitude := st_altitude s; st_altitude_geopotential := st_altitude_geopotential s; st_velocity := st_velocity s; st_velocity_planet := st_velocity_planet s; st_velocity_atmosphere := st_velocity_atmosphere s; st_acceleration := st_acceleration s; st_thrust_force_body := st_thrust_force_body s; st_aero_force_body := st_aero_force_body s; st_vehicle_acceleration_body := st_vehicle_acceleration_body s; st_gravity_acceleration := st_gravity_acceleration s; st_mass := st_mass s; st_propellant_mass := st_propellant_mass s; st_massflow := v; st_temperature := st_temperature s; st_pressure := st_pressure s; st_density := st_density s; st_mach_number := st_mach_number s; st_dynamic_pressure := st_dynamic_pressure s; st_alpha := st_alpha s; st_euler_angles := st_euler_angles s; st_throttle := st_throttle s |}.
Definition set_temperature (s : State N) (v : carrier N) : State N := {|
  st_time := st_time s; st_time_since_event := st_time_since_event s; st_position := st_position s; st_position_planet := st_position_planet s; st_altitude := st_altitude s; st_altitude_geopotential := st_altitude_geopotential s; st_velocity := st_velocity s; st_velocity_planet := st_velocity_planet s; st_velocity_atmosphere := st_velocity_atmosphere s; st_acceleration := st_acceleration s; st_thrust_force_body := st_thrust_force_body s; st_aero_force_body := st_aero_force_body s; st_vehicle_acceleration_body := st_vehicle_acceleration_body s; st_gravity_acceleration := st_gravity_acceleration s; st_mass := st_mass s; st_propellant_mass := st_propellant_mass s; st_massflow := st_massflow s; st_temperature := v; st_pressure := st_pressure s; st_density := st_density s; st_mach_number := st_mach_number s; st_dynamic_pressure := st_dynamic_pressure s; st_alpha := st_alpha s; st_euler_angles := st_euler_angles s; st_throttle := st_throttle s |}.
Definition set_pressure (s : State N) (v : carrier N) : State N := {|
  st_time := st_time s; st_time_since_event := st_time_since_event s; st_position := st_position s; st_position_planet := st_position_planet s; st_altitude := st_altitude s; st_altitude_geopotential := st_altitude_geopotential s; st_velocity := st_velocity s; st_velocity_planet := st_velocity_planet s; st_velocity_atmosphere := st_velocity_atmosphere s; st_acceleration := st_acceleration s; st_thrust_force_body := st_thrust_force_body s; st_aero_force_body := st_aero_force_body s; st_vehicle_acceleration_body := st_vehicle_acceleration_body s; st_gravity_acceleration := st_gravity_acceleration s; st_mass := st_mass s; st_propellant_mass := st_propellant_mass s; st_massflow := st_massflow s; st_temperature := st_temperature s; st_pressure := v; st_density := st_density s; st_mach_number := st_mach_number s; st_dynamic_pressure := st_dynamic_pressure s; st_alpha := st_alpha s; st_euler_angles := st_euler_angles s; st_throttle := st_throttle s |}.
Definition set_density (s : State N) (v : carrier N) : State N := {|
  st_time := st_time s; st_time_since_event := st_time_since_event s; st_position := st_position s; st_position_planet := st_position_planet s; st_altitude := st_altitude s; st_altitude_geopotential := st_altitude_geopotential s; st_velocity := st_velocity s; st_velocity_planet := st_velocity_planet s; st_velocity_atmosphere := st_velocity_atmosphere s; st_acceleration := st_acceleration s; st_thrust_force_body := st_thrust_force_body s; st_aero_force_body := st_aero_force_body s; st_vehicle_acceleration_body := st_vehicle_acceleration_body s; st_gravity_acceleration := st_gravity_acceleration s; st_mass := st_mass s; st_propellant_mass := st_propellant_mass s; st_massflow := st_massflow s; st_temperature := st_temperature s; st_pressure := st_pressure s; st_density := v; st_mach_number := st_mach_number s; st_dynamic_pressure := st_dynamic_pressure s; st_alpha := st_alpha s; st_euler_angles := st_euler_angles s; st_throttle := st_throttle s |}.
Definition set_mach_number (s : State N) (v : carrier N) : State N := {|
  st_time := st_time s; st_time_since_event := st_time_since_event s; st_position := st_position s; st_position_planet := st_position_planet s; st_altitude := st_altitude s; st_altitude_geopotential := st_altitude_geopotential s; st_velocity := st_velocity s; st_velocity_planet := st_velocity_planet s; st_velocity_atmosphere := st_velocity_atmosphere s; st_acceleration := st_acceleration s; st_thrust_force_body := st_thrust_force_body s; st_aero_force_body := st_aero_force_body s; st_vehicle_acceleration_body := st_vehicle_acceleration_body s; st_gravity_acceleration := st_gravity_acceleration s; st_mass := st_mass s; st_propellant_mass := st_propellant_mass s; st_massflow := st_massflow s; st_temperature := st_temperature s; st_pressure := st_pressure s; st_density := st_density s; st_mach_number := v; st_dynamic_pressure := st_dynamic_pressure s; st_alpha := st_alpha s; st_euler_angles := st_euler_angles s; st_throttle := st_throttle s |}.
Definition set_dynamic_pressure (s : State N) (v : carrier N) : State N := {|
  st_time := st_time s; st_time_since_event := st_time_since_event s; st_position := st_position s; st_position_planet := st_position_planet s; st_altitude := st_altitude s; st_altitude_geopotential := st_altitude_geopotential s; st_velocity := st_velocity s; st_velocity_planet := st_velocity_planet s; st_velocity_atmosphere := st_velocity_atmosphere s; st_acceleration := st_acceleration s; st_thrust_force_body := st_thrust_force_body s; st_aero_force_body := st_aero_force_body s; st_vehicle_acceleration_body := st_vehicle_acceleration_body s; st_gravity_acceleration := st_gravity_acceleration s; st_mass := st_mass s; st_propellant_mass := st_propellant_mass s; st_massflow := st_massflow s; st_temperature := st_temperature s; st_pressure := st_pressure s; st_density := st_density s; st_mach_number := st_mach_number s; st_dynamic_pressure := v; st_alpha := st_alpha s; st_euler_angles := st_euler_angles s; st_throttle := st_throttle s |}.
Definition set_alpha (s : State N) (v : carrier N) : State N := {|
  st_time := st_time s; st_time_since_event := st_time_since_event s; st_position := st_position s; st_position_planet := st_position_planet s; st_altitude := st_altitude s; st_altitude_geopotential := st_altitude_geopotential s; st_velocity := st_velocity s; st_velocity_planet := st_velocity_planet s; st_velocity_atmosphere := st_velocity_atmosphere s; st_acceleration := st_acceleration s; st_thrust_force_body := st_thrust_force_body s; st_aero_force_body := st_aero_force_body s; st_vehicle_acceleration_body := st_vehicle_acceleration_body s; st_gravity_acceleration := st_gravity_acceleration s; st_mass := st_mass s; st_propellant_mass := st_propellant_mass s; st_massflow := st_massflow s; st_temperature := st_temperature s; st_pressure := st_pressure s; st_density := st_density s; st_mach_number := st_mach_number s; st_dynamic_pressure := st_dynamic_pressure s; st_alpha := v; st_euler_angles := st_euler_angles s; st_throttle := st_throttle s |}.
Definition set_euler_angles (s : State N) (v : vec3 N) : State N := {|
  st_time := st_time s; st_time_since_event := st_time_since_event s; st_position := st_position s; st_position_planet := st_position_planet s; st_altitude := st_altitude s; st_altitude_geopotential := st_altitude_geopotential s; st_velocity := st_velocity s; st_velocity_planet := st_velocity_planet s; st_velocity_atmosphere := st_velocity_atmosphere s; st_acceleration := st_acceleration s; st_thrust_force_body := st_thrust_force_body s; st_aero_force_body := st_aero_force_body s; st_vehicle_acceleration_body := st_vehicle_acceleration_body s; st_gravity_acceleration := st_gravity_acceleration s; st_mass := st_mass s; st_propellant_mass := st_propellant_mass s; st_massflow := st_massflow s; st_temperature := st_temperature s; st_pressure := st_pressure s; st_density := st_density s; st_mach_number := st_mach_number s; st_dynamic_pressure := st_dynamic_pressure s; st_alpha := st_alpha s; st_euler_angles := v; st_throttle := st_throttle s |}.
Definition set_throttle (s : State N) (v : carrier N) : State N := {|
  st_time := st_time s; st_time_since_event := st_time_since_event s; st_position := st_position s; st_position_planet := st_position_planet s; st_altitude := st_altitude s; st_altitude_geopotential := st_altitude_geopotential s; st_velocity := st_velocity s; st_velocity_planet := st_velocity_planet s; st_velocity_atmosphere := st_velocity_atmosphere s; st_acceleration := st_acceleration s; st_thrust_force_body := st_thrust_force_body s; st_aero_force_body := st_aero_force_body s; st_vehicle_acceleration_body := st_vehicle_acceleration_body s; st_gravity_acceleration := st_gravity_acceleration s; st_mass := st_mass s; st_propellant_mass := st_propellant_mass s; st_massflow := st_massflow s; st_temperature := st_temperature s; st_pressure := st_pressure s; st_density := st_density s; st_mach_number := st_mach_number s; st_dynamic_pressure := st_dynamic_pressure s; st_alpha := st_alpha s; st_euler_angles := st_euler_angles s; st_throttle := v |}.

(** [SVector<f64, 7>]: position, velocity, mass (or their rates). *)
Record vec7 := V7 { v7_pos : vec3 N; v7_vel : vec3 N; v7_mass : N }.
Definition v7_zero : vec7 := V7 vzero vzero #0.
Definition v7_add (a b : vec7) : vec7 :=
  V7 (vadd (v7_pos a) (v7_pos b)) (vadd (v7_vel a) (v7_vel b)) (v7_mass a + v7_mass b).
Definition v7_scale (k : N) (a : vec7) : vec7 :=
  V7 (vscale k (v7_pos a)) (vscale k (v7_vel a)) (k * v7_mass a).

(** state.rs:74-83, [State::from_vec]: everything else is default (zero). *)
Definition from_vec (t : N * N) (v : vec7) : State N :=
  set_mass (set_velocity (set_position (set_time_since_event (set_time default_state
    (fst t)) (snd t)) (v7_pos v)) (v7_vel v)) (v7_mass v).
(** state.rs:87-97, [State::to_differentials_vector]. *)
Definition to_differentials_vector (s : State N) : vec7 :=
  V7 (st_velocity s) (st_acceleration s) (st_massflow s).
(** state.rs:100-110, [State::to_primary_vec]. *)
Definition to_primary_vec (s : State N) : vec7 :=
  V7 (st_position s) (st_velocity s) (st_mass s).

(** state.rs:235-294, [StateVariable::get_value]. *)
Definition get_value (v : StateVariable) (s : State N) : N :=
  match v with
  | Time => st_time s
  | TimeSinceEvent => st_time_since_event s
  | Position1 => vx (st_position s)
  | Position2 => vy (st_position s)
  | Position3 => vz (st_position s)
  | PositionNorm => norm (st_position s)
  | PositionPlanet1 => vx (st_position_planet s)
  | PositionPlanet2 => vy (st_position_planet s)
  | PositionPlanet3 => vz (st_position_planet s)
  | Altitude => st_altitude s
  | AltitudeGeopotential => st_altitude_geopotential s
  | Velocity1 => vx (st_velocity s)
  | Velocity2 => vy (st_velocity s)
  | Velocity3 => vz (st_velocity s)
  | VelocityNorm => norm (st_velocity s)
  | VelocityPlanet1 => vx (st_velocity_planet s)
  | VelocityPlanet2 => vy (st_velocity_planet s)
  | VelocityPlanet3 => vz (st_velocity_planet s)
  | VelocityPlanetNorm => norm (st_velocity_planet s)
  | VelocityAtmosphere1 => vx (st_velocity_atmosphere s)
  | VelocityAtmosphere2 => vy (st_velocity_atmosphere s)
  | VelocityAtmosphere3 => vz (st_velocity_atmosphere s)
  | VelocityAtmosphereNorm => norm (st_velocity_atmosphere s)
  | Acceleration1 => vx (st_acceleration s)
  | Acceleration2 => vy (st_acceleration s)
  | Acceleration3 => vz (st_acceleration s)
  | AccelerationNorm => norm (st_acceleration s)
  | ThrustForceBody1 => vx (st_thrust_force_body s)
  | ThrustForceBody2 => vy (st_thrust_force_body s)
  | ThrustForceBody3 => vz (st_thrust_force_body s)
  | ThrustForceBodyNorm => norm (st_thrust_force_body s)
  | AeroForceBody1 => vx (st_aero_force_body s)
  | AeroForceBody2 => vy (st_aero_force_body s)
  | AeroForceBody3 => vz (st_aero_force_body s)
  | AeroForceBodyNorm => norm (st_aero_force_body s)
  | VehicleAccelerationBody1 => vx (st_vehicle_acceleration_body s)
  | VehicleAccelerationBody2 => vy (st_vehicle_acceleration_body s)
  | VehicleAccelerationBody3 => vz (st_vehicle_acceleration_body s)
  | VehicleAccelerationBodyNorm => norm (st_vehicle_acceleration_body s)
  | GravityAcceleration1 => vx (st_gravity_acceleration s)
  | GravityAcceleration2 => vy (st_gravity_acceleration s)
  | GravityAcceleration3 => vz (st_gravity_acceleration s)
  | GravityAccelerationNorm => norm (st_gravity_acceleration s)
  | Mass => st_mass s
  | PropellantMass => st_propellant_mass s
  | Massflow => st_massflow s
  | Temperature => st_temperature s
  | Pressure => st_pressure s
  | Density => st_density s
  | MachNumber => st_mach_number s
  | DynamicPressure => st_dynamic_pressure s
  | Alpha => st_alpha s
  | EulerAnglesRoll => vx (st_euler_angles s)
  | EulerAnglesYaw => vy (st_euler_angles s)
  | EulerAnglesPitch => vz (st_euler_angles s)
  | Throttle => st_throttle s
  end.
End WithNum.
Arguments vec7 : clear implicits.
Arguments V7 {N} _ _ _.

(** serde's [rename_all = "snake_case"] rule for enum variants
    (state.rs:116, config.rs:20, tables/mod.rs:117): an underscore before every
    upper-case letter except the first character, then lower case; digits are
    not separated. *)
Definition is_upper (c : ascii) : bool :=
  let n := nat_of_ascii c in (Nat.leb 65 n && Nat.leb n 90)%bool.
Definition to_lower (c : ascii) : ascii :=
  if is_upper c then ascii_of_nat (nat_of_ascii c + 32) else c.
Fixpoint snake_tail (s : string) : string :=
  match s with
  | EmptyString => EmptyString
  | String c r =>
      if is_upper c then String "_"%char (String (to_lower c) (snake_tail r))
      else String (to_lower c) (snake_tail r)
  end.
Definition snake_case (s : string) : string :=
  match s with
  | EmptyString => EmptyString
  | String c r => String (to_lower c) (snake_tail r)
  end.

(** The names accepted for [StateVariable] in a configuration. *)
Definition variable_of_name (n : string) : option StateVariable :=
  option_map fst (find (fun p => String.eqb (snake_case (snd p)) n) all_variables).
