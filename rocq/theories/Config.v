(** * Configuration records

    Models the types of /repo/sim/src/config.rs (their decoding from JSON is in
    Json.v) and [struct Engine] of /repo/sim/src/vehicle.rs. *)
From Coq Require Import ZArith List.
From Verif Require Import Num State Tables.
Import ListNotations.
Set Implicit Arguments.
Set Contextual Implicit.

(** vehicle.rs:203-213, [struct Engine]; the array [incidence] (pitch, yaw) is
    a pair. *)
Record Engine (N : Num) := mkEngine {
  en_incidence : N * N;
  en_thrust_vac : N;
  en_isp_vac : N;
  en_exit_area : N }.

(** config.rs:21-40, [enum PlanetConfig]; [[f64; 4]] is a nested tuple. *)
Inductive PlanetConfig (N : Num) :=
| Spherical
| Fisher1960
| Smithsonian
| Custom (equatorial_radius polar_radius : N)
         (gravitational_parameters : N * N * N * N) (rotation_rate : N).
Arguments Spherical {N}.
Arguments Fisher1960 {N}.
Arguments Smithsonian {N}.
Arguments Custom {N} _ _ _ _.

(** config.rs:47-52, [struct AtmosphereConfig]. *)
Record AtmosphereConfig (N : Num) := mkAtmosphereConfig {
  ac_enabled : option bool;
  ac_wind : option (vec3 N) }.

(** config.rs:59-69, [struct InitConfig]. *)
Record InitConfig (N : Num) := mkInitConfig {
  ic_latitude : N;
  ic_longitude : N;
  ic_azimuth : N;
  ic_altitude : N }.

(** config.rs:76-93, [struct VehicleConfig]. *)
Record VehicleConfig (N : Num) := mkVehicleConfig {
  vc_structure_mass : option N;
  vc_propellant_mass : option N;
  vc_reference_area : option N;
  vc_drag_coeff : option (Table N);
  vc_lift_coeff : option (Table N);
  vc_side_force_coeff : option (Table N);
  vc_engines : option (list (Engine N)) }.

(** config.rs:105-112, [struct SteeringConfig]; [[f64; 3]] is a [vec3]. *)
Record SteeringConfig (N : Num) := mkSteeringConfig {
  sc_roll : option (StateVariable * vec3 N);
  sc_yaw : option (StateVariable * vec3 N);
  sc_pitch : option (StateVariable * vec3 N) }.

(** config.rs:119-136, [struct PhaseConfig]. *)
Record PhaseConfig (N : Num) := mkPhaseConfig {
  pc_init : option (InitConfig N);
  pc_vehicle : option (VehicleConfig N);
  pc_steering : option (SteeringConfig N);
  pc_planet_model : option (PlanetConfig N);
  pc_atmosphere : option (AtmosphereConfig N);
  pc_max_acceleration : option N;
  pc_stepsize : option N;
  pc_end_criterion : option (StateVariable * N) }.
