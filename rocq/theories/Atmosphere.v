(** * Atmosphere

    Models /repo/sim/src/atmosphere/mod.rs and
    /repo/sim/src/atmosphere/standard_atmosphere_1962.rs. *)
From Coq Require Import ZArith List.
From Verif Require Import Num Constants State Tables Config.
Import ListNotations.
Set Implicit Arguments.
Set Contextual Implicit.

(** atmosphere/mod.rs:34-42, [enum AtmosphereModel]. *)
Inductive AtmosphereModel := NoAtmosphere | StandardAtmosphere1962.

(** atmosphere/mod.rs:23-28, [struct Atmosphere]. *)
Record Atmosphere (N : Num) := mkAtmosphere {
  at_wind : vec3 N;
  at_model : AtmosphereModel }.

Section WithNum.
Context {N : Num}.
Local Open Scope num_scope.

(** A row of the table: H_B, P_B, T_B, L_B. *)
Definition row : Type := N * N * N * N.
Definition row_alt (r : row) : N := let '(h, _, _, _) := r in h.

(** standard_atmosphere_1962.rs:77-211, [STD_ATMOS_TABLE]. *)
Definition STD_ATMOS_TABLE : list row := [
   (#0 * METER_PER_FOOT, (n_lit 21162166 (-4)) * PASCAL_PER_PSF,
    (n_lit 51867 (-2)) * KELVIN_PER_RANKIN, (- (n_lit 356616 (-8))) * KELVIN_PER_RANKIN / METER_PER_FOOT);
   ((n_lit 36089239 (-3)) * METER_PER_FOOT, (n_lit 4726805 (-4)) * PASCAL_PER_PSF,
    (n_lit 38997 (-2)) * KELVIN_PER_RANKIN, #0 * KELVIN_PER_RANKIN / METER_PER_FOOT);
   ((n_lit 65616797 (-3)) * METER_PER_FOOT, (n_lit 11434543 (-5)) * PASCAL_PER_PSF,
    (n_lit 38997 (-2)) * KELVIN_PER_RANKIN, (n_lit 54863995 (-11)) * KELVIN_PER_RANKIN / METER_PER_FOOT);
   ((n_lit 10498687 (-2)) * METER_PER_FOOT, (n_lit 18128948 (-6)) * PASCAL_PER_PSF,
    (n_lit 41157 (-2)) * KELVIN_PER_RANKIN, (n_lit 1536192 (-9)) * KELVIN_PER_RANKIN / METER_PER_FOOT);
   ((n_lit 15419948 (-2)) * METER_PER_FOOT, (n_lit 23163263 (-7)) * PASCAL_PER_PSF,
    (n_lit 48717 (-2)) * KELVIN_PER_RANKIN, #0 * KELVIN_PER_RANKIN / METER_PER_FOOT);
   ((n_lit 17060368 (-2)) * METER_PER_FOOT, (n_lit 12322603 (-7)) * PASCAL_PER_PSF,
    (n_lit 48717 (-2)) * KELVIN_PER_RANKIN, (- (n_lit 10972801 (-10))) * KELVIN_PER_RANKIN / METER_PER_FOOT);
   ((n_lit 20013123 (-2)) * METER_PER_FOOT, (n_lit 38032532 (-8)) * PASCAL_PER_PSF,
    (n_lit 45477 (-2)) * KELVIN_PER_RANKIN, (- (n_lit 219456 (-8))) * KELVIN_PER_RANKIN / METER_PER_FOOT);
   ((n_lit 25918635 (-2)) * METER_PER_FOOT, (n_lit 21673064 (-9)) * PASCAL_PER_PSF,
    (n_lit 32517 (-2)) * KELVIN_PER_RANKIN, #0 * KELVIN_PER_RANKIN / METER_PER_FOOT);
   ((n_lit 29115157 (-2)) * METER_PER_FOOT, (n_lit 34333824 (-10)) * PASCAL_PER_PSF,
    (n_lit 32517 (-2)) * KELVIN_PER_RANKIN, (n_lit 1695385 (-9)) * KELVIN_PER_RANKIN / METER_PER_FOOT);
   ((n_lit 32300274 (-2)) * METER_PER_FOOT, (n_lit 62814785 (-11)) * PASCAL_PER_PSF,
    (n_lit 37917 (-2)) * KELVIN_PER_RANKIN, (n_lit 28345707 (-10)) * KELVIN_PER_RANKIN / METER_PER_FOOT);
   ((n_lit 35475359 (-2)) * METER_PER_FOOT, (n_lit 15361733 (-11)) * PASCAL_PER_PSF,
    (n_lit 46917 (-2)) * KELVIN_PER_RANKIN, (n_lit 56867005 (-10)) * KELVIN_PER_RANKIN / METER_PER_FOOT);
   ((n_lit 39640639 (-2)) * METER_PER_FOOT, (n_lit 52676024 (-12)) * PASCAL_PER_PSF,
    (n_lit 64917 (-2)) * KELVIN_PER_RANKIN, (n_lit 11443751 (-9)) * KELVIN_PER_RANKIN / METER_PER_FOOT);
   ((n_lit 48078104 (-2)) * METER_PER_FOOT, (n_lit 10566108 (-12)) * PASCAL_PER_PSF,
    (n_lit 172917 (-2)) * KELVIN_PER_RANKIN, (n_lit 86358208 (-10)) * KELVIN_PER_RANKIN / METER_PER_FOOT);
   ((n_lit 51204616 (-2)) * METER_PER_FOOT, (n_lit 77263469 (-13)) * PASCAL_PER_PSF,
    (n_lit 199917 (-2)) * KELVIN_PER_RANKIN, (n_lit 57749093 (-10)) * KELVIN_PER_RANKIN / METER_PER_FOOT);
   ((n_lit 54321548 (-2)) * METER_PER_FOOT, (n_lit 58405376 (-13)) * PASCAL_PER_PSF,
    (n_lit 217917 (-2)) * KELVIN_PER_RANKIN, (n_lit 40610461 (-10)) * KELVIN_PER_RANKIN / METER_PER_FOOT);
   ((n_lit 60526845 (-2)) * METER_PER_FOOT, (n_lit 3524603 (-12)) * PASCAL_PER_PSF,
    (n_lit 243117 (-2)) * KELVIN_PER_RANKIN, (n_lit 29274135 (-10)) * KELVIN_PER_RANKIN / METER_PER_FOOT);
   ((n_lit 72824391 (-2)) * METER_PER_FOOT, (n_lit 14559124 (-13)) * PASCAL_PER_PSF,
    (n_lit 279117 (-2)) * KELVIN_PER_RANKIN, (n_lit 23812804 (-10)) * KELVIN_PER_RANKIN / METER_PER_FOOT);
   ((n_lit 93989474 (-2)) * METER_PER_FOOT, (n_lit 39418091 (-14)) * PASCAL_PER_PSF,
    (n_lit 329517 (-2)) * KELVIN_PER_RANKIN, (n_lit 201526 (-8)) * KELVIN_PER_RANKIN / METER_PER_FOOT);
   ((n_lit 12346457 (-1)) * METER_PER_FOOT, (n_lit 84380249 (-15)) * PASCAL_PER_PSF,
    (n_lit 388917 (-2)) * KELVIN_PER_RANKIN, (n_lit 16354849 (-10)) * KELVIN_PER_RANKIN / METER_PER_FOOT);
   ((n_lit 15207994 (-1)) * METER_PER_FOOT, (n_lit 22945543 (-15)) * PASCAL_PER_PSF,
    (n_lit 435717 (-2)) * KELVIN_PER_RANKIN, (n_lit 11010085 (-10)) * KELVIN_PER_RANKIN / METER_PER_FOOT);
   ((n_lit 17987264 (-1)) * METER_PER_FOOT, (n_lit 72259271 (-16)) * PASCAL_PER_PSF,
    (n_lit 466317 (-2)) * KELVIN_PER_RANKIN, (n_lit 73319725 (-11)) * KELVIN_PER_RANKIN / METER_PER_FOOT);
   ((n_lit 20687765 (-1)) * METER_PER_FOOT, (n_lit 24958752 (-16)) * PASCAL_PER_PSF,
    (n_lit 486117 (-2)) * KELVIN_PER_RANKIN, #0 * KELVIN_PER_RANKIN / METER_PER_FOOT)].

(** standard_atmosphere_1962.rs:65-72, [get_table_row]: the loop over
    [i in 1..len] with an early return, then the last row. *)
Fixpoint get_table_row_loop (alt : N) (table : list row) (fuel i : nat) : outcome row :=
  match fuel with
  | O => let* n := usize_sub (length table) 1 in index table n
  | S fuel =>
      if (i <? length table)%nat then
        let* ri := index table i in
        if row_alt ri >? alt then
          let* j := usize_sub i 1 in index table j
        else get_table_row_loop alt table fuel (S i)
      else let* n := usize_sub (length table) 1 in index table n
  end.
Definition get_table_row (geopotential_alt : N) : outcome row :=
  get_table_row_loop geopotential_alt STD_ATMOS_TABLE (length STD_ATMOS_TABLE) 1.

(** standard_atmosphere_1962.rs:15-19, [temperature]. *)
Definition sa_temperature (alt : N) : outcome N :=
  let* r := get_table_row alt in
  let '(base_altitude, _, base_temperature, base_temp_gradient) := r : row in
  Ret (base_temperature + base_temp_gradient * (alt - base_altitude)).

(** standard_atmosphere_1962.rs:31-43, [pressure]. *)
Definition sa_pressure (alt : N) : outcome N :=
  let* r := get_table_row alt in
  let '(base_altitude, base_pressure, base_temperature, base_temp_gradient) := r : row in
  let* temperature := sa_temperature alt in
  if negb (base_temp_gradient =? #0) then
    Ret (base_pressure
         * n_powf (base_temperature / temperature)
                  (STD_GRAVITY / AIR_GAS_CONSTANT / base_temp_gradient))
  else
    Ret (base_pressure
         * n_exp (- (STD_GRAVITY / AIR_GAS_CONSTANT) * (alt - base_altitude)
                  / base_temperature)).

(** standard_atmosphere_1962.rs:49-53, [density]. *)
Definition sa_density (alt : N) : outcome N :=
  let* temperature := sa_temperature alt in
  let* pressure := sa_pressure alt in
  Ret (pressure / (temperature * AIR_GAS_CONSTANT)).

(** standard_atmosphere_1962.rs:58-61, [speed_of_sound]. *)
Definition sa_speed_of_sound (alt : N) : outcome N :=
  let* temperature := sa_temperature alt in
  Ret (n_sqrt (AIR_KAPPA * AIR_GAS_CONSTANT * temperature)).

(** atmosphere/mod.rs:22, [#[derive(Default)]]. *)
Definition default_atmosphere : Atmosphere N := mkAtmosphere vzero NoAtmosphere.

(** atmosphere/mod.rs:46-57, [Atmosphere::update_with_config]. *)
Definition atmosphere_update_with_config (self : Atmosphere N) (config : AtmosphereConfig N)
    : Atmosphere N :=
  let self :=
    match ac_enabled config with
    | Some c =>
        if c then mkAtmosphere (at_wind self) StandardAtmosphere1962
        else mkAtmosphere (at_wind self) NoAtmosphere
    | None => self
    end in
  match ac_wind config with
  | Some w => mkAtmosphere w (at_model self)
  | None => self
  end.

(** atmosphere/mod.rs:64-71 *)
Definition at_temperature (self : Atmosphere N) (s : State N) : outcome N :=
  match at_model self with
  | StandardAtmosphere1962 => sa_temperature (st_altitude_geopotential s)
  | NoAtmosphere => Ret #0
  end.
(** atmosphere/mod.rs:76-83 *)
Definition at_pressure (self : Atmosphere N) (s : State N) : outcome N :=
  match at_model self with
  | StandardAtmosphere1962 => sa_pressure (st_altitude_geopotential s)
  | NoAtmosphere => Ret #0
  end.
(** atmosphere/mod.rs:88-95 *)
Definition at_density (self : Atmosphere N) (s : State N) : outcome N :=
  match at_model self with
  | StandardAtmosphere1962 => sa_density (st_altitude_geopotential s)
  | NoAtmosphere => Ret #0
  end.
(** atmosphere/mod.rs:100-107 *)
Definition at_speed_of_sound (self : Atmosphere N) (s : State N) : outcome N :=
  match at_model self with
  | StandardAtmosphere1962 => sa_speed_of_sound (st_altitude_geopotential s)
  | NoAtmosphere => Ret #0
  end.
(** atmosphere/mod.rs:113-115 *)
Definition at_mach_number (self : Atmosphere N) (s : State N) : outcome N :=
  let* a := at_speed_of_sound self s in
  Ret (norm (st_velocity_atmosphere s) / a).
(** atmosphere/mod.rs:121-123 *)
Definition at_dynamic_pressure (self : Atmosphere N) (s : State N) : N :=
  n_lit 5 (-1) * st_density s * powi (norm (st_velocity_atmosphere s)) 2.
(** atmosphere/mod.rs:129-131 *)
Definition at_velocity_atmosphere (self : Atmosphere N) (s : State N) : vec3 N :=
  vsub (st_velocity_planet s) (at_wind self).

End WithNum.
