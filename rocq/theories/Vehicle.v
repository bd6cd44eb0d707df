(** * Vehicle

    Models /repo/sim/src/vehicle.rs. *)
From Coq Require Import ZArith List.
From Verif Require Import Num Constants State Tables Config.
Import ListNotations.
Set Implicit Arguments.
Set Contextual Implicit.

(** vehicle.rs:56-71, [struct Vehicle]. *)
Record Vehicle (N : Num) := mkVehicle {
  ve_structure_mass : N;
  ve_initial_propellant_mass : N;
  ve_reference_area : N;
  ve_drag_coeff : Table N;
  ve_lift_coeff : Table N;
  ve_side_force_coeff : Table N;
  ve_engines : list (Engine N) }.

Section WithNum.
Context {N : Num}.
Local Open Scope num_scope.

(** vehicle.rs:22-49, [side_side_angle]. *)
Definition side_side_angle (a b alpha : N) : option N :=
  if alpha =? #0 then
    if b >? a then Some (b - a) else Some (a + b)
  else if alpha =? n_pi then Some (a - b)
  else if n_sin alpha * b >? a then None
  else
    let beta := n_asin (n_sin alpha * b / a) in
    let beta := if b >? a then n_pi - beta else beta in
    let gamma := n_pi - beta - alpha in
    Some (a * n_sin gamma / n_sin alpha).

(** vehicle.rs:55, [#[derive(Default)]]. *)
Definition default_vehicle : Vehicle N :=
  mkVehicle #0 #0 #0 default_table default_table default_table [].

(** [if let Some(c) = config { self.f = c }] *)
Definition over {A} (config : option A) (old : A) : A :=
  match config with Some c => c | None => old end.
(** vehicle.rs:75-97, [Vehicle::update_with_config]: seven independent
    conditional field assignments. *)
Definition vehicle_update_with_config (self : Vehicle N) (config : VehicleConfig N)
    : Vehicle N :=
  mkVehicle
    (over (vc_structure_mass config) (ve_structure_mass self))
    (over (vc_propellant_mass config) (ve_initial_propellant_mass self))
    (over (vc_reference_area config) (ve_reference_area self))
    (over (vc_drag_coeff config) (ve_drag_coeff self))
    (over (vc_lift_coeff config) (ve_lift_coeff self))
    (over (vc_side_force_coeff config) (ve_side_force_coeff self))
    (over (vc_engines config) (ve_engines self)).

(** vehicle.rs:103-112, [Vehicle::alpha]. *)
Definition alpha (velocity : vec3 N) : N :=
  if vx velocity <? NEARLY_ZERO then
    if vz velocity <? NEARLY_ZERO then #0
    else n_signum (vz velocity) * n_pi / #2
  else n_atan (vz velocity / vx velocity).

(** vehicle.rs:218-224, [Engine::thrust]; [incidence] = (pitch, yaw). *)
Definition engine_thrust (self : Engine N) (pressure_atmos : N) : vec3 N :=
  let pitch := fst (en_incidence self) in
  let yaw := snd (en_incidence self) in
  vscale_r (V3 (n_cos yaw * n_cos pitch) (n_sin yaw) (n_cos yaw * n_sin pitch))
           (en_thrust_vac self - en_exit_area self * pressure_atmos).

(** vehicle.rs:227-229, [Engine::massflow]. *)
Definition engine_massflow (self : Engine N) : N :=
  - en_thrust_vac self / en_isp_vac self / STD_GRAVITY.

(** vehicle.rs:118-125, [Vehicle::thrust_force]. *)
Definition thrust_force (self : Vehicle N) (throttle pressure_atmos : N) : vec3 N :=
  vscale throttle (vsum (map (fun eng => engine_thrust eng pressure_atmos) (ve_engines self))).

(** vehicle.rs:130-132, [Vehicle::massflow]. *)
Definition massflow (self : Vehicle N) (throttle : N) : N :=
  throttle * sum (map (fun eng => engine_massflow eng) (ve_engines self)).

(** vehicle.rs:148-173, [Vehicle::auto_throttle]. *)
Definition auto_throttle (self : Vehicle N) (max_acceleration mass pressure_atmos : N)
    (aero : vec3 N) : N :=
  let max_thrust := thrust_force self #1 pressure_atmos in
  if veqb max_thrust vzero then #1
  else
    let angle := n_pi - vangle aero max_thrust in
    match side_side_angle (max_acceleration * mass) (norm aero) angle with
    | Some req_thrust => clamp (req_thrust / norm max_thrust) #0 #1
    | None => #1
    end.

(** vehicle.rs:191-194: [filter(is_nan).for_each(|i| *i = 0.)]. *)
Definition nan_to_zero (x : N) : N := if n_isnan x then #0 else x.

(** vehicle.rs:180-197, [Vehicle::aero_force]. *)
Definition aero_force (self : Vehicle N) (s : State N) : outcome (vec3 N) :=
  let* cd := at_state (ve_drag_coeff self) s in
  let* cl := at_state (ve_lift_coeff self) s in
  let* cy := at_state (ve_side_force_coeff self) s in
  let ca := n_cos (st_alpha s) * cd - n_sin (st_alpha s) * cl in
  let cn := n_sin (st_alpha s) * cd + n_cos (st_alpha s) * cl in
  let f := vscale (st_dynamic_pressure s * ve_reference_area self) (V3 (- ca) cy (- cn)) in
  Ret (V3 (nan_to_zero (vx f)) (nan_to_zero (vy f)) (nan_to_zero (vz f))).

End WithNum.
