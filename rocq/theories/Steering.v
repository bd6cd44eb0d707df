(** * Steering

    Models /repo/sim/src/steering.rs. *)
From Coq Require Import ZArith List.
From Verif Require Import Num State Tables Config.
Import ListNotations.
Set Implicit Arguments.
Set Contextual Implicit.

(** One axis: the state variable, the coefficient c0 and c1..c3 (the Rust array
    [[f64; 4]]). *)
Record axis (N : Num) := mkAxis {
  ax_var : StateVariable;
  ax_c0 : N;
  ax_c : vec3 N }.
(** steering.rs:15-22, [struct Steering]. *)
Record Steering (N : Num) := mkSteering {
  sg_roll : axis N;
  sg_yaw : axis N;
  sg_pitch : axis N }.

Section WithNum.
Context {N : Num}.
Local Open Scope num_scope.

(** steering.rs:14, [#[derive(Default)]]; the default variable is [Time]. *)
Definition default_axis : axis N := mkAxis Time #0 vzero.
Definition default_steering : Steering N := mkSteering default_axis default_axis default_axis.

(** steering.rs:31-34: sets the variable and the last three coefficients. *)
Definition axis_update (self : axis N) (config : option (StateVariable * vec3 N)) : axis N :=
  match config with
  | Some c => mkAxis (fst c) (ax_c0 self) (snd c)
  | None => self
  end.
(** steering.rs:30-43, [Steering::update_with_config]. *)
Definition steering_update_with_config (self : Steering N) (config : SteeringConfig N)
    : Steering N :=
  mkSteering (axis_update (sg_roll self) (sc_roll config))
             (axis_update (sg_yaw self) (sc_yaw config))
             (axis_update (sg_pitch self) (sc_pitch config)).

(** steering.rs:48: assignment to [coeffs[0]]. *)
Definition axis_init (self : axis N) (angle : N) : axis N :=
  mkAxis (ax_var self) (to_degrees angle) (ax_c self).
(** steering.rs:47-53, [Steering::init]. *)
Definition steering_init (self : Steering N) (euler_angles : vec3 N) : Steering N :=
  mkSteering (axis_init (sg_roll self) (vx euler_angles))
             (axis_init (sg_yaw self) (vy euler_angles))
             (axis_init (sg_pitch self) (vz euler_angles)).

(** steering.rs:59-65, [Steering::calc_coeff]. *)
Definition calc_coeff (var : N) (a : axis N) : N :=
  sum [ax_c0 a * powi var 0; vx (ax_c a) * powi var 1;
       vy (ax_c a) * powi var 2; vz (ax_c a) * powi var 3].

(** steering.rs:70-76, [Steering::euler_angles]. *)
Definition steering_euler_angles (self : Steering N) (s : State N) : vec3 N :=
  V3 (to_radians (calc_coeff (get_value (ax_var (sg_roll self)) s) (sg_roll self)))
     (to_radians (calc_coeff (get_value (ax_var (sg_yaw self)) s) (sg_yaw self)))
     (to_radians (calc_coeff (get_value (ax_var (sg_pitch self)) s) (sg_pitch self))).

End WithNum.
