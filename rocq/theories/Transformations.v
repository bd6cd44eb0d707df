(** * Coordinate transformations

    Models /repo/sim/src/transformations.rs.  [Rotation3::from_matrix] is the
    external operation [n_rot]. *)
From Coq Require Import ZArith List.
From Verif Require Import Num.
Import ListNotations.
Set Implicit Arguments.
Set Contextual Implicit.

Section WithNum.
Context {N : Num}.
Local Open Scope num_scope.

(** transformations.rs:13-19, the matrix of [inertial_to_launch]. *)
Definition inertial_to_launch_matrix (lat long az : N) : mat3 N :=
  M3
    (V3 (n_cos lat * n_cos long) (n_cos lat * n_sin long) (n_sin lat))
    (V3 (n_sin lat * n_cos long * n_sin az - n_cos az * n_sin long)
        (n_cos az * n_cos long + n_sin az * n_sin lat * n_sin long)
        (- n_sin az * n_cos lat))
    (V3 (- n_sin az * n_sin long - n_cos az * n_sin lat * n_cos long)
        (n_sin az * n_cos long - n_cos az * n_sin lat * n_sin long)
        (n_cos az * n_cos lat)).
(** transformations.rs:13-19, [inertial_to_launch]. *)
Definition inertial_to_launch (lat long az : N) : mat3 N :=
  n_rot (inertial_to_launch_matrix lat long az).

(** transformations.rs:24-30, the matrix of [launch_to_body]. *)
Definition launch_to_body_matrix (roll yaw pitch : N) : mat3 N :=
  M3
    (V3 (n_cos yaw * n_cos pitch)
        (n_cos roll * n_sin yaw * n_cos pitch + n_sin roll * n_sin pitch)
        (n_sin roll * n_sin yaw * n_cos pitch - n_cos roll * n_sin pitch))
    (V3 (- n_sin yaw) (n_cos roll * n_cos yaw) (n_sin roll * n_cos yaw))
    (V3 (n_cos yaw * n_sin pitch)
        (n_cos roll * n_sin yaw * n_sin pitch - n_sin roll * n_cos pitch)
        (n_sin roll * n_sin yaw * n_sin pitch + n_cos roll * n_cos pitch)).
(** transformations.rs:24-30, [launch_to_body]. *)
Definition launch_to_body (roll yaw pitch : N) : mat3 N :=
  n_rot (launch_to_body_matrix roll yaw pitch).

(** transformations.rs:38-41, [inertial_to_body]. *)
Definition inertial_to_body (launch euler_angles : vec3 N) : mat3 N :=
  mulm (launch_to_body (vx euler_angles) (vy euler_angles) (vz euler_angles))
       (inertial_to_launch (vx launch) (vy launch) (vz launch)).

(** transformations.rs:48-54, the matrix of [inertial_to_planet]. *)
Definition inertial_to_planet_matrix (time rotation_rate : N) : mat3 N :=
  M3
    (V3 (n_cos (rotation_rate * time)) (n_sin (rotation_rate * time)) #0)
    (V3 (- n_sin (rotation_rate * time)) (n_cos (rotation_rate * time)) #0)
    (V3 #0 #0 #1).
(** transformations.rs:48-54, [inertial_to_planet]. *)
Definition inertial_to_planet (time rotation_rate : N) : mat3 N :=
  n_rot (inertial_to_planet_matrix time rotation_rate).

End WithNum.
