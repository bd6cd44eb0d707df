(** * Planet

    Models /repo/sim/src/planet.rs. *)
From Coq Require Import ZArith List.
From Verif Require Import Num Constants State Tables Config.
Import ListNotations.
Set Implicit Arguments.
Set Contextual Implicit.

(** planet.rs:17-27, [struct Planet]; the array [gravitational_parameters]
    (mu, J2, J3, J4) is a nested tuple. *)
Record Planet (N : Num) := mkPlanet {
  pl_equatorial_radius : N;
  pl_polar_radius : N;
  pl_gravitational_parameters : N * N * N * N;
  pl_rotation_rate : N }.

Section WithNum.
Context {N : Num}.
Local Open Scope num_scope.

(** [gravitational_parameters[i]] *)
Definition gp0 (p : Planet N) : N := let '(a, _, _, _) := pl_gravitational_parameters p in a.
Definition gp1 (p : Planet N) : N := let '(_, a, _, _) := pl_gravitational_parameters p in a.
Definition gp2 (p : Planet N) : N := let '(_, _, a, _) := pl_gravitational_parameters p in a.
Definition gp3 (p : Planet N) : N := let '(_, _, _, a) := pl_gravitational_parameters p in a.

(** planet.rs:61-66 *)
Definition EARTH_SPHERICAL : Planet N := {|
  pl_equatorial_radius := n_lit 20925741 0 * METER_PER_FOOT;
  pl_polar_radius := n_lit 20925741 0 * METER_PER_FOOT;
  pl_gravitational_parameters :=
    (n_lit 14076539 9 * CUBIC_METER_PER_CUBIC_FOOT, #0, #0, #0);
  pl_rotation_rate := n_lit 729211 (-10) |}.

(** planet.rs:72-77 *)
Definition EARTH_FISHER_1960 : Planet N := {|
  pl_equatorial_radius := n_lit 20925741 0 * METER_PER_FOOT;
  pl_polar_radius := n_lit 20855590 0 * METER_PER_FOOT;
  pl_gravitational_parameters :=
    (n_lit 14076539 9 * CUBIC_METER_PER_CUBIC_FOOT, n_lit 10823 (-7), #0, #0);
  pl_rotation_rate := n_lit 729211 (-10) |}.

(** planet.rs:83-93 *)
Definition EARTH_SMITHSONIAN : Planet N := {|
  pl_equatorial_radius := n_lit 20925741 0 * METER_PER_FOOT;
  pl_polar_radius := n_lit 20855590 0 * METER_PER_FOOT;
  pl_gravitational_parameters :=
    (n_lit 1407645794 7 * CUBIC_METER_PER_CUBIC_FOOT, n_lit 1082639 (-9),
     - n_lit 2565 (-9), - n_lit 1608 (-9));
  pl_rotation_rate := n_lit 729211 (-10) |}.

(** planet.rs:29-33 *)
Definition default_planet : Planet N := EARTH_SPHERICAL.

(** planet.rs:37-54, [Planet::update_with_config]. *)
Definition planet_update_with_config (config : PlanetConfig N) : Planet N :=
  match config with
  | Spherical => EARTH_SPHERICAL
  | Fisher1960 => EARTH_FISHER_1960
  | Smithsonian => EARTH_SMITHSONIAN
  | Custom re rp g w => mkPlanet re rp g w
  end.

(** planet.rs:97-106, [Planet::altitude]. *)
Definition altitude (self : Planet N) (position : vec3 N) : N :=
  let k := powi (pl_equatorial_radius self / pl_polar_radius self) 2 in
  let geocentric_lat := n_asin (vz position / norm position) in
  let distance_to_surface :=
    pl_equatorial_radius self
      / n_sqrt (#1 + (k - #1) * powi (n_sin geocentric_lat) 2) in
  norm position - distance_to_surface.

(** planet.rs:110-114, [Planet::geopotential_altitude]. *)
Definition geopotential_altitude (self : Planet N) (position : vec3 N) : N :=
  let alt := altitude self position in
  let avg_altitude := n_lit 5 (-1) * (pl_equatorial_radius self + pl_polar_radius self) in
  avg_altitude * alt / (avg_altitude + alt).

(** planet.rs:117-119, [Planet::velocity_planet]. *)
Definition velocity_planet (self : Planet N) (position velocity : vec3 N) : vec3 N :=
  vsub velocity (vcross (V3 #0 #0 (pl_rotation_rate self)) position).

(** planet.rs:122-124, [Planet::mu]. *)
Definition mu (self : Planet N) : N := gp0 self.

(** planet.rs:129-152, [Planet::gravity]. *)
Definition gravity (self : Planet N) (position : vec3 N) : vec3 N :=
  let r := norm position in
  let R := pl_equatorial_radius self / r in
  let Z := vz position / r in
  let J := #3 / #2 * gp1 self in
  let H := #5 / #2 * gp2 self in
  let D := (- #35) / #8 * gp3 self in
  let P := #1
    + J * powi R 2 * (#1 - #5 * powi Z 2)
    + H * powi R 3 / r * (#3 - #7 * powi Z 2) * vz position
    + D * powi R 4 * (#9 * powi Z 4 - #6 * powi Z 2 + #3 / #7) in
  V3
    (- mu self * vx position / powi r 3 * P)
    (- mu self * vy position / powi r 3 * P)
    (- mu self / powi r 3
       * ((#1 + J * powi R 2 * (#3 - #5 * powi Z 2)) * vz position
          + H * powi R 3 / r
              * (#6 * powi (vz position) 2
                 - #7 * powi (vz position) 2 * powi Z 2
                 - #3 / #5 * powi r 2)
          + D * powi R 4 * (#15 / #7 - #10 * powi Z 2 + #9 * powi Z 4) * vz position)).

End WithNum.
