(** * C66: east and west are mirror images *)
From Coq Require Import ZArith List Reals Lra Lia Bool Classical_Prop.
From Verif Require Import Num Constants State Tables Config Planet Atmosphere Transformations
  Steering Vehicle RungeKutta Phase Simulation XR XRFacts SpecReal SystemFacts RKFacts RunFacts PhaseNew
  Prop_Run SystemTotal TablesFacts Prop_Tables Prop_Panics Prop_Time Prop_Planet Prop_Gravity Prop_Frames Prop_Atmosphere Prop_Interp Prop_Aero
  Prop_Throttle Prop_Steering Prop_Limit Prop_Real Prop_RealSim Prop_Longitude Prop_Mirror.
Import ListNotations.
Local Open Scope R_scope.

(** ** Specification *)
(** Variables that are the same on both sides of the plane of the prime meridian: all but the second component of
    vectors - across that plane in the inertial and the planet frame, lateral in the body frame - and the roll and
    yaw angles. *)
Definition centred (v : StateVariable) : bool :=
  match v with
  | Position2 | PositionPlanet2 | Velocity2 | VelocityPlanet2 | VelocityAtmosphere2 | Acceleration2
  | GravityAcceleration2 | ThrustForceBody2 | AeroForceBody2 | VehicleAccelerationBody2
  | EulerAnglesRoll | EulerAnglesYaw => false
  | _ => true
  end.

Section Exact.
Context {rot : mat3 xr -> mat3 xr}.
Notation N := (XR rot).

(** The mirror image of a state. *)
Record reflected (s s' : State N) : Prop := {
  rf_time : st_time s' = st_time s;
  rf_time_since_event : st_time_since_event s' = st_time_since_event s;
  rf_position : st_position s' = left_right (st_position s);
  rf_position_planet : st_position_planet s' = left_right (st_position_planet s);
  rf_altitude : st_altitude s' = st_altitude s;
  rf_altitude_geopotential : st_altitude_geopotential s' = st_altitude_geopotential s;
  rf_velocity : st_velocity s' = left_right (st_velocity s);
  rf_velocity_planet : st_velocity_planet s' = left_right (st_velocity_planet s);
  rf_velocity_atmosphere : st_velocity_atmosphere s' = left_right (st_velocity_atmosphere s);
  rf_acceleration : st_acceleration s' = left_right (st_acceleration s);
  rf_thrust_force_body : st_thrust_force_body s' = left_right (st_thrust_force_body s);
  rf_aero_force_body : st_aero_force_body s' = left_right (st_aero_force_body s);
  rf_vehicle_acceleration_body : st_vehicle_acceleration_body s' = left_right (st_vehicle_acceleration_body s);
  rf_gravity_acceleration : st_gravity_acceleration s' = left_right (st_gravity_acceleration s);
  rf_mass : st_mass s' = st_mass s;
  rf_propellant_mass : st_propellant_mass s' = st_propellant_mass s;
  rf_massflow : st_massflow s' = st_massflow s;
  rf_temperature : st_temperature s' = st_temperature s;
  rf_pressure : st_pressure s' = st_pressure s;
  rf_density : st_density s' = st_density s;
  rf_mach_number : st_mach_number s' = st_mach_number s;
  rf_dynamic_pressure : st_dynamic_pressure s' = st_dynamic_pressure s;
  rf_alpha : st_alpha s' = st_alpha s;
  rf_euler_angles : st_euler_angles s' = mirror_angles (st_euler_angles s);
  rf_throttle : st_throttle s' = st_throttle s }.

(** The mirror image of a mission: the launch site is at the opposite longitude, the azimuth is counted to the other
    side, the planet rotates the other way, and the wind is reflected; engines are canted to the other side, the side
    force acts to the other side, and roll and yaw are steered in the other sense (as in C64: [left_right],
    [mirror_angles], [mirror_vehicle_config] and [mirror_steering_config] are defined there). *)
Definition reflect_site (i : InitConfig N) : InitConfig N :=
  mkInitConfig (N := N) (ic_latitude i) (n_neg (ic_longitude i)) (n_neg (ic_azimuth i)) (ic_altitude i).
Definition reversed_planet (p : PlanetConfig N) : PlanetConfig N :=
  let q := planet_of p in Custom (pl_equatorial_radius q) (pl_polar_radius q) (pl_gravitational_parameters q) (n_neg (pl_rotation_rate q)).
Definition reflect_config (c : PhaseConfig N) : PhaseConfig N :=
  mkPhaseConfig (option_map reflect_site (pc_init c)) (option_map mirror_vehicle_config (pc_vehicle c))
    (option_map mirror_steering_config (pc_steering c)) (option_map reversed_planet (pc_planet_model c))
    (option_map (fun a : AtmosphereConfig N => mkAtmosphereConfig (ac_enabled a) (option_map left_right (ac_wind a))) (pc_atmosphere c))
    (pc_max_acceleration c) (pc_stepsize c) (pc_end_criterion c).

(** The planet of the first phase is the spherical one if none is given. *)
Definition planet_named (c : PhaseConfig N) : PhaseConfig N :=
  mkPhaseConfig (pc_init c) (pc_vehicle c) (pc_steering c)
    (Some (match pc_planet_model c with Some p => p | None => Spherical end))
    (pc_atmosphere c) (pc_max_acceleration c) (pc_stepsize c) (pc_end_criterion c).
Definition reflect_mission (cs : list (PhaseConfig N)) : list (PhaseConfig N) :=
  match cs with
  | [] => []
  | c :: rest => reflect_config (planet_named c) :: map reflect_config rest
  end.

(** The mirror image of the output. *)
Definition reflected_event (e e' : event N) : Prop :=
  match e, e' with
  | EPhase i, EPhase j => i = j
  | ERecord s, ERecord s' => reflected s s'
  | _, _ => False
  end.
Definition reflected_status (st st' : status (Phase N)) : Prop :=
  match st, st' with
  | Finished q, Finished q' => reflected (ph_state q) (ph_state q')
  | Running q, Running q' => reflected (ph_state q) (ph_state q')
  | Aborted e, Aborted e' => e = e'
  | _, _ => False
  end.

(** Configurations that do not tell east from west: steering, tables and the end criterion use centred
    variables only. *)
Record no_side (c : PhaseConfig N) : Prop := {
  ns_tables : opt (fun v : VehicleConfig N =>
      opt (fun t => Forall (fun x => centred x = true) (table_variables t)) (vc_drag_coeff v) /\
      opt (fun t => Forall (fun x => centred x = true) (table_variables t)) (vc_lift_coeff v) /\
      opt (fun t => Forall (fun x => centred x = true) (table_variables t)) (vc_side_force_coeff v)) (pc_vehicle c);
  ns_steering : opt (fun s : SteeringConfig N => opt (fun x : StateVariable * vec3 N => centred (fst x) = true) (sc_roll s) /\
      opt (fun x : StateVariable * vec3 N => centred (fst x) = true) (sc_yaw s) /\
      opt (fun x : StateVariable * vec3 N => centred (fst x) = true) (sc_pitch s)) (pc_steering c);
  ns_criterion : opt (fun e : StateVariable * N => centred (fst e) = true) (pc_end_criterion c) }.

(** ** Proof *)
Lemma left_right_sub : forall u v : vec3 N, vsub (left_right u) (left_right v) = left_right (vsub u v).
Proof. intros u v. unfold vsub, left_right. cbn [vx vy vz n_sub n_neg XR]. rewrite xneg_sub. reflexivity. Qed.
Lemma side_norm : forall v, normR (side v) = normR v.
Proof. intros [x y z]. unfold normR, dotR, side. cbn [vx vy vz]. f_equal. ring. Qed.
Lemma side_nonzero : forall v, v <> zeroR -> side v <> zeroR.
Proof. intros v H E. apply (f_equal normR) in E. rewrite side_norm, normR_zeroR in E. assert (K := normR_pos v H). lra. Qed.
Lemma side_Rz : forall t v, mulvR (Rz (- t)) (side v) = side (mulvR (Rz t) v).
Proof. intros t [x y z]. unfold side, mulvR, dotR, Rz. cbn [vx vy vz row0 row1 row2]. rewrite ?cos_neg, ?sin_neg. f_equal; ring. Qed.
Lemma side_spin : forall u v w,
  subR (side u) (crossR (V3 0 0 (- w)) (side v)) = side (subR u (crossR (V3 0 0 w) v)).
Proof. intros [x y z] [x' y' z'] w. unfold side, subR, crossR. cbn [vx vy vz]. f_equal; ring. Qed.
Lemma side_add : forall u v, side (addR u v) = addR (side u) (side v).
Proof. intros [x y z] [x' y' z']. unfold side, addR. cbn [vx vy vz]. f_equal; ring. Qed.
Lemma i2l_reflect : forall lat long az v, mulvR (i2l lat (- long) (- az)) (side v) = side (mulvR (i2l lat long az) v).
Proof.
  intros lat long az [x y z]. unfold i2l. rewrite !mulvR_mulmR. unfold side, mulvR, dotR, Rx, Ry, Rz. cbn [vx vy vz row0 row1 row2].
  rewrite ?cos_neg, ?sin_neg. apply V3_eq; ring.
Qed.
Lemma transpose_reflect : forall (A A' : mat3 R), (forall v, mulvR A' (side v) = side (mulvR A v)) ->
  forall b, mulvR (transposeR A') (side b) = side (mulvR (transposeR A) b).
Proof.
  intros [[b0 b1 b2] [b3 b4 b5] [b6 b7 b8]] [[c0 c1 c2] [c3 c4 c5] [c6 c7 c8]] H [x y z].
  assert (H1 := H (V3 1 0 0)). assert (H2 := H (V3 0 1 0)). assert (H3 := H (V3 0 0 1)).
  unfold side, transposeR, mulvR, dotR in *. cbn [vx vy vz row0 row1 row2] in *.
  injection H1. injection H2. injection H3. intros E8 E5 E2 E7 E4 E1 E6 E3 E0.
  assert (c8 = b8) by lra. assert (c5 = - b5) by lra. assert (c2 = b2) by lra.
  assert (c7 = - b7) by lra. assert (c4 = b4) by lra. assert (c1 = - b1) by lra.
  assert (c6 = b6) by lra. assert (c3 = - b3) by lra. assert (c0 = b0) by lra. subst.
  apply V3_eq; ring.
Qed.
Lemma i2b_reflect : forall lat long az roll yaw pitch v,
  mulvR (mulmR (l2b (- roll) (- yaw) pitch) (i2l lat (- long) (- az))) (side v)
  = side (mulvR (mulmR (l2b roll yaw pitch) (i2l lat long az)) v).
Proof. intros. rewrite !mulvR_mulmR, i2l_reflect. apply l2b_mirror. Qed.

(** The planet. *)
Definition reverse_planet (p : Planet N) : Planet N :=
  mkPlanet (pl_equatorial_radius p) (pl_polar_radius p) (pl_gravitational_parameters p) (n_neg (pl_rotation_rate p)).
Lemma reverse_real_planet : forall p Re Rp mu0 J2 J3 J4 w, real_planet p Re Rp mu0 J2 J3 J4 w ->
  real_planet (rot := rot) (reverse_planet p) Re Rp mu0 J2 J3 J4 (- w).
Proof. intros p Re Rp mu0 J2 J3 J4 w ->. reflexivity. Qed.
Lemma altitude_reflect : forall (p : Planet N) Re Rp r, radii p Re Rp -> r <> zeroR ->
  altitude (reverse_planet p) (finv (side r)) = altitude p (finv r).
Proof.
  intros p Re Rp r HR Hr. assert (HR' : radii (reverse_planet p) Re Rp) by exact HR.
  rewrite (altitude_fin _ Re Rp _ HR' (side_nonzero _ Hr)), (altitude_fin _ Re Rp _ HR Hr), side_norm.
  assert (E : level Re Rp (side r) = level Re Rp r).
  { destruct r as [x y z]. unfold level, side. cbn [vx vy vz]. unfold Rdiv. ring. }
  rewrite E. reflexivity.
Qed.
Lemma gravity_reflect : forall (p : Planet N) Re Rp mu0 J2 J3 J4 w r, real_planet p Re Rp mu0 J2 J3 J4 w -> r <> zeroR ->
  gravity (reverse_planet p) (finv (side r)) = left_right (gravity p (finv r)).
Proof.
  intros p Re Rp mu0 J2 J3 J4 w r HP Hr. assert (Hn := normR_pos _ Hr).
  rewrite (gravity_real _ Re Rp mu0 J2 J3 J4 (- w) _ (reverse_real_planet _ _ _ _ _ _ _ _ HP) (side_nonzero _ Hr)).
  rewrite (gravity_real _ Re Rp mu0 J2 J3 J4 w _ HP Hr), left_right_fin. f_equal.
  unfold grav. rewrite side_norm. unfold side. cbn [vx vy vz]. unfold pot_r, pot_z. f_equal; field; lra.
Qed.

Lemma centred_value : forall (s s' : State N) v, reflected s s' -> centred v = true -> get_value v s' = get_value v s.
Proof.
  intros s s' v H Hv. destruct H.
  destruct v; try discriminate Hv; cbn [get_value];
  repeat match goal with E : _ = left_right _ |- _ => rewrite E; clear E | E : _ = left_right _ |- _ => rewrite E; clear E
    | E : _ = mirror_angles _ |- _ => rewrite E; clear E end;
  rewrite ?norm_left_right, ?norm_left_right; first [assumption|reflexivity].
Qed.

(** The mirror image of a phase. *)
Record reflect_twins (p p' : Phase N) : Prop := {
  e_vehicle : ph_vehicle p' = mirror_vehicle (ph_vehicle p);
  e_steering : ph_steering p' = mirror_steering (ph_steering p);
  e_atmosphere : ph_atmosphere p' = mkAtmosphere (left_right (at_wind (ph_atmosphere p))) (at_model (ph_atmosphere p));
  e_planet : ph_planet p' = reverse_planet (ph_planet p);
  e_launch : exists lat long az, ph_launch p = finv (V3 lat long az) /\ ph_launch p' = finv (V3 lat (- long) (- az));
  e_max_acceleration : ph_max_acceleration p' = ph_max_acceleration p;
  e_stepsize : ph_stepsize p' = ph_stepsize p;
  e_base_stepsize : ph_base_stepsize p' = ph_base_stepsize p;
  e_criterion : ph_end_criterion p' = ph_end_criterion p;
  e_tries : ph_end_criterion_tries p' = ph_end_criterion_tries p;
  e_ended : ph_ended p' = ph_ended p;
  e_state : reflected (ph_state p) (ph_state p') }.

Record centred_phase (p : Phase N) : Prop := {
  cp_drag : Forall (fun x => centred x = true) (table_variables (ve_drag_coeff (ph_vehicle p)));
  cp_lift : Forall (fun x => centred x = true) (table_variables (ve_lift_coeff (ph_vehicle p)));
  cp_side : Forall (fun x => centred x = true) (table_variables (ve_side_force_coeff (ph_vehicle p)));
  cp_roll : centred (ax_var (sg_roll (ph_steering p))) = true;
  cp_yaw : centred (ax_var (sg_yaw (ph_steering p))) = true;
  cp_pitch : centred (ax_var (sg_pitch (ph_steering p))) = true;
  cp_criterion : centred (fst (ph_end_criterion p)) = true }.

Lemma equations_reflected : rot_contract rot -> forall (p p' : Phase N) (s0 s0' s s' : State N),
  reflect_twins p p' -> centred_phase p -> real_phase p -> real_input s0 -> ~ singular p s0 -> reflected s0 s0' ->
  equations p s0 s -> equations p' s0' s' ->
  guard p' s' = guard p s /\ (guard p s = false -> reflected s s').
Proof.
  intros Hrot p p' s0 s0' s s' W X RP RI NS T Q Q'.
  destruct (evaluation_equations Hrot p s0 s RP RI NS Q) as [(P & f & EP & Ef & (e & Ee)) K].
  destruct W as [W1 W2 W3 W4 (lat & long & az & L & L') W6 _ _ _ _ _ _].
  destruct X as [X2 X3 X4 X5 X6 X7 _].
  destruct (rp_planet _ RP) as (Re & Rp & mu0 & J2 & J3 & J4 & w & HP & PRe & PRp).
  assert (HR : radii (ph_planet p) Re Rp) by (rewrite HP; repeat split; assumption).
  assert (Hw : pl_rotation_rate (ph_planet p) = Fin w) by (rewrite HP; reflexivity).
  assert (A1 : st_time s' = st_time s) by (rewrite (q_time _ _ _ Q), (q_time _ _ _ Q'); apply T).
  assert (A2 : st_time_since_event s' = st_time_since_event s)
    by (rewrite (q_time_since_event _ _ _ Q), (q_time_since_event _ _ _ Q'); apply T).
  assert (A3 : st_position s' = left_right (st_position s)) by (rewrite (q_position _ _ _ Q), (q_position _ _ _ Q'); apply T).
  assert (A4 : st_velocity s' = left_right (st_velocity s)) by (rewrite (q_velocity _ _ _ Q), (q_velocity _ _ _ Q'); apply T).
  assert (A5 : st_mass s' = st_mass s) by (rewrite (q_mass _ _ _ Q), (q_mass _ _ _ Q'); apply T).
  destruct (ri_time _ RI) as [t Ht]. rewrite <- (q_time _ _ _ Q) in Ht.
  destruct (ri_position _ RI) as [r Er]. rewrite <- (q_position _ _ _ Q) in Er.
  destruct (ri_velocity _ RI) as [u Eu]. rewrite <- (q_velocity _ _ _ Q) in Eu.
  assert (Er' := A3). rewrite Er, left_right_fin in Er'. assert (Eu' := A4). rewrite Eu, left_right_fin in Eu'.
  assert (Nr : r <> zeroR). { intros ->. apply NS. left. rewrite <- (q_position _ _ _ Q). exact Er. }
  assert (A6 : st_position_planet s' = left_right (st_position_planet s)).
  { rewrite (q_position_planet _ _ _ Q), (q_position_planet _ _ _ Q'), W4, A1, Ht, Er, Er'.
    change (pl_rotation_rate (reverse_planet (ph_planet p))) with (n_neg (pl_rotation_rate (ph_planet p))). rewrite Hw. unfold inertial_to_planet.
    change (n_neg (n := N) (Fin w)) with (Fin (- w)). rewrite !inertial_to_planet_real. cbn [n_rot XR]. rewrite !(Hrot _ (Rz_rotation _)), !mulv_fin.
    replace (- w * t) with (- (w * t)) by ring. rewrite side_Rz. reflexivity. }
  assert (A7 : st_velocity_planet s' = left_right (st_velocity_planet s)).
  { rewrite (q_velocity_planet _ _ _ Q), (q_velocity_planet _ _ _ Q'), W4, Er, Er', Eu, Eu'. unfold velocity_planet.
    change (pl_rotation_rate (reverse_planet (ph_planet p))) with (n_neg (pl_rotation_rate (ph_planet p))). rewrite Hw.
    change (V3 (@n_lit N 0 0) (n_lit 0 0) (Fin w)) with (finv (V3 0 0 w)).
    change (V3 (@n_lit N 0 0) (n_lit 0 0) (n_neg (n := N) (Fin w))) with (finv (V3 0 0 (- w))).
    rewrite !vcross_fin, !vsub_fin, side_spin. reflexivity. }
  assert (HA := altitude_reflect (ph_planet p) Re Rp r HR Nr).
  assert (A8 : st_altitude s' = st_altitude s).
  { rewrite (q_altitude _ _ _ Q), (q_altitude _ _ _ Q'), W4, Er, Er'. exact HA. }
  assert (A9 : st_altitude_geopotential s' = st_altitude_geopotential s).
  { rewrite (q_altitude_geopotential _ _ _ Q), (q_altitude_geopotential _ _ _ Q'), W4, Er, Er'.
    unfold geopotential_altitude. rewrite HA. reflexivity. }
  assert (A10 : st_propellant_mass s' = st_propellant_mass s).
  { rewrite (q_propellant_mass _ _ _ Q), (q_propellant_mass _ _ _ Q'), W1, A5. reflexivity. }
  assert (A11 : st_gravity_acceleration s' = left_right (st_gravity_acceleration s)).
  { rewrite (q_gravity _ _ _ Q), (q_gravity _ _ _ Q'), W4, Er, Er'. exact (gravity_reflect _ Re Rp mu0 J2 J3 J4 w r HP Nr). }
  assert (A12 : st_velocity_atmosphere s' = left_right (st_velocity_atmosphere s)).
  { rewrite (q_velocity_atmosphere _ _ _ Q), (q_velocity_atmosphere _ _ _ Q'), W3, A7. apply left_right_sub. }
  assert (N12 : norm (st_velocity_atmosphere s') = norm (st_velocity_atmosphere s)) by (rewrite A12; apply norm_left_right).
  assert (A13 : st_temperature s' = st_temperature s).
  { assert (B := q_temperature _ _ _ Q). assert (B' := q_temperature _ _ _ Q'). rewrite W3 in B'. unfold at_temperature in B, B'.
    cbn [at_model] in B'. rewrite A9, B in B'. injection B' as ->. reflexivity. }
  assert (A14 : st_pressure s' = st_pressure s).
  { assert (B := q_pressure _ _ _ Q). assert (B' := q_pressure _ _ _ Q'). rewrite W3 in B'. unfold at_pressure in B, B'.
    cbn [at_model] in B'. rewrite A9, B in B'. injection B' as ->. reflexivity. }
  assert (A15 : st_density s' = st_density s).
  { assert (B := q_density _ _ _ Q). assert (B' := q_density _ _ _ Q'). rewrite W3 in B'. unfold at_density in B, B'.
    cbn [at_model] in B'. rewrite A9, B in B'. injection B' as ->. reflexivity. }
  assert (A16 : st_mach_number s' = st_mach_number s).
  { assert (B := q_mach_number _ _ _ Q). assert (B' := q_mach_number _ _ _ Q'). rewrite W3 in B'.
    unfold at_mach_number, at_speed_of_sound in B, B'. cbn [at_model] in B'. rewrite A9, N12, B in B'. injection B' as ->. reflexivity. }
  assert (A17 : st_dynamic_pressure s' = st_dynamic_pressure s).
  { rewrite (q_dynamic_pressure _ _ _ Q), (q_dynamic_pressure _ _ _ Q'), W3. unfold at_dynamic_pressure.
    rewrite A15, N12. reflexivity. }
  assert (BA : reflected (before_attitude s0 s) (before_attitude s0' s')).
  { destruct T. constructor; assumption. }
  assert (A18 : st_euler_angles s' = mirror_angles (st_euler_angles s)).
  { rewrite (q_euler_angles _ _ _ Q), (q_euler_angles _ _ _ Q'), W2. apply steering_mirror; apply (centred_value _ _ _ BA); assumption. }
  destruct e as [e1 e2 e3].
  assert (Ee' : st_euler_angles s' = finv (V3 (- e1) (- e2) e3)) by (rewrite A18, Ee; reflexivity).
  assert (A19 : st_alpha s' = st_alpha s).
  { assert (BR := q_velocity_atmosphere _ _ _ Q). rewrite (q_velocity_planet _ _ _ Q), Er, Eu in BR. unfold velocity_planet in BR.
    rewrite Hw in BR. change (V3 (@n_lit N 0 0) (n_lit 0 0) (Fin w)) with (finv (V3 0 0 w)) in BR.
    destruct (rp_wind _ RP) as [wd Hwd]. rewrite Hwd, vcross_fin, !vsub_fin in BR.
    rewrite (q_alpha _ _ _ Q), (q_alpha _ _ _ Q'), Ee', Ee, L, L', A12, BR, !(inertial_to_body_real Hrot), left_right_fin, !mulv_fin.
    cbn [vx vy vz]. rewrite i2b_reflect. reflexivity. }
  assert (BB : reflected (before_aero s0 s) (before_aero s0' s')).
  { destruct BA. constructor; assumption. }
  assert (A20 : st_aero_force_body s' = left_right (st_aero_force_body s)).
  { assert (B := q_aero_force _ _ _ Q). assert (B' := q_aero_force _ _ _ Q').
    rewrite Forall_forall in X2, X3, X4.
    rewrite W1, (aero_mirror (ph_vehicle p) (before_aero s0 s)) in B'.
    - rewrite B in B'. injection B' as <-. reflexivity.
    - intros x Hx. apply (centred_value _ _ _ BB). unfold vehicle_variables in Hx. rewrite !in_app_iff in Hx. destruct Hx as [Hx|[Hx|Hx]]; auto.
    - exact A19.
    - exact A17. }
  assert (A21 : st_throttle s' = st_throttle s).
  { rewrite (q_throttle _ _ _ Q), (q_throttle _ _ _ Q'), W1, W6, A5, A14, A20. apply throttle_mirror. }
  assert (A22 : st_thrust_force_body s' = left_right (st_thrust_force_body s)).
  { rewrite (q_thrust _ _ _ Q), (q_thrust _ _ _ Q'), W1, A21, A14. apply thrust_mirror. }
  assert (A23 : st_massflow s' = st_massflow s).
  { rewrite (q_massflow _ _ _ Q), (q_massflow _ _ _ Q'), W1, A21. apply massflow_mirror. }
  assert (A24 : st_vehicle_acceleration_body s' = left_right (st_vehicle_acceleration_body s)).
  { rewrite (q_vehicle_acceleration _ _ _ Q), (q_vehicle_acceleration _ _ _ Q'), A20, A22, A5, left_right_add. apply left_right_div. }
  assert (G : guard p' s' = guard p s) by (unfold guard; rewrite A24, norm_left_right, A21, W6; reflexivity).
  split; [exact G|]. intros G0.
  assert (RS : real_state (with_air p) s).
  { apply K. unfold guard in G0. apply orb_false_elim in G0. apply G0. }
  assert (A25 : st_acceleration s' = left_right (st_acceleration s)).
  { rewrite (q_acceleration _ _ _ Q), (q_acceleration _ _ _ Q'), A24, A11, Ee, Ee', L, L', !(inertial_to_body_real Hrot), !transpose_fin.
    destruct (r_vehicle_acceleration_body _ _ RS) as [b ->]. rewrite left_right_fin, !mulv_fin. cbn [vx vy vz].
    rewrite (transpose_reflect _ _ (i2b_reflect lat long az e1 e2 e3)), <- left_right_fin. apply left_right_add. }
  constructor; assumption.
Qed.
Lemma system_reflected : rot_contract rot -> forall (p p' : Phase N) (s0 s0' : State N),
  reflect_twins p p' -> centred_phase p -> real_phase p -> real_input s0 -> ~ singular p s0 -> reflected s0 s0' ->
  both reflected (system p s0) (system p' s0').
Proof.
  intros Hrot p p' s0 s0' W X RP RI NS T.
  assert (L : lookups_ok p).
  { apply accepted_lookups. split; [|split]; apply real_table_accepted; apply RP. }
  assert (L' : lookups_ok p').
  { apply accepted_lookups. rewrite !(e_vehicle _ _ W). split; [|split].
    - apply real_table_accepted, RP.
    - apply real_table_accepted, RP.
    - cbn [mirror_vehicle ve_side_force_coeff]. apply negate_accepted. apply real_table_accepted, RP. }
  destruct (system_total p s0 L) as (s & Q & E). destruct (system_total p' s0' L') as (s' & Q' & E').
  destruct (equations_reflected Hrot p p' s0 s0' s s' W X RP RI NS T Q Q') as [G U].
  rewrite E, E', G. destruct (guard p s); [reflexivity|]. apply U. reflexivity.
Qed.
Local Notation sm := (rk_sum v7_zero v7_add v7_scale (N := N)).
Definition reflected7 (v v' : vec7 N) : Prop :=
  v7_pos v' = left_right (v7_pos v) /\ v7_vel v' = left_right (v7_vel v) /\ v7_mass v' = v7_mass v.
Lemma reflected7_zero : reflected7 v7_zero v7_zero.
Proof. split; [symmetry; exact left_right_zero|]. split; [symmetry; exact left_right_zero|reflexivity]. Qed.
Lemma reflected7_add : forall u u' v v', reflected7 u u' -> reflected7 v v' -> reflected7 (v7_add u v) (v7_add u' v').
Proof.
  intros u u' v v' (E1 & E2 & E3) (F1 & F2 & F3).
  unfold v7_add, reflected7. cbn [v7_pos v7_vel v7_mass]. rewrite E1, E2, E3, F1, F2, F3, !left_right_add.
  split; [|split]; reflexivity.
Qed.
Lemma reflected7_scale : forall k u u', reflected7 u u' -> reflected7 (v7_scale (N := N) k u) (v7_scale (N := N) k u').
Proof.
  intros k u u' (E1 & E2 & E3).
  unfold v7_scale, reflected7. cbn [v7_pos v7_vel v7_mass]. rewrite E1, E2, E3, !left_right_scale.
  split; [|split]; reflexivity.
Qed.
Lemma reflected7_sum : forall cs ks ks', Forall2 reflected7 ks ks' -> reflected7 (sm cs ks) (sm cs ks').
Proof.
  intros cs ks ks' Hk. unfold rk_sum. generalize reflected7_zero.
  generalize (@v7_zero N) at 1 3 as z. generalize (@v7_zero N) as z'. intros z' z Hz. revert ks ks' Hk z z' Hz.
  induction cs as [|c cs IH]; intros ks ks' Hk z z' Hz; [exact Hz|].
  destruct Hk as [|k k' ks ks' B Hk]; [exact Hz|]. cbn [combine map fold_left fst snd].
  apply IH; [exact Hk|]. apply reflected7_add; [exact Hz|]. now apply reflected7_scale.
Qed.
Lemma reflected_from_vec : forall t v v', reflected7 v v' -> reflected (from_vec (N := N) t v) (from_vec (N := N) t v').
Proof.
  intros [t e] v v' (H1 & H2 & H3). unfold from_vec. cbn [fst snd].
  constructor; cbn [set_mass set_velocity set_position set_time_since_event set_time default_state
    st_time st_time_since_event st_position st_position_planet st_altitude st_altitude_geopotential st_velocity
    st_velocity_planet st_velocity_atmosphere st_acceleration st_thrust_force_body st_aero_force_body
    st_vehicle_acceleration_body st_gravity_acceleration st_mass st_propellant_mass st_massflow st_temperature
    st_pressure st_density st_mach_number st_dynamic_pressure st_alpha st_euler_angles st_throttle];
    first [assumption | reflexivity | symmetry; first [exact left_right_zero|exact left_right_zero|exact mirror_angles_zero]].
Qed.
Lemma reflected_differentials : forall (s s' : State N), reflected s s' ->
  reflected7 (to_differentials_vector s) (to_differentials_vector s').
Proof. intros s s' []. split; [|split]; assumption. Qed.
Lemma reflected_primary : forall (s s' : State N), reflected s s' -> reflected7 (to_primary_vec s) (to_primary_vec s').
Proof. intros s s' []. split; [|split]; assumption. Qed.

Lemma step_reflected : rot_contract rot -> forall (p p' : Phase N), reflect_twins p p' -> centred_phase p -> real_phase p ->
  (ph_ended p = false -> forall x, visits (system p) (ph_state p) (ph_stepsize p) x -> real_input x /\ ~ singular p x) ->
  both (reflect_twins) (step p) (step p').
Proof.
  intros Hrot p p' W X RP V. assert (U := e_state _ _ W).
  unfold step. rewrite (e_ended _ _ W), (e_stepsize _ _ W), (e_criterion _ _ W), (e_tries _ _ W).
  destruct (ph_ended p) eqn:En; [reflexivity|]. specialize (V eq_refl).
  set (s := ph_state p) in *. set (s' := ph_state p') in *. set (h := ph_stepsize p) in *.
  assert (K : both reflected (integrator_step (fun s => system p s) s h) (integrator_step (fun s => system p' s) s' h)).
  { rewrite !integrator_step_points.
    assert (P := reflected_primary _ _ U). assert (Z := reflected7_zero).
    assert (D : forall d d', reflected d d' -> reflected7 (v7_scale h (to_differentials_vector d)) (v7_scale h (to_differentials_vector d'))).
    { intros d d' Hd. apply reflected7_scale. now apply reflected_differentials. }
    assert (T1 : st_time s' = st_time s) by apply U. assert (T2 : st_time_since_event s' = st_time_since_event s) by apply U.
    assert (A0 : reflected (point0 s h) (point0 s' h)).
    { unfold point0. rewrite T1, T2. apply reflected_from_vec, reflected7_add; [exact P|].
      apply reflected7_sum. repeat (apply Forall2_cons; [exact Z|]); apply Forall2_nil. }
    destruct (V (point0 s h)) as [I0 N0]; [left; reflexivity|].
    assert (B0 := system_reflected Hrot p p' _ _ W X RP I0 N0 A0).
    assert (V0 : forall d0, system p (point0 s h) = Ret d0 -> forall x, (x = point1 s h d0 \/ exists d1, system p (point1 s h d0) = Ret d1 /\
      (x = point2 s h d0 d1 \/ exists d2, system p (point2 s h d0 d1) = Ret d2 /\
      (x = point3 s h d0 d1 d2 \/ exists d3, system p (point3 s h d0 d1 d2) = Ret d3 /\ x = point4 s h d0 d1 d2 d3))) ->
      real_input x /\ ~ singular p x).
    { intros d0 E x Hx. apply V. right. exists d0. split; assumption. }
    clear V. destruct (system p (point0 s h)) as [d0|e] eqn:E0, (system p' (point0 s' h)) as [d0'|e'] eqn:E0'; cbn [both] in B0;
      try contradiction; [|exact B0]. cbn [bind].
    specialize (V0 d0 eq_refl).
    assert (K0 := D _ _ B0).
    assert (A1 : reflected (point1 s h d0) (point1 s' h d0')).
    { unfold point1. rewrite T1, T2. apply reflected_from_vec, reflected7_add; [exact P|].
      apply reflected7_sum. apply Forall2_cons; [exact K0|]. repeat (apply Forall2_cons; [exact Z|]); apply Forall2_nil. }
    destruct (V0 (point1 s h d0)) as [I1 N1]; [left; reflexivity|].
    assert (B1 := system_reflected Hrot p p' _ _ W X RP I1 N1 A1).
    assert (V1 : forall d1, system p (point1 s h d0) = Ret d1 -> forall x, 
      (x = point2 s h d0 d1 \/ exists d2, system p (point2 s h d0 d1) = Ret d2 /\
      (x = point3 s h d0 d1 d2 \/ exists d3, system p (point3 s h d0 d1 d2) = Ret d3 /\ x = point4 s h d0 d1 d2 d3)) ->
      real_input x /\ ~ singular p x).
    { intros d1 E x Hx. apply V0. right. exists d1. split; assumption. }
    clear V0. destruct (system p (point1 s h d0)) as [d1|e] eqn:E1, (system p' (point1 s' h d0')) as [d1'|e'] eqn:E1'; cbn [both] in B1;
      try contradiction; [|exact B1]. cbn [bind].
    specialize (V1 d1 eq_refl).
    assert (K1 := D _ _ B1).
    assert (A2 : reflected (point2 s h d0 d1) (point2 s' h d0' d1')).
    { unfold point2. rewrite T1, T2. apply reflected_from_vec, reflected7_add; [exact P|].
      apply reflected7_sum. apply Forall2_cons; [exact K0|]. apply Forall2_cons; [exact K1|].
      repeat (apply Forall2_cons; [exact Z|]); apply Forall2_nil. }
    destruct (V1 (point2 s h d0 d1)) as [I2 N2]; [left; reflexivity|].
    assert (B2 := system_reflected Hrot p p' _ _ W X RP I2 N2 A2).
    assert (V2 : forall d2, system p (point2 s h d0 d1) = Ret d2 -> forall x, 
      (x = point3 s h d0 d1 d2 \/ exists d3, system p (point3 s h d0 d1 d2) = Ret d3 /\ x = point4 s h d0 d1 d2 d3) ->
      real_input x /\ ~ singular p x).
    { intros d2 E x Hx. apply V1. right. exists d2. split; assumption. }
    clear V1. destruct (system p (point2 s h d0 d1)) as [d2|e] eqn:E2, (system p' (point2 s' h d0' d1')) as [d2'|e'] eqn:E2'; cbn [both] in B2;
      try contradiction; [|exact B2]. cbn [bind].
    specialize (V2 d2 eq_refl).
    assert (K2 := D _ _ B2).
    assert (A3 : reflected (point3 s h d0 d1 d2) (point3 s' h d0' d1' d2')).
    { unfold point3. rewrite T1, T2. apply reflected_from_vec, reflected7_add; [exact P|].
      apply reflected7_sum. apply Forall2_cons; [exact K0|]. apply Forall2_cons; [exact K1|].
      apply Forall2_cons; [exact K2|]. apply Forall2_cons; [exact Z|]. apply Forall2_nil. }
    destruct (V2 (point3 s h d0 d1 d2)) as [I3 N3]; [left; reflexivity|].
    assert (B3 := system_reflected Hrot p p' _ _ W X RP I3 N3 A3).
    assert (V3 : forall d3, system p (point3 s h d0 d1 d2) = Ret d3 -> 
      real_input (point4 s h d0 d1 d2 d3) /\ ~ singular p (point4 s h d0 d1 d2 d3)).
    { intros d3 E. apply V2. right. exists d3. split; [assumption|reflexivity]. }
    clear V2. destruct (system p (point3 s h d0 d1 d2)) as [d3|e] eqn:E3, (system p' (point3 s' h d0' d1' d2')) as [d3'|e'] eqn:E3'; cbn [both] in B3;
      try contradiction; [|exact B3]. cbn [bind].
    assert (K3 := D _ _ B3).
    assert (A4 : reflected (point4 s h d0 d1 d2 d3) (point4 s' h d0' d1' d2' d3')).
    { unfold point4. rewrite T1, T2. apply reflected_from_vec, reflected7_add; [exact P|].
      apply reflected7_sum. apply Forall2_cons; [exact K0|]. apply Forall2_cons; [exact K1|].
      apply Forall2_cons; [exact K2|]. apply Forall2_cons; [exact K3|]. apply Forall2_nil. }
    destruct (V3 d3 eq_refl) as [I4 N4].
    exact (system_reflected Hrot p p' _ _ W X RP I4 N4 A4). }
  revert K. generalize (integrator_step (fun s => system p s) s h). generalize (integrator_step (fun s => system p' s) s' h).
  intros o' o K. destruct o as [x|e], o' as [x'|e']; cbn [both] in K; try contradiction; [|exact K]. cbn [bind].
  assert (Cx := centred_value _ _ (fst (ph_end_criterion p)) K (cp_criterion _ X)).
  assert (Cs : get_value (fst (ph_end_criterion p)) s' = get_value (fst (ph_end_criterion p)) s)
    by (apply centred_value; [exact U|apply X]).
  unfold event_is_active, time_to_go. rewrite (e_criterion _ _ W), (e_stepsize _ _ W), Cx, Cs. fold h.
  destruct W as [W1 W2 W3 W4 W5 W6 W7 W8 W9 W10 W11 W12].
  destruct (n_ltb (n_abs _) _); [cbn [both]; constructor; try assumption; reflexivity|].
  match goal with |- context [if ?c then _ else _] => destruct c end.
  - destruct (20 <? ph_end_criterion_tries p)%nat; [reflexivity|]. cbn [both]. constructor; try assumption; try reflexivity.
    cbn [set_ph_end_criterion_tries set_ph_stepsize ph_end_criterion_tries]. congruence.
  - cbn [both]. constructor; assumption.
Qed.

Definition reflected_phases (st st' : status (Phase N)) : Prop :=
  match st, st' with
  | Finished q, Finished q' => reflect_twins q q'
  | Running q, Running q' => reflect_twins q q'
  | Aborted e, Aborted e' => e = e'
  | _, _ => False
  end.
Lemma centred_parameters : forall p q : Phase N, same_parameters p q -> centred_phase p -> centred_phase q.
Proof.
  intros p q (E1 & E2 & E3 & E4 & E5 & E6 & E7 & E8) []. constructor; rewrite ?E1, ?E2, ?E3, ?E8; assumption.
Qed.
Lemma run_loop_reflected : rot_contract rot -> forall fuel (p p' : Phase N), reflect_twins p p' -> centred_phase p -> real_phase p ->
  (forall ps q x, chain p ps -> In q (p :: ps) -> ph_ended q = false ->
     visits (system q) (ph_state q) (ph_stepsize q) x -> real_input x /\ ~ singular q x) ->
  Forall2 reflected (fst (run_loop fuel p)) (fst (run_loop fuel p')) /\
  reflected_phases (snd (run_loop fuel p)) (snd (run_loop fuel p')).
Proof.
  intros Hrot. induction fuel as [|fuel IH]; intros p p' W X RP V; cbn [run_loop]; rewrite (e_ended _ _ W);
    destruct (ph_ended p) eqn:En; cbn [fst snd]; try (split; [constructor|exact W]).
  assert (S : both (reflect_twins) (step p) (step p')).
  { apply (step_reflected Hrot); try assumption. intros _ x Hx. apply (V [] p); [constructor|now left|exact En|exact Hx]. }
  destruct (step p) as [q|e] eqn:E, (step p') as [q'|e'] eqn:E'; cbn [both] in S; try contradiction.
  - assert (SP := step_parameters _ _ E).
    destruct (IH q q' S) as [A B].
    + now apply (centred_parameters p).
    + now apply (real_phase_parameters p).
    + intros ps q1 x Hc Hin. apply (V (q :: ps)); [now apply chain_cons|now right].
    + destruct (run_loop fuel q) as [h st], (run_loop fuel q') as [h' st']. cbn [fst snd] in *.
      split; [|exact B]. constructor; [apply S|exact A].
  - cbn [fst snd]. split; [constructor|exact S].
Qed.
Lemma run_reflected : rot_contract rot -> forall fuel (p p' : Phase N), reflect_twins p p' -> centred_phase p -> real_phase p ->
  regular p ->
  Forall2 reflected (fst (run fuel p)) (fst (run fuel p')) /\
  reflected_phases (snd (run fuel p)) (snd (run fuel p')).
Proof.
  intros Hrot fuel p p' W X RP ((RI & NS) & V & _). unfold run.
  assert (S := system_reflected Hrot p p' _ _ W X RP RI NS (e_state _ _ W)).
  destruct (system p (ph_state p)) as [s|e] eqn:E, (system p' (ph_state p')) as [s'|e'] eqn:E'; cbn [both] in S; try contradiction.
  - assert (P : same_parameters p (set_ph_state p s)) by repeat split.
    apply (run_loop_reflected Hrot).
    + destruct W. constructor; assumption.
    + now apply (centred_parameters p).
    + now apply (real_phase_parameters p).
    + intros ps q x. apply V. exact E.
  - cbn [fst snd]. split; [constructor|exact S].
Qed.

Lemma centred_over : forall (o : option (Table N)) t, opt (fun t => Forall (fun x => centred x = true) (table_variables t)) o ->
  Forall (fun x => centred x = true) (table_variables t) -> Forall (fun x => centred x = true) (table_variables (over o t)).
Proof. intros [u|] t H K; assumption. Qed.
Lemma centred_axis : forall (a : axis N) o, centred (ax_var a) = true -> opt (fun x : StateVariable * vec3 N => centred (fst x) = true) o ->
  centred (ax_var (axis_update a o)) = true.
Proof. intros a [c|] H K; assumption. Qed.
Lemma centred_default : centred_phase (@default_phase N).
Proof.
  constructor; try reflexivity; (constructor; [reflexivity|constructor]).
Qed.
Lemma centred_configured : forall (q : Phase N) c, centred_phase q -> no_side c -> centred_phase (configured q c).
Proof.
  intros q c [X2 X3 X4 X5 X6 X7 X8] [K2 K3 K4].
  assert (V : Forall (fun x => centred x = true) (table_variables (ve_drag_coeff (ph_vehicle (configured q c)))) /\
     Forall (fun x => centred x = true) (table_variables (ve_lift_coeff (ph_vehicle (configured q c)))) /\
     Forall (fun x => centred x = true) (table_variables (ve_side_force_coeff (ph_vehicle (configured q c))))).
  { cbn [configured ph_vehicle]. destruct (pc_vehicle c) as [v|]; [|tauto]. destruct K2 as (A1 & A2 & A3).
    cbn [vehicle_update_with_config ve_drag_coeff ve_lift_coeff ve_side_force_coeff].
    split; [now apply centred_over|]. split; now apply centred_over. }
  destruct V as (V1 & V2 & V3).
  assert (S : centred (ax_var (sg_roll (ph_steering (configured q c)))) = true /\ centred (ax_var (sg_yaw (ph_steering (configured q c)))) = true /\
     centred (ax_var (sg_pitch (ph_steering (configured q c)))) = true).
  { cbn [configured ph_steering]. destruct (pc_steering c) as [s|]; [|tauto]. destruct K3 as (A1 & A2 & A3).
    cbn [steering_update_with_config sg_roll sg_yaw sg_pitch].
    split; [now apply centred_axis|]. split; now apply centred_axis. }
  destruct S as (S1 & S2 & S3).
  constructor; try assumption.
  - cbn [configured ph_end_criterion]. destruct (pc_end_criterion c) as [e|]; [exact K4|exact X8].
Qed.
Lemma centred_reset : forall p : Phase N, centred_phase p -> centred_phase (reset p).
Proof. intros p []. constructor; assumption. Qed.

Lemma reflected_mass : forall (s s' : State N) m, reflected s s' -> reflected (set_mass s m) (set_mass s' m).
Proof. intros s s' m []. constructor; try assumption; reflexivity. Qed.
Lemma reflected_event_time : forall (s s' : State N) m, reflected s s' -> reflected (set_time_since_event s m) (set_time_since_event s' m).
Proof. intros s s' m []. constructor; try assumption; reflexivity. Qed.
Lemma planet_of_reversed : forall c : PlanetConfig N, planet_of (reversed_planet c) = reverse_planet (planet_of c).
Proof. reflexivity. Qed.
Lemma reflect_twins_configured : forall (p p' : Phase N) c, reflect_twins p p' ->
  reflect_twins (configured p c) (configured p' (reflect_config c)).
Proof.
  intros p p' c [W1 W2 W3 W4 W5 W6 W7 W8 W9 W10 W11 W12].
  constructor; cbn [configured reflect_config pc_vehicle pc_steering pc_atmosphere pc_planet_model pc_max_acceleration pc_stepsize pc_end_criterion
    ph_vehicle ph_steering ph_atmosphere ph_planet ph_launch ph_max_acceleration ph_stepsize
    ph_base_stepsize ph_end_criterion ph_end_criterion_tries ph_ended]; rewrite ?W6, ?W7, ?W8, ?W9, ?W10, ?W11;
    try reflexivity; try exact W5.
  - rewrite W1. destruct (pc_vehicle c) as [v|]; [|reflexivity]. cbn [option_map].
    unfold vehicle_update_with_config, mirror_vehicle. cbn [mirror_vehicle_config vc_structure_mass vc_propellant_mass vc_reference_area
      vc_drag_coeff vc_lift_coeff vc_side_force_coeff vc_engines ve_structure_mass ve_initial_propellant_mass ve_reference_area
      ve_drag_coeff ve_lift_coeff ve_side_force_coeff ve_engines].
    rewrite !over_mirror. reflexivity.
  - rewrite W2. destruct (pc_steering c) as [v|]; [|reflexivity]. cbn [option_map].
    unfold steering_update_with_config, mirror_steering. cbn [mirror_steering_config sg_roll sg_yaw sg_pitch sc_roll sc_yaw sc_pitch].
    rewrite !axis_update_mirror. reflexivity.
  - rewrite W3. destruct (pc_atmosphere c) as [[e w]|]; [|reflexivity]. cbn [option_map ac_enabled ac_wind].
    destruct e as [[|]|], w as [w|]; reflexivity.
  - rewrite W4. destruct (pc_planet_model c) as [m|]; [|reflexivity]. cbn [option_map inherit]. apply planet_of_reversed.
  - cbn [configured ph_state].
    assert (M : mass_of p' (reflect_config c) = mass_of p c).
    { unfold mass_of. cbn [reflect_config pc_vehicle]. rewrite (rf_propellant_mass _ _ W12), W1, (rf_mass _ _ W12).
      destruct (pc_vehicle c) as [v|]; reflexivity. }
    change (pc_vehicle (reflect_config c)) with (option_map mirror_vehicle_config (pc_vehicle c)).
    rewrite M. destruct (pc_vehicle c) as [v|]; [|exact W12]. cbn [option_map mirror_vehicle_config vc_structure_mass vc_propellant_mass].
    destruct (vc_structure_mass v), (vc_propellant_mass v); try exact W12; now apply reflected_mass.
Qed.
Lemma reflect_twins_reset : forall (p p' : Phase N), reflect_twins p p' -> reflect_twins (reset p) (reset p').
Proof.
  intros p p' [W1 W2 W3 W4 W5 W6 W7 W8 W9 W10 W11 W12].
  constructor; try assumption; try reflexivity.
  - change (steering_init (ph_steering p') (st_euler_angles (ph_state p')) = mirror_steering (steering_init (ph_steering p) (st_euler_angles (ph_state p)))).
    rewrite W2, (rf_euler_angles _ _ W12). unfold steering_init, mirror_steering, axis_init, opposite_axis, mirror_angles.
    cbn [sg_roll sg_yaw sg_pitch vx vy vz ax_var ax_c0 ax_c]. rewrite !degrees_neg. reflexivity.
  - rewrite !reset_state. now apply reflected_event_time.
Qed.
Lemma reflect_twins_status : forall st st', reflected_phases st st' -> reflected_status st st'.
Proof. intros [q|e|q] [q'|e'|q'] H; try exact H; try contradiction; exact (e_state _ _ H). Qed.
Lemma reflected_records : forall h h', Forall2 reflected h h' -> Forall2 (reflected_event) (map ERecord h) (map ERecord h').
Proof. intros h h' H. induction H as [|s s' h h' A _ IH]; cbn [map]; constructor; assumption. Qed.

Lemma begun_reflected : rot_contract rot -> forall fuel i (p p' : Phase N) rest cs,
  begins cs (reset p) -> reflect_twins p p' -> centred_phase p -> real_params p -> regular (reset p) ->
  Forall real_config rest -> Forall no_side rest ->
  (forall cs1 q, begins cs1 q -> (exists cs2, cs ++ rest = cs1 ++ cs2) -> regular q) ->
  let tail (cs' : list (PhaseConfig N)) (st : status (Phase N)) := match st with
     | Finished p => sim_loop fuel (S i) (Some p) p cs'
     | _ => ([], st) end in
  Forall2 (reflected_event) (fst (tail rest (snd (run fuel (reset p))))) (fst (tail (map reflect_config rest) (snd (run fuel (reset p'))))) /\
  reflected_status (snd (tail rest (snd (run fuel (reset p))))) (snd (tail (map reflect_config rest) (snd (run fuel (reset p'))))).
Proof.
  intros Hrot fuel i p p' rest. revert i p p'. induction rest as [|c rest IH]; intros i p p' cs B W X PP G RC NL RG tail; unfold tail.
  - destruct (run_reflected Hrot fuel (reset p) (reset p')) as [A T]; [now apply reflect_twins_reset|now apply centred_reset| |exact G|].
    { apply reset_real; [exact PP| |apply G|exact G]. destruct (e_launch _ _ W) as (x & y & z & -> & _). eexists; reflexivity. }
    destruct (run fuel (reset p)) as [h [q|e|q]], (run fuel (reset p')) as [h' [q'|e'|q']]; cbn [snd reflected_phases] in T;
      try contradiction; cbn [sim_loop fst snd]; (split; [constructor|]); try exact T; exact (e_state _ _ T).
  - assert (RP : real_phase (reset p)).
    { apply reset_real; [exact PP| |apply G|exact G]. destruct (e_launch _ _ W) as (x & y & z & -> & _). eexists; reflexivity. }
    destruct (run_reflected Hrot fuel (reset p) (reset p')) as [A T]; [now apply reflect_twins_reset|now apply centred_reset|exact RP|exact G|].
    destruct (run fuel (reset p)) as [h st] eqn:R, (run fuel (reset p')) as [h' st'] eqn:R'. cbn [snd fst] in *.
    destruct st as [q|e|q], st' as [q'|e'|q']; cbn [reflected_phases] in T; try contradiction;
      try (cbn [fst snd]; split; [constructor|]; try exact T; exact (e_state _ _ T)).
    inversion RC as [|? ? C1 C2]; subst. inversion NL as [|? ? L1 L2]; subst.
    assert (Bn : begins (cs ++ [c]) (reset (configured q c))).
    { apply (begins_next cs (reset p) fuel h q c); [exact B|exact R|]. rewrite phase_new_configured. reflexivity. }
    assert (SP := C28_run_keeps_parameters fuel (reset p) h q (or_introl R)).
    destruct (IH (S i) (configured q c) (configured q' (reflect_config c)) (cs ++ [c])) as [J1 J2].
    + exact Bn.
    + now apply reflect_twins_configured.
    + apply centred_configured; [|exact L1]. apply (centred_parameters (reset p)); [exact SP|now apply centred_reset].
    + apply configured_params; [|exact C1]. apply (params_run _ _ _ _ R). now apply params_reset.
    + apply (RG (cs ++ [c])); [exact Bn|]. exists rest. rewrite <- app_assoc. reflexivity.
    + exact C2.
    + exact L2.
    + intros cs1 q1 B1 (cs2 & E). apply (RG cs1 q1 B1). exists cs2. rewrite <- E, <- app_assoc. reflexivity.
    + destruct (run_reflected Hrot fuel (reset (configured q c)) (reset (configured q' (reflect_config c)))) as [A1 T1].
      * apply reflect_twins_reset. now apply reflect_twins_configured.
      * apply centred_reset. apply centred_configured; [|exact L1]. apply (centred_parameters (reset p)); [exact SP|now apply centred_reset].
      * assert (Gn : regular (reset (configured q c))).
        { apply (RG (cs ++ [c])); [exact Bn|]. exists rest. rewrite <- app_assoc. reflexivity. }
        apply reset_real; [| |apply Gn|exact Gn].
        { apply configured_params; [|exact C1]. apply (params_run _ _ _ _ R). now apply params_reset. }
        { cbn [configured ph_launch]. destruct (e_launch _ _ T) as (x & y & z & -> & _). eexists; reflexivity. }
      * apply (RG (cs ++ [c])); [exact Bn|]. exists rest. rewrite <- app_assoc. reflexivity.
      * cbn [map sim_loop]. rewrite !phase_new_configured.
        destruct (run fuel (reset (configured q c))) as [h1 st1], (run fuel (reset (configured q' (reflect_config c)))) as [h1' st1'].
        cbn [fst snd] in *.
        destruct st1 as [q1|e1|q1], st1' as [q1'|e1'|q1']; cbn [reflected_phases] in T1; try contradiction;
          try (cbn [fst snd]; split; [constructor; [reflexivity|now apply reflected_records]|];
               first [exact T1|exact (e_state _ _ T1)]).
        destruct (sim_loop fuel (S (S i)) (Some q1) q1 rest) as [ev s1], (sim_loop fuel (S (S i)) (Some q1') q1' (map reflect_config rest)) as [ev' s1'].
        cbn [fst snd] in *. split; [|exact J2]. constructor; [reflexivity|]. apply Forall2_app; [now apply reflected_records|exact J1].
Qed.


Lemma reflected_default : forall m, reflected (set_mass (@default_state N) m) (set_mass default_state m).
Proof.
  intros m. constructor; try reflexivity; symmetry; first [exact left_right_zero|exact left_right_zero|exact mirror_angles_zero].
Qed.
Lemma reflected_site : forall (s s' : State N) r v, reflected s s' ->
  reflected (set_velocity (set_position s r) v) (set_velocity (set_position s' (left_right r)) (left_right v)).
Proof. intros s s' r v []. constructor; try assumption; reflexivity. Qed.
Lemma default_reflect_twins : forall c : PhaseConfig N,
  ph_vehicle (configured default_phase (reflect_config (planet_named c))) = mirror_vehicle (ph_vehicle (configured default_phase c)) /\
  ph_steering (configured default_phase (reflect_config (planet_named c))) = mirror_steering (ph_steering (configured default_phase c)) /\
  ph_atmosphere (configured default_phase (reflect_config (planet_named c))) = mkAtmosphere (left_right (at_wind (ph_atmosphere (configured default_phase c)))) (at_model (ph_atmosphere (configured default_phase c))) /\
  ph_planet (configured default_phase (reflect_config (planet_named c))) = reverse_planet (ph_planet (configured default_phase c)) /\
  reflected (ph_state (configured default_phase c)) (ph_state (configured default_phase (reflect_config (planet_named c)))).
Proof.
  intros c.
  assert (D : reflect_twins (set_ph_launch (@default_phase N) (finv (V3 0 0 0)))
    (set_ph_planet (set_ph_launch (@default_phase N) (finv (V3 0 (- 0) (- 0)))) (reverse_planet (ph_planet (@default_phase N))))).
  { constructor; try reflexivity.
    - unfold default_phase, default_steering, mirror_steering, opposite_axis, default_axis. cbn [set_ph_launch set_ph_planet ph_steering sg_roll sg_yaw sg_pitch ax_var ax_c0 ax_c].
      unfold vneg, vzero. cbn [vx vy vz n_neg XR]. change (@n_lit (XR rot) 0 0) with (Fin 0). rewrite xneg_0. reflexivity.
    - cbn [set_ph_launch set_ph_planet ph_atmosphere default_phase]. unfold default_atmosphere. cbn [at_wind at_model]. rewrite left_right_zero. reflexivity.
    - eexists 0, 0, 0. split; reflexivity.
    - cbn [set_ph_launch set_ph_planet ph_state default_phase].
      constructor; try reflexivity; symmetry; first [exact left_right_zero|exact mirror_angles_zero]. }
  apply (reflect_twins_configured _ _ c) in D. destruct D as [D1 D2 D3 _ _ _ _ _ _ _ _ D12].
  split; [exact D1|]. split; [exact D2|]. split; [exact D3|]. split; [|exact D12].
  destruct c as [ci cv cs [m|] ca cm cst ce]; [exact (planet_of_reversed m)|exact (planet_of_reversed Spherical)].
Qed.
Lemma first_reflect_twins : forall (c : PhaseConfig N) i, pc_init c = Some i -> real_config c ->
  reflect_twins (phase_init (configured default_phase c) i) (phase_init (configured default_phase (reflect_config (planet_named c))) (reflect_site i)).
Proof.
  intros c i Ei Hc.
  assert (PP := configured_params _ c default_params Hc).
  destruct (pp_planet _ PP) as (Re & Rp & mu0 & J2 & J3 & J4 & w & HP & P1 & P2).
  assert (HI := rc_init _ Hc). rewrite Ei in HI. destruct HI as (lat & long & az & alt & -> & Hlat).
  change (reflect_site (mkInitConfig (N := N) (Fin lat) (Fin long) (Fin az) (Fin alt)))
    with (mkInitConfig (N := N) (Fin lat) (Fin (- long)) (Fin (- az)) (Fin alt)).
  destruct (default_reflect_twins c) as (D1 & D2 & D3 & D4 & D5).
  assert (M6 : ph_max_acceleration (configured default_phase (reflect_config (planet_named c))) = ph_max_acceleration (configured default_phase c)) by reflexivity.
  assert (M7 : ph_stepsize (configured default_phase (reflect_config (planet_named c))) = ph_stepsize (configured default_phase c)) by reflexivity.
  assert (M8 : ph_base_stepsize (configured default_phase (reflect_config (planet_named c))) = ph_base_stepsize (configured default_phase c)) by reflexivity.
  assert (M9 : ph_end_criterion (configured default_phase (reflect_config (planet_named c))) = ph_end_criterion (configured default_phase c)) by reflexivity.
  assert (M10 : ph_end_criterion_tries (configured default_phase (reflect_config (planet_named c))) = ph_end_criterion_tries (configured default_phase c)) by reflexivity.
  assert (M11 : ph_ended (configured default_phase (reflect_config (planet_named c))) = ph_ended (configured default_phase c)) by reflexivity.
  set (q := configured default_phase c) in *. set (q' := configured default_phase (reflect_config (planet_named c))) in *. clearbody q q'.
  assert (HR : radii (ph_planet q) Re Rp) by (rewrite HP; repeat split; assumption).
  assert (Hw : pl_rotation_rate (ph_planet q) = Fin w) by (rewrite HP; reflexivity).
  assert (HR' : radii (ph_planet q') Re Rp) by (rewrite D4; exact HR).
  assert (Hw' : pl_rotation_rate (ph_planet q') = Fin (- w)) by (rewrite D4; cbn [reverse_planet pl_rotation_rate]; rewrite Hw; reflexivity).
  destruct (phase_init_fin q Re Rp w lat long az (Fin alt) HR Hw Hlat) as (F1 & F2 & F3).
  destruct (phase_init_fin q' Re Rp (- w) lat (- long) (- az) (Fin alt) HR' Hw' Hlat) as (G1 & G2 & G3).
  assert (E1 : deg (- long) = - deg long) by (unfold deg; field).
  assert (E2 : deg (- az) = - deg az) by (unfold deg; field).
  rewrite E1, cos_neg, sin_neg in G1, G2. rewrite E1, E2 in G3.
  set (g := atan _) in *.
  set (dd := Re / sqrt _) in *. set (r := scaleR dd (V3 (cos g * cos (deg long)) (cos g * sin (deg long)) (sin g))) in *.
  assert (TP : scaleR dd (V3 (cos g * cos (deg long)) (cos g * - sin (deg long)) (sin g)) = side r).
  { unfold r, side, scaleR. cbn [vx vy vz]. f_equal; ring. }
  rewrite TP in G1, G2.
  assert (TV : crossR (V3 0 0 (- w)) (side r) = side (crossR (V3 0 0 w) r)).
  { unfold side, crossR. cbn [vx vy vz]. f_equal; ring. }
  rewrite TV in G2.
  destruct (phase_init_state q (mkInitConfig (N := N) (Fin lat) (Fin long) (Fin az) (Fin alt))) as (x & v & E).
  destruct (phase_init_state q' (mkInitConfig (N := N) (Fin lat) (Fin (- long)) (Fin (- az)) (Fin alt))) as (x' & v' & E').
  constructor; try assumption.
  - eexists _, _, _. split; [exact F3|exact G3].
  - rewrite E in F1, F2. rewrite E' in G1, G2. rewrite E, E'.
    change (x = finv r) in F1. change (x' = left_right (finv r)) in G1.
    change (v = finv (crossR (V3 0 0 w) r)) in F2. change (v' = left_right (finv (crossR (V3 0 0 w) r))) in G2.
    rewrite F1, F2, G1, G2. apply reflected_site. exact D5.
Qed.

(** ** C66 *)
(** The equations of motion, with engines, aerodynamic forces and an acceleration limit: of two reflected
    phases at reflected states, both abort for the same reason or both give reflected derived quantities. *)
Theorem C66_evaluation : rot_contract rot -> forall (p p' : Phase N) (s s' : State N),
  reflect_twins p p' -> centred_phase p -> real_phase p -> real_input s -> ~ singular p s -> reflected s s' ->
  match system p s, system p' s' with
  | Ret d, Ret d' => reflected d d'
  | Panic e, Panic e' => e = e'
  | _, _ => False
  end.
Proof. exact system_reflected. Qed.
(** The mirror image of a mission writes the mirror image of its output, and ends in the same way. *)
Theorem C66_mirror : rot_contract rot -> forall fuel (cs : list (PhaseConfig N)) ev st,
  Forall real_config cs -> Forall no_side cs ->
  (forall cs1 cs2 p, cs = cs1 ++ cs2 -> begins cs1 p -> regular p) ->
  simulate fuel cs = (ev, st) ->
  exists ev' st', simulate fuel (reflect_mission cs) = (ev', st') /\
    Forall2 reflected_event ev ev' /\ reflected_status st st'.
Proof.
  intros Hrot fuel cs ev st RC NL RG H.
  destruct cs as [|c rest].
  { cbn [reflect_mission]. unfold simulate in *. cbn [sim_loop] in *. injection H as <- <-. eexists _, _. split; [reflexivity|].
    split; [constructor|]. cbn [reflected_status default_phase ph_state].
    constructor; try reflexivity; symmetry; first [exact left_right_zero|exact left_right_zero|exact mirror_angles_zero]. }
  inversion RC as [|? ? C1 C2]; subst. inversion NL as [|? ? L1 L2]; subst.
  unfold simulate in *. cbn [reflect_mission sim_loop] in *. rewrite phase_new_configured in H |- *.
  change (pc_init (reflect_config (planet_named c))) with (option_map reflect_site (pc_init c)).
  destruct (pc_init c) as [i|] eqn:Ei.
  2: { cbn [option_map]. injection H as <- <-.
       eexists _, _. split; [reflexivity|]. split; [constructor; [reflexivity|constructor]|reflexivity]. }
  cbn [option_map].
  assert (W := first_reflect_twins c i Ei C1).
  assert (B : begins [c] (reset (phase_init (configured default_phase c) i))).
  { apply begins_first. rewrite phase_new_configured, Ei. reflexivity. }
  assert (X : centred_phase (phase_init (configured default_phase c) i)).
  { destruct (centred_configured _ _ centred_default L1). constructor; assumption. }
  assert (PP : real_params (phase_init (configured default_phase c) i)).
  { destruct (configured_params _ c default_params C1). constructor; assumption. }
  revert H W B X PP. generalize (phase_init (configured default_phase (reflect_config (planet_named c))) (reflect_site i)).
  generalize (phase_init (configured default_phase c) i). intros p p' H W B X PP.
  assert (G : regular (reset p)) by (apply (RG [c] rest); [reflexivity|exact B]).
  destruct (begun_reflected Hrot fuel 1 p p' rest [c] B W X PP G C2 L2) as [J1 J2].
  { intros cs1 q B1 (cs2 & E). exact (RG cs1 cs2 q E B1). }
  destruct (run_reflected Hrot fuel (reset p) (reset p')) as [A T]; [now apply reflect_twins_reset|now apply centred_reset| |exact G|].
  { apply reset_real; [exact PP| |apply G|exact G]. destruct (e_launch _ _ W) as (x & y & z & -> & _). eexists; reflexivity. }
  destruct (run fuel (reset p)) as [h1 st1], (run fuel (reset p')) as [h1' st1'].
  cbn [fst snd] in *.
  destruct st1 as [q1|e1|q1], st1' as [q1'|e1'|q1']; cbn [reflected_phases] in T; try contradiction;
    try (injection H as <- <-; eexists _, _; split; [reflexivity|]; split; [constructor; [reflexivity|now apply reflected_records]|];
         first [exact T|exact (e_state _ _ T)]).
  destruct (sim_loop fuel 2 (Some q1) q1 rest) as [ev2 s2], (sim_loop fuel 2 (Some q1') q1' (map reflect_config rest)) as [ev2' s2'].
  cbn [fst snd] in *. injection H as <- <-.
  eexists _, _. split; [reflexivity|]. split; [|exact J2]. constructor; [reflexivity|].
  apply Forall2_app; [now apply reflected_records|exact J1].
Qed.
End Exact.
