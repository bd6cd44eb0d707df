(** * C56: the launch longitude only turns the trajectory about the planet's axis *)
From Coq Require Import ZArith List Reals Lra Lia Bool Classical_Prop.
From Verif Require Import Num Constants State Tables Config Planet Atmosphere Transformations
  Steering Vehicle RungeKutta Phase Simulation XR XRFacts SpecReal SystemFacts RKFacts RunFacts PhaseNew
  Prop_Run SystemTotal TablesFacts Prop_Tables Prop_Panics Prop_Time Prop_Planet Prop_Gravity Prop_Frames Prop_Atmosphere Prop_Interp Prop_Aero
  Prop_Throttle Prop_Steering Prop_Limit Prop_Real Prop_RealSim.
Import ListNotations.
Local Open Scope R_scope.

(** ** Specification *)
(** Turning a vector about the polar axis ([turn], C48) on the numbers of the simulation. *)
Definition turnedv (a : R) (v v' : vec3 xr) : Prop := exists r, v = finv r /\ v' = finv (turn a r).

(** Variables that do not change when everything is turned about the polar axis: all but the two
    equatorial components of the vectors in the inertial and the planet frame. *)
Definition axial (v : StateVariable) : bool :=
  match v with
  | Position1 | Position2 | PositionPlanet1 | PositionPlanet2 | Velocity1 | Velocity2
  | VelocityPlanet1 | VelocityPlanet2 | VelocityAtmosphere1 | VelocityAtmosphere2
  | Acceleration1 | Acceleration2 | GravityAcceleration1 | GravityAcceleration2 => false
  | _ => true
  end.

Section Exact.
Context {rot : mat3 xr -> mat3 xr}.
Notation N := (XR rot).

(** The same state, turned: vectors of the inertial and the planet frame are turned, everything else is
    the same. *)
Record turned (a : R) (s s' : State N) : Prop := {
  u_time : st_time s' = st_time s;
  u_time_since_event : st_time_since_event s' = st_time_since_event s;
  u_position : turnedv a (st_position s) (st_position s');
  u_position_planet : turnedv a (st_position_planet s) (st_position_planet s');
  u_altitude : st_altitude s' = st_altitude s;
  u_altitude_geopotential : st_altitude_geopotential s' = st_altitude_geopotential s;
  u_velocity : turnedv a (st_velocity s) (st_velocity s');
  u_velocity_planet : turnedv a (st_velocity_planet s) (st_velocity_planet s');
  u_velocity_atmosphere : turnedv a (st_velocity_atmosphere s) (st_velocity_atmosphere s');
  u_acceleration : turnedv a (st_acceleration s) (st_acceleration s');
  u_thrust_force_body : st_thrust_force_body s' = st_thrust_force_body s;
  u_aero_force_body : st_aero_force_body s' = st_aero_force_body s;
  u_vehicle_acceleration_body : st_vehicle_acceleration_body s' = st_vehicle_acceleration_body s;
  u_gravity_acceleration : turnedv a (st_gravity_acceleration s) (st_gravity_acceleration s');
  u_mass : st_mass s' = st_mass s;
  u_propellant_mass : st_propellant_mass s' = st_propellant_mass s;
  u_massflow : st_massflow s' = st_massflow s;
  u_temperature : st_temperature s' = st_temperature s;
  u_pressure : st_pressure s' = st_pressure s;
  u_density : st_density s' = st_density s;
  u_mach_number : st_mach_number s' = st_mach_number s;
  u_dynamic_pressure : st_dynamic_pressure s' = st_dynamic_pressure s;
  u_alpha : st_alpha s' = st_alpha s;
  u_euler_angles : st_euler_angles s' = st_euler_angles s;
  u_throttle : st_throttle s' = st_throttle s }.

(** The same configuration with the launch site [d] degrees further east. *)
Definition moved_east (d : R) (c : PhaseConfig N) : PhaseConfig N :=
  mkPhaseConfig (option_map (fun i => mkInitConfig (N := N) (ic_latitude i) (n_add (ic_longitude i) (Fin d))
                                         (ic_azimuth i) (ic_altitude i)) (pc_init c))
    (pc_vehicle c) (pc_steering c) (pc_planet_model c) (pc_atmosphere c) (pc_max_acceleration c)
    (pc_stepsize c) (pc_end_criterion c).

(** The same output, turned. *)
Definition turned_event (a : R) (e e' : event N) : Prop :=
  match e, e' with
  | EPhase i, EPhase j => i = j
  | ERecord s, ERecord s' => turned a s s'
  | _, _ => False
  end.
Definition turned_status (a : R) (st st' : status (Phase N)) : Prop :=
  match st, st' with
  | Finished q, Finished q' => turned a (ph_state q) (ph_state q')
  | Running q, Running q' => turned a (ph_state q) (ph_state q')
  | Aborted e, Aborted e' => e = e'
  | _, _ => False
  end.

(** Configurations without a distinguished longitude: wind blows along the axis, and steering, tables and
    the end criterion use axial variables only. *)
Record no_longitude (c : PhaseConfig N) : Prop := {
  nl_wind : opt (fun a : AtmosphereConfig N => opt (fun w => exists z, w = finv (V3 0 0 z)) (ac_wind a)) (pc_atmosphere c);
  nl_tables : opt (fun v : VehicleConfig N =>
      opt (fun t => Forall (fun x => axial x = true) (table_variables t)) (vc_drag_coeff v) /\
      opt (fun t => Forall (fun x => axial x = true) (table_variables t)) (vc_lift_coeff v) /\
      opt (fun t => Forall (fun x => axial x = true) (table_variables t)) (vc_side_force_coeff v)) (pc_vehicle c);
  nl_steering : opt (fun s : SteeringConfig N => opt (fun x : StateVariable * vec3 N => axial (fst x) = true) (sc_roll s) /\
      opt (fun x : StateVariable * vec3 N => axial (fst x) = true) (sc_yaw s) /\
      opt (fun x : StateVariable * vec3 N => axial (fst x) = true) (sc_pitch s)) (pc_steering c);
  nl_criterion : opt (fun e : StateVariable * N => axial (fst e) = true) (pc_end_criterion c) }.

(** The points at which a step of size [h] from [s] evaluates [f], up to the first failure. *)
Local Notation sm := (rk_sum v7_zero v7_add v7_scale (N := N)).
Local Notation half := (@n_lit N 5 (-1)).
Section Visits.
Variable f : State N -> outcome (State N).
Variables (s : State N) (h : N).
Let k (d : State N) := v7_scale h (to_differentials_vector d).
Let at_ (c : N) (v : vec7 N) := from_vec (st_time s + c * h, st_time_since_event s + c * h)%num (v7_add (to_primary_vec s) v).
Definition point0 : State N := at_ #0%num (sm [#0; #0; #0; #0]%num [v7_zero; v7_zero; v7_zero; v7_zero]).
Definition point1 (d0 : State N) : State N := at_ half (sm [half; #0; #0; #0]%num [k d0; v7_zero; v7_zero; v7_zero]).
Definition point2 (d0 d1 : State N) : State N := at_ half (sm [#0; half; #0; #0]%num [k d0; k d1; v7_zero; v7_zero]).
Definition point3 (d0 d1 d2 : State N) : State N := at_ #1%num (sm [#0; #0; #1; #0]%num [k d0; k d1; k d2; v7_zero]).
Definition point4 (d0 d1 d2 d3 : State N) : State N :=
  from_vec (st_time s + h, st_time_since_event s + h)%num
    (v7_add (to_primary_vec s) (sm [#1 / #6; #1 / #3; #1 / #3; #1 / #6]%num [k d0; k d1; k d2; k d3])).
Definition visits (x : State N) : Prop :=
  x = point0 \/ exists d0, f point0 = Ret d0 /\
  (x = point1 d0 \/ exists d1, f (point1 d0) = Ret d1 /\
  (x = point2 d0 d1 \/ exists d2, f (point2 d0 d1) = Ret d2 /\
  (x = point3 d0 d1 d2 \/ exists d3, f (point3 d0 d1 d2) = Ret d3 /\
   x = point4 d0 d1 d2 d3))).
End Visits.

(** The phase entered as [p] evaluates the equations of motion at real states only, and never at the centre
    of the planet, without mass or at infinite geopotential altitude (C52). *)
Definition regular (p : Phase N) : Prop :=
  (real_input (ph_state p) /\ ~ singular p (ph_state p)) /\
  (forall s0 ps q x, initial p s0 -> chain (set_ph_state p s0) ps -> In q (set_ph_state p s0 :: ps) ->
    ph_ended q = false -> visits (system q) (ph_state q) (ph_stepsize q) x -> real_input x /\ ~ singular q x) /\
  (In MachNumber (steering_variables (ph_steering p)) -> with_air p).

(** ** Proof *)
Ltac allreal := repeat first [assumption | apply Forall_nil | apply Forall_cons].
Lemma turn_add : forall a u v, turn a (addR u v) = addR (turn a u) (turn a v).
Proof. intros a [x y z] [x' y' z']. unfold turn, addR. cbn [vx vy vz]. f_equal; ring. Qed.
Lemma turn_scale : forall a k v, turn a (scaleR k v) = scaleR k (turn a v).
Proof. intros a k [x y z]. unfold turn, scaleR. cbn [vx vy vz]. f_equal; ring. Qed.
Lemma turn_zero : forall a, turn a zeroR = zeroR.
Proof. intros a. unfold turn, zeroR. cbn [vx vy vz]. f_equal; ring. Qed.
Lemma turn_sub_axial : forall a v z, subR (turn a v) (V3 0 0 z) = turn a (subR v (V3 0 0 z)).
Proof. intros a [x y z'] z. unfold turn, subR. cbn [vx vy vz]. f_equal; ring. Qed.
Lemma turn_spin : forall a u v w,
  subR (turn a u) (crossR (V3 0 0 w) (turn a v)) = turn a (subR u (crossR (V3 0 0 w) v)).
Proof. intros a [x y z] [x' y' z'] w. unfold turn, subR, crossR. cbn [vx vy vz]. f_equal; ring. Qed.
Lemma turn_Rz : forall a t v, mulvR (Rz t) (turn a v) = turn a (mulvR (Rz t) v).
Proof. intros a t [x y z]. unfold turn, mulvR, dotR, Rz. cbn [vx vy vz row0 row1 row2]. f_equal; ring. Qed.
Lemma Rz_turn : forall t a v, mulvR (Rz (t + a)) (turn a v) = mulvR (Rz t) v.
Proof.
  intros t a [x y z]. unfold turn, mulvR, dotR, Rz. cbn [vx vy vz row0 row1 row2].
  rewrite cos_plus, sin_plus. pose proof (sin2_cos2 a) as H. unfold Rsqr in H.
  assert (K : cos a * cos a = 1 - sin a * sin a) by lra.
  apply V3_eq; [| |ring].
  - replace (_ + _ + _) with ((cos a * cos a) * (cos t * x + sin t * y) + (sin a * sin a) * (cos t * x + sin t * y)) by ring.
    rewrite K. ring.
  - replace (_ + _ + _) with ((cos a * cos a) * (- sin t * x + cos t * y) + (sin a * sin a) * (- sin t * x + cos t * y)) by ring.
    rewrite K. ring.
Qed.
Lemma RzT_turn : forall t a v, mulvR (transposeR (Rz (t + a))) v = turn a (mulvR (transposeR (Rz t)) v).
Proof.
  intros t a [x y z]. unfold turn, mulvR, dotR, Rz, transposeR. cbn [vx vy vz row0 row1 row2].
  rewrite cos_plus, sin_plus. apply V3_eq; ring.
Qed.
Lemma i2l_turn : forall lat long az a v, mulvR (i2l lat (long + a) az) (turn a v) = mulvR (i2l lat long az) v.
Proof. intros. unfold i2l. rewrite !mulvR_mulmR, Rz_turn. reflexivity. Qed.
Lemma transpose_mulm : forall a b, transposeR (mulmR a b) = mulmR (transposeR b) (transposeR a).
Proof.
  intros [[b0 b1 b2] [b3 b4 b5] [b6 b7 b8]] [[c0 c1 c2] [c3 c4 c5] [c6 c7 c8]].
  unfold mulmR, transposeR, mulvR, dotR. cbn [vx vy vz row0 row1 row2]. repeat (apply M3_eq || apply V3_eq); ring.
Qed.
Lemma i2lT_turn : forall lat long az a v,
  mulvR (transposeR (i2l lat (long + a) az)) v = turn a (mulvR (transposeR (i2l lat long az)) v).
Proof. intros. unfold i2l. rewrite !transpose_mulm, !mulvR_mulmR, RzT_turn. reflexivity. Qed.
Lemma altitude_turn : forall (p : Planet N) a r, altitude p (finv (turn a r)) = altitude p (finv r).
Proof. intros p a [x y z]. unfold altitude. rewrite !norm_fin, turn_norm. reflexivity. Qed.

Lemma turnedv_norm : forall a v v', turnedv a v v' -> norm (N := N) v' = norm (N := N) v.
Proof. intros a v v' (r & -> & ->). rewrite !norm_fin, turn_norm. reflexivity. Qed.
Lemma turnedv_z : forall a v v', turnedv a v v' -> vz v' = vz v.
Proof. intros a v v' ([x y z] & -> & ->). reflexivity. Qed.
Lemma turned_value : forall a (s s' : State N) v, turned a s s' -> axial v = true -> get_value v s' = get_value v s.
Proof.
  intros a s s' v H Hv. destruct H.
  destruct v; try discriminate Hv; cbn [get_value]; try congruence;
    first [eapply turnedv_norm; eassumption | eapply turnedv_z; eassumption].
Qed.

(** The same phase, turned. *)
Record twins (a : R) (p p' : Phase N) : Prop := {
  w_vehicle : ph_vehicle p' = ph_vehicle p;
  w_steering : ph_steering p' = ph_steering p;
  w_atmosphere : ph_atmosphere p' = ph_atmosphere p;
  w_planet : ph_planet p' = ph_planet p;
  w_launch : exists lat long az, ph_launch p = finv (V3 lat long az) /\ ph_launch p' = finv (V3 lat (long + a) az);
  w_max_acceleration : ph_max_acceleration p' = ph_max_acceleration p;
  w_stepsize : ph_stepsize p' = ph_stepsize p;
  w_base_stepsize : ph_base_stepsize p' = ph_base_stepsize p;
  w_criterion : ph_end_criterion p' = ph_end_criterion p;
  w_tries : ph_end_criterion_tries p' = ph_end_criterion_tries p;
  w_ended : ph_ended p' = ph_ended p;
  w_state : turned a (ph_state p) (ph_state p') }.

Record axial_phase (p : Phase N) : Prop := {
  xp_wind : exists z, at_wind (ph_atmosphere p) = finv (V3 0 0 z);
  xp_drag : Forall (fun x => axial x = true) (table_variables (ve_drag_coeff (ph_vehicle p)));
  xp_lift : Forall (fun x => axial x = true) (table_variables (ve_lift_coeff (ph_vehicle p)));
  xp_side : Forall (fun x => axial x = true) (table_variables (ve_side_force_coeff (ph_vehicle p)));
  xp_roll : axial (ax_var (sg_roll (ph_steering p))) = true;
  xp_yaw : axial (ax_var (sg_yaw (ph_steering p))) = true;
  xp_pitch : axial (ax_var (sg_pitch (ph_steering p))) = true;
  xp_criterion : axial (fst (ph_end_criterion p)) = true }.

(** Outcomes that correspond. *)
Definition both {A} (R : A -> A -> Prop) (o o' : outcome A) : Prop :=
  match o, o' with Ret x, Ret x' => R x x' | Panic e, Panic e' => e = e' | _, _ => False end.

Lemma equations_turned : rot_contract rot -> forall a (p p' : Phase N) (s0 s0' s s' : State N),
  twins a p p' -> axial_phase p -> real_phase p -> real_input s0 -> ~ singular p s0 -> turned a s0 s0' ->
  equations p s0 s -> equations p' s0' s' ->
  guard p' s' = guard p s /\ (guard p s = false -> turned a s s').
Proof.
  intros Hrot a p p' s0 s0' s s' W X RP RI NS T Q Q'.
  destruct (evaluation_equations Hrot p s0 s RP RI NS Q) as [(P & f & EP & Ef & (e & Ee)) K].
  destruct W as [W1 W2 W3 W4 (lat & long & az & L & L') W6 _ _ _ _ _ _].
  destruct X as [(z & Xw) X2 X3 X4 X5 X6 X7 _].
  destruct (rp_planet _ RP) as (Re & Rp & mu0 & J2 & J3 & J4 & w & HP & PRe & PRp).
  assert (Hw : pl_rotation_rate (ph_planet p) = Fin w) by (rewrite HP; reflexivity).
  assert (A1 : st_time s' = st_time s) by (rewrite (q_time _ _ _ Q), (q_time _ _ _ Q'); apply T).
  assert (A2 : st_time_since_event s' = st_time_since_event s)
    by (rewrite (q_time_since_event _ _ _ Q), (q_time_since_event _ _ _ Q'); apply T).
  assert (A3 : turnedv a (st_position s) (st_position s')) by (rewrite (q_position _ _ _ Q), (q_position _ _ _ Q'); apply T).
  assert (A4 : turnedv a (st_velocity s) (st_velocity s')) by (rewrite (q_velocity _ _ _ Q), (q_velocity _ _ _ Q'); apply T).
  assert (A5 : st_mass s' = st_mass s) by (rewrite (q_mass _ _ _ Q), (q_mass _ _ _ Q'); apply T).
  destruct (ri_time _ RI) as [t Ht]. rewrite <- (q_time _ _ _ Q) in Ht.
  destruct A3 as (r & Er & Er'). destruct A4 as (u & Eu & Eu').
  assert (Nr : r <> zeroR). { intros ->. apply NS. left. rewrite <- (q_position _ _ _ Q). exact Er. }
  assert (A6 : turnedv a (st_position_planet s) (st_position_planet s')).
  { rewrite (q_position_planet _ _ _ Q), (q_position_planet _ _ _ Q'), W4, A1, Ht, Er, Er', Hw. unfold inertial_to_planet.
    rewrite inertial_to_planet_real. cbn [n_rot XR]. rewrite (Hrot _ (Rz_rotation _)), !mulv_fin, turn_Rz.
    eexists; split; reflexivity. }
  assert (A7 : turnedv a (st_velocity_planet s) (st_velocity_planet s')).
  { rewrite (q_velocity_planet _ _ _ Q), (q_velocity_planet _ _ _ Q'), W4, Er, Er', Eu, Eu'. unfold velocity_planet. rewrite Hw.
    change (V3 (@n_lit N 0 0) (n_lit 0 0) (Fin w)) with (finv (V3 0 0 w)).
    rewrite !vcross_fin, !vsub_fin, turn_spin. eexists; split; reflexivity. }
  assert (A8 : st_altitude s' = st_altitude s).
  { rewrite (q_altitude _ _ _ Q), (q_altitude _ _ _ Q'), W4, Er, Er'. apply altitude_turn. }
  assert (A9 : st_altitude_geopotential s' = st_altitude_geopotential s).
  { rewrite (q_altitude_geopotential _ _ _ Q), (q_altitude_geopotential _ _ _ Q'), W4, Er, Er'.
    unfold geopotential_altitude. rewrite altitude_turn. reflexivity. }
  assert (A10 : st_propellant_mass s' = st_propellant_mass s).
  { rewrite (q_propellant_mass _ _ _ Q), (q_propellant_mass _ _ _ Q'), W1, A5. reflexivity. }
  assert (A11 : turnedv a (st_gravity_acceleration s) (st_gravity_acceleration s')).
  { rewrite (q_gravity _ _ _ Q), (q_gravity _ _ _ Q'), W4, Er, Er'.
    destruct (C48_axisymmetric (ph_planet p) Re Rp mu0 J2 J3 J4 w r a HP Nr) as (g & E1 & E2).
    exists g. split; assumption. }
  assert (A12 : turnedv a (st_velocity_atmosphere s) (st_velocity_atmosphere s')).
  { rewrite (q_velocity_atmosphere _ _ _ Q), (q_velocity_atmosphere _ _ _ Q'), W3, Xw.
    destruct A7 as (v & -> & ->). rewrite !vsub_fin, turn_sub_axial. eexists; split; reflexivity. }
  assert (N12 := turnedv_norm _ _ _ A12).
  assert (A13 : st_temperature s' = st_temperature s).
  { assert (B := q_temperature _ _ _ Q). assert (B' := q_temperature _ _ _ Q'). rewrite W3 in B'. unfold at_temperature in B, B'.
    rewrite A9, B in B'. injection B' as ->. reflexivity. }
  assert (A14 : st_pressure s' = st_pressure s).
  { assert (B := q_pressure _ _ _ Q). assert (B' := q_pressure _ _ _ Q'). rewrite W3 in B'. unfold at_pressure in B, B'.
    rewrite A9, B in B'. injection B' as ->. reflexivity. }
  assert (A15 : st_density s' = st_density s).
  { assert (B := q_density _ _ _ Q). assert (B' := q_density _ _ _ Q'). rewrite W3 in B'. unfold at_density in B, B'.
    rewrite A9, B in B'. injection B' as ->. reflexivity. }
  assert (A16 : st_mach_number s' = st_mach_number s).
  { assert (B := q_mach_number _ _ _ Q). assert (B' := q_mach_number _ _ _ Q'). rewrite W3 in B'.
    unfold at_mach_number, at_speed_of_sound in B, B'. rewrite A9, N12, B in B'. injection B' as ->. reflexivity. }
  assert (A17 : st_dynamic_pressure s' = st_dynamic_pressure s).
  { rewrite (q_dynamic_pressure _ _ _ Q), (q_dynamic_pressure _ _ _ Q'), W3. unfold at_dynamic_pressure.
    rewrite A15, N12. reflexivity. }
  assert (BA : turned a (before_attitude s0 s) (before_attitude s0' s')).
  { destruct T. constructor; try assumption.
    - exists r. split; assumption.
    - exists u. split; assumption. }
  assert (A18 : st_euler_angles s' = st_euler_angles s).
  { rewrite (q_euler_angles _ _ _ Q), (q_euler_angles _ _ _ Q'), W2. unfold steering_euler_angles.
    rewrite !(turned_value _ _ _ _ BA) by assumption. reflexivity. }
  assert (A19 : st_alpha s' = st_alpha s).
  { rewrite (q_alpha _ _ _ Q), (q_alpha _ _ _ Q'), A18, L, L', Ee, !(inertial_to_body_real Hrot).
    destruct A12 as (v & -> & ->). rewrite !mulv_fin, !mulvR_mulmR. cbn [vx vy vz]. rewrite i2l_turn. reflexivity. }
  assert (BB : turned a (before_aero s0 s) (before_aero s0' s')).
  { destruct BA. constructor; assumption. }
  assert (A20 : st_aero_force_body s' = st_aero_force_body s).
  { assert (B := q_aero_force _ _ _ Q). assert (B' := q_aero_force _ _ _ Q').
    rewrite Forall_forall in X2, X3, X4.
    rewrite W1 in B'. unfold aero_force in B, B'.
    rewrite !(at_state_ext _ (before_aero s0' s') (before_aero s0 s)) in B'
      by (intros x Hx; apply (turned_value a); [exact BB|auto]).
    assert (E1 : st_alpha (before_aero s0' s') = st_alpha (before_aero s0 s)) by exact A19.
    assert (E2 : st_dynamic_pressure (before_aero s0' s') = st_dynamic_pressure (before_aero s0 s)) by exact A17.
    rewrite E1, E2 in B'. congruence. }
  assert (A21 : st_throttle s' = st_throttle s).
  { rewrite (q_throttle _ _ _ Q), (q_throttle _ _ _ Q'), W1, W6, A5, A14, A20. reflexivity. }
  assert (A22 : st_thrust_force_body s' = st_thrust_force_body s).
  { rewrite (q_thrust _ _ _ Q), (q_thrust _ _ _ Q'), W1, A21, A14. reflexivity. }
  assert (A23 : st_massflow s' = st_massflow s).
  { rewrite (q_massflow _ _ _ Q), (q_massflow _ _ _ Q'), W1, A21. reflexivity. }
  assert (A24 : st_vehicle_acceleration_body s' = st_vehicle_acceleration_body s).
  { rewrite (q_vehicle_acceleration _ _ _ Q), (q_vehicle_acceleration _ _ _ Q'), A20, A22, A5. reflexivity. }
  assert (G : guard p' s' = guard p s) by (unfold guard; rewrite A24, A21, W6; reflexivity).
  split; [exact G|]. intros G0.
  assert (RS : real_state (with_air p) s).
  { apply K. unfold guard in G0. apply orb_false_elim in G0. apply G0. }
  assert (A25 : turnedv a (st_acceleration s) (st_acceleration s')).
  { rewrite (q_acceleration _ _ _ Q), (q_acceleration _ _ _ Q'), A18, A24, L, L', Ee, !(inertial_to_body_real Hrot), !transpose_fin.
    destruct (r_vehicle_acceleration_body _ _ RS) as [b ->]. destruct A11 as (g & -> & ->).
    rewrite !mulv_fin, !vadd_fin, !transpose_mulm, !mulvR_mulmR. cbn [vx vy vz]. rewrite i2lT_turn, <- turn_add.
    eexists; split; reflexivity. }
  constructor; try assumption.
  - exists r. split; assumption.
  - exists u. split; assumption.
Qed.
Lemma system_turned : rot_contract rot -> forall a (p p' : Phase N) (s0 s0' : State N),
  twins a p p' -> axial_phase p -> real_phase p -> real_input s0 -> ~ singular p s0 -> turned a s0 s0' ->
  both (turned a) (system p s0) (system p' s0').
Proof.
  intros Hrot a p p' s0 s0' W X RP RI NS T.
  assert (L : lookups_ok p).
  { apply accepted_lookups. split; [|split]; apply real_table_accepted; apply RP. }
  assert (L' : lookups_ok p').
  { apply accepted_lookups. rewrite !(w_vehicle _ _ _ W). split; [|split]; apply real_table_accepted; apply RP. }
  destruct (system_total p s0 L) as (s & Q & E). destruct (system_total p' s0' L') as (s' & Q' & E').
  destruct (equations_turned Hrot a p p' s0 s0' s s' W X RP RI NS T Q Q') as [G U].
  rewrite E, E', G. destruct (guard p s); [reflexivity|]. apply U. reflexivity.
Qed.

Lemma integrator_step_points : forall (f : State N -> outcome (State N)) (s : State N) (h : N),
  integrator_step f s h =
  bind (f (point0 s h)) (fun d0 => bind (f (point1 s h d0)) (fun d1 => bind (f (point2 s h d0 d1))
    (fun d2 => bind (f (point3 s h d0 d1 d2)) (fun d3 => f (point4 s h d0 d1 d2 d3))))).
Proof.
  intros f s h. unfold integrator_step, rk_step, RK4. cbn [rk_b length repeat seq rk_loop]. unfold rk_stage.
  cbn [rk_c rk_a index nth_error bind]. unfold t_add_scalar. cbn [fst snd].
  change (from_vec _ _) with (point0 s h) at 1.
  destruct (f (point0 s h)) as [d0|e]; [|reflexivity]. cbn [bind set_column firstn skipn app].
  change (from_vec _ _) with (point1 s h d0) at 1.
  destruct (f (point1 s h d0)) as [d1|e]; [|reflexivity]. cbn [bind set_column firstn skipn app].
  change (from_vec _ _) with (point2 s h d0 d1) at 1.
  destruct (f (point2 s h d0 d1)) as [d2|e]; [|reflexivity]. cbn [bind set_column firstn skipn app].
  change (from_vec _ _) with (point3 s h d0 d1 d2) at 1.
  destruct (f (point3 s h d0 d1 d2)) as [d3|e]; reflexivity.
Qed.

Definition turned7 (a : R) (v v' : vec7 N) : Prop :=
  turnedv a (v7_pos v) (v7_pos v') /\ turnedv a (v7_vel v) (v7_vel v') /\ v7_mass v' = v7_mass v.
Lemma turnedv_zero : forall a, turnedv a (finv zeroR) (finv zeroR).
Proof. intros a. exists zeroR. rewrite turn_zero. split; reflexivity. Qed.
Lemma turned7_zero : forall a, turned7 a v7_zero v7_zero.
Proof. intros a. split; [apply turnedv_zero|]. split; [apply turnedv_zero|reflexivity]. Qed.
Lemma turned7_add : forall a u u' v v', turned7 a u u' -> turned7 a v v' -> turned7 a (v7_add u v) (v7_add u' v').
Proof.
  intros a u u' v v' ((r & E1 & E1') & (x & E2 & E2') & E3) ((r' & F1 & F1') & (x' & F2 & F2') & F3).
  unfold v7_add, turned7. cbn [v7_pos v7_vel v7_mass]. rewrite E1, E1', E2, E2', E3, F1, F1', F2, F2', F3, !vadd_fin, <- !turn_add.
  split; [|split; [|reflexivity]]; eexists; split; reflexivity.
Qed.
Lemma turned7_scale : forall a k u u', real k -> turned7 a u u' -> turned7 a (v7_scale (N := N) k u) (v7_scale (N := N) k u').
Proof.
  intros a k u u' [q ->] ((r & E1 & E1') & (x & E2 & E2') & E3).
  unfold v7_scale, turned7. cbn [v7_pos v7_vel v7_mass]. rewrite E1, E1', E2, E2', E3, !vscale_fin, <- !turn_scale.
  split; [|split; [|reflexivity]]; eexists; split; reflexivity.
Qed.
Lemma turned7_sum : forall a cs ks ks', Forall real cs -> Forall2 (turned7 a) ks ks' -> turned7 a (sm cs ks) (sm cs ks').
Proof.
  intros a cs ks ks' Hc Hk. unfold rk_sum. generalize (turned7_zero a).
  generalize (@v7_zero N) at 1 3 as z. generalize (@v7_zero N) as z'. intros z' z Hz. revert ks ks' Hk z z' Hz.
  induction Hc as [|c cs A _ IH]; intros ks ks' Hk z z' Hz; [exact Hz|].
  destruct Hk as [|k k' ks ks' B Hk]; [exact Hz|]. cbn [combine map fold_left fst snd].
  apply IH; [exact Hk|]. apply turned7_add; [exact Hz|]. now apply turned7_scale.
Qed.
Lemma turned_from_vec : forall a t v v', turned7 a v v' -> turned a (from_vec (N := N) t v) (from_vec (N := N) t v').
Proof.
  intros a [t e] v v' (H1 & H2 & H3). unfold from_vec. cbn [fst snd].
  constructor; cbn [set_mass set_velocity set_position set_time_since_event set_time default_state
    st_time st_time_since_event st_position st_position_planet st_altitude st_altitude_geopotential st_velocity
    st_velocity_planet st_velocity_atmosphere st_acceleration st_thrust_force_body st_aero_force_body
    st_vehicle_acceleration_body st_gravity_acceleration st_mass st_propellant_mass st_massflow st_temperature
    st_pressure st_density st_mach_number st_dynamic_pressure st_alpha st_euler_angles st_throttle];
    first [assumption | reflexivity | apply turnedv_zero].
Qed.
Lemma turned_differentials : forall a (s s' : State N), turned a s s' ->
  turned7 a (to_differentials_vector s) (to_differentials_vector s').
Proof. intros a s s' []. split; [|split]; assumption. Qed.
Lemma turned_primary : forall a (s s' : State N), turned a s s' -> turned7 a (to_primary_vec s) (to_primary_vec s').
Proof. intros a s s' []. split; [|split]; assumption. Qed.
Lemma point0_real : forall (s : State N) h, real_input (point0 s h) -> real h.
Proof.
  intros s h I. destruct (ri_time _ I) as [t Ht].
  change (xadd (st_time s) (xmul (Fin 0) h) = Fin t) in Ht. destruct h as [r| | |]; [eexists; reflexivity| | |].
  all: exfalso; revert Ht; destruct (st_time s); unfold xadd, xmul, inf_sign, Reqb, Rltb;
    repeat destruct (Rlt_dec _ _); repeat destruct (Req_EM_T _ _); try discriminate.
Qed.

Lemma step_turned : rot_contract rot -> forall a (p p' : Phase N), twins a p p' -> axial_phase p -> real_phase p ->
  (ph_ended p = false -> forall x, visits (system p) (ph_state p) (ph_stepsize p) x -> real_input x /\ ~ singular p x) ->
  both (twins a) (step p) (step p').
Proof.
  intros Hrot a p p' W X RP V. assert (U := w_state _ _ _ W).
  unfold step. rewrite (w_ended _ _ _ W), (w_stepsize _ _ _ W), (w_criterion _ _ _ W), (w_tries _ _ _ W).
  destruct (ph_ended p) eqn:En; [reflexivity|]. specialize (V eq_refl).
  set (s := ph_state p) in *. set (s' := ph_state p') in *. set (h := ph_stepsize p) in *.
  assert (K : both (turned a) (integrator_step (fun s => system p s) s h) (integrator_step (fun s => system p' s) s' h)).
  { rewrite !integrator_step_points.
    assert (Rh : real h). { apply (point0_real s). apply V. left. reflexivity. }
    assert (L := real_lits (rot := rot)). destruct L as (L0 & Lh & L1 & L6 & L3).
    assert (P := turned_primary _ _ _ U). assert (Z := turned7_zero a).
    assert (D : forall d d', turned a d d' -> turned7 a (v7_scale h (to_differentials_vector d)) (v7_scale h (to_differentials_vector d'))).
    { intros d d' Hd. apply turned7_scale; [exact Rh|]. now apply turned_differentials. }
    assert (T1 : st_time s' = st_time s) by apply U. assert (T2 : st_time_since_event s' = st_time_since_event s) by apply U.
    assert (A0 : turned a (point0 s h) (point0 s' h)).
    { unfold point0. rewrite T1, T2. apply turned_from_vec, turned7_add; [exact P|].
      apply turned7_sum; [allreal|repeat (apply Forall2_cons; [exact Z|]); apply Forall2_nil]. }
    destruct (V (point0 s h)) as [I0 N0]; [left; reflexivity|].
    assert (B0 := system_turned Hrot a p p' _ _ W X RP I0 N0 A0).
    assert (V0 : forall d0, system p (point0 s h) = Ret d0 -> forall x, (x = point1 s h d0 \/ exists d1, system p (point1 s h d0) = Ret d1 /\
      (x = point2 s h d0 d1 \/ exists d2, system p (point2 s h d0 d1) = Ret d2 /\
      (x = point3 s h d0 d1 d2 \/ exists d3, system p (point3 s h d0 d1 d2) = Ret d3 /\ x = point4 s h d0 d1 d2 d3))) ->
      real_input x /\ ~ singular p x).
    { intros d0 E x Hx. apply V. right. exists d0. split; assumption. }
    clear V. destruct (system p (point0 s h)) as [d0|e] eqn:E0, (system p' (point0 s' h)) as [d0'|e'] eqn:E0'; cbn [both] in B0;
      try contradiction; [|exact B0]. cbn [bind].
    specialize (V0 d0 eq_refl).
    assert (K0 := D _ _ B0).
    assert (A1 : turned a (point1 s h d0) (point1 s' h d0')).
    { unfold point1. rewrite T1, T2. apply turned_from_vec, turned7_add; [exact P|].
      apply turned7_sum; [allreal|]. apply Forall2_cons; [exact K0|]. repeat (apply Forall2_cons; [exact Z|]); apply Forall2_nil. }
    destruct (V0 (point1 s h d0)) as [I1 N1]; [left; reflexivity|].
    assert (B1 := system_turned Hrot a p p' _ _ W X RP I1 N1 A1).
    assert (V1 : forall d1, system p (point1 s h d0) = Ret d1 -> forall x, 
      (x = point2 s h d0 d1 \/ exists d2, system p (point2 s h d0 d1) = Ret d2 /\
      (x = point3 s h d0 d1 d2 \/ exists d3, system p (point3 s h d0 d1 d2) = Ret d3 /\ x = point4 s h d0 d1 d2 d3)) ->
      real_input x /\ ~ singular p x).
    { intros d1 E x Hx. apply V0. right. exists d1. split; assumption. }
    clear V0. destruct (system p (point1 s h d0)) as [d1|e] eqn:E1, (system p' (point1 s' h d0')) as [d1'|e'] eqn:E1'; cbn [both] in B1;
      try contradiction; [|exact B1]. cbn [bind].
    specialize (V1 d1 eq_refl).
    assert (K1 := D _ _ B1).
    assert (A2 : turned a (point2 s h d0 d1) (point2 s' h d0' d1')).
    { unfold point2. rewrite T1, T2. apply turned_from_vec, turned7_add; [exact P|].
      apply turned7_sum; [allreal|]. apply Forall2_cons; [exact K0|]. apply Forall2_cons; [exact K1|].
      repeat (apply Forall2_cons; [exact Z|]); apply Forall2_nil. }
    destruct (V1 (point2 s h d0 d1)) as [I2 N2]; [left; reflexivity|].
    assert (B2 := system_turned Hrot a p p' _ _ W X RP I2 N2 A2).
    assert (V2 : forall d2, system p (point2 s h d0 d1) = Ret d2 -> forall x, 
      (x = point3 s h d0 d1 d2 \/ exists d3, system p (point3 s h d0 d1 d2) = Ret d3 /\ x = point4 s h d0 d1 d2 d3) ->
      real_input x /\ ~ singular p x).
    { intros d2 E x Hx. apply V1. right. exists d2. split; assumption. }
    clear V1. destruct (system p (point2 s h d0 d1)) as [d2|e] eqn:E2, (system p' (point2 s' h d0' d1')) as [d2'|e'] eqn:E2'; cbn [both] in B2;
      try contradiction; [|exact B2]. cbn [bind].
    specialize (V2 d2 eq_refl).
    assert (K2 := D _ _ B2).
    assert (A3 : turned a (point3 s h d0 d1 d2) (point3 s' h d0' d1' d2')).
    { unfold point3. rewrite T1, T2. apply turned_from_vec, turned7_add; [exact P|].
      apply turned7_sum; [allreal|]. apply Forall2_cons; [exact K0|]. apply Forall2_cons; [exact K1|].
      apply Forall2_cons; [exact K2|]. apply Forall2_cons; [exact Z|]. apply Forall2_nil. }
    destruct (V2 (point3 s h d0 d1 d2)) as [I3 N3]; [left; reflexivity|].
    assert (B3 := system_turned Hrot a p p' _ _ W X RP I3 N3 A3).
    assert (V3 : forall d3, system p (point3 s h d0 d1 d2) = Ret d3 -> 
      real_input (point4 s h d0 d1 d2 d3) /\ ~ singular p (point4 s h d0 d1 d2 d3)).
    { intros d3 E. apply V2. right. exists d3. split; [assumption|reflexivity]. }
    clear V2. destruct (system p (point3 s h d0 d1 d2)) as [d3|e] eqn:E3, (system p' (point3 s' h d0' d1' d2')) as [d3'|e'] eqn:E3'; cbn [both] in B3;
      try contradiction; [|exact B3]. cbn [bind].
    assert (K3 := D _ _ B3).
    assert (A4 : turned a (point4 s h d0 d1 d2 d3) (point4 s' h d0' d1' d2' d3')).
    { unfold point4. rewrite T1, T2. apply turned_from_vec, turned7_add; [exact P|].
      apply turned7_sum; [allreal|]. apply Forall2_cons; [exact K0|]. apply Forall2_cons; [exact K1|].
      apply Forall2_cons; [exact K2|]. apply Forall2_cons; [exact K3|]. apply Forall2_nil. }
    destruct (V3 d3 eq_refl) as [I4 N4].
    exact (system_turned Hrot a p p' _ _ W X RP I4 N4 A4). }
  revert K. generalize (integrator_step (fun s => system p s) s h). generalize (integrator_step (fun s => system p' s) s' h).
  intros o' o K. destruct o as [x|e], o' as [x'|e']; cbn [both] in K; try contradiction; [|exact K]. cbn [bind].
  assert (Cx := turned_value _ _ _ (fst (ph_end_criterion p)) K (xp_criterion _ X)).
  assert (Cs : get_value (fst (ph_end_criterion p)) s' = get_value (fst (ph_end_criterion p)) s)
    by (apply (turned_value a); [exact U|apply X]).
  unfold event_is_active, time_to_go. rewrite (w_criterion _ _ _ W), (w_stepsize _ _ _ W), Cx, Cs. fold h.
  destruct W as [W1 W2 W3 W4 W5 W6 W7 W8 W9 W10 W11 W12].
  destruct (n_ltb (n_abs _) _); [cbn [both]; constructor; try assumption; reflexivity|].
  match goal with |- context [if ?c then _ else _] => destruct c end.
  - destruct (20 <? ph_end_criterion_tries p)%nat; [reflexivity|]. cbn [both]. constructor; try assumption; try reflexivity.
    cbn [set_ph_end_criterion_tries set_ph_stepsize ph_end_criterion_tries]. congruence.
  - cbn [both]. constructor; assumption.
Qed.

Definition turned_phases (a : R) (st st' : status (Phase N)) : Prop :=
  match st, st' with
  | Finished q, Finished q' => twins a q q'
  | Running q, Running q' => twins a q q'
  | Aborted e, Aborted e' => e = e'
  | _, _ => False
  end.
Lemma axial_parameters : forall p q : Phase N, same_parameters p q -> axial_phase p -> axial_phase q.
Proof.
  intros p q (E1 & E2 & E3 & E4 & E5 & E6 & E7 & E8) []. constructor; rewrite ?E1, ?E2, ?E3, ?E8; assumption.
Qed.
Lemma run_loop_turned : rot_contract rot -> forall a fuel (p p' : Phase N), twins a p p' -> axial_phase p -> real_phase p ->
  (forall ps q x, chain p ps -> In q (p :: ps) -> ph_ended q = false ->
     visits (system q) (ph_state q) (ph_stepsize q) x -> real_input x /\ ~ singular q x) ->
  Forall2 (turned a) (fst (run_loop fuel p)) (fst (run_loop fuel p')) /\
  turned_phases a (snd (run_loop fuel p)) (snd (run_loop fuel p')).
Proof.
  intros Hrot a. induction fuel as [|fuel IH]; intros p p' W X RP V; cbn [run_loop]; rewrite (w_ended _ _ _ W);
    destruct (ph_ended p) eqn:En; cbn [fst snd]; try (split; [constructor|exact W]).
  assert (S : both (twins a) (step p) (step p')).
  { apply (step_turned Hrot); try assumption. intros _ x Hx. apply (V [] p); [constructor|now left|exact En|exact Hx]. }
  destruct (step p) as [q|e] eqn:E, (step p') as [q'|e'] eqn:E'; cbn [both] in S; try contradiction.
  - assert (SP := step_parameters _ _ E).
    destruct (IH q q' S) as [A B].
    + now apply (axial_parameters p).
    + now apply (real_phase_parameters p).
    + intros ps q1 x Hc Hin. apply (V (q :: ps)); [now apply chain_cons|now right].
    + destruct (run_loop fuel q) as [h st], (run_loop fuel q') as [h' st']. cbn [fst snd] in *.
      split; [|exact B]. constructor; [apply S|exact A].
  - cbn [fst snd]. split; [constructor|exact S].
Qed.
Lemma run_turned : rot_contract rot -> forall a fuel (p p' : Phase N), twins a p p' -> axial_phase p -> real_phase p ->
  regular p ->
  Forall2 (turned a) (fst (run fuel p)) (fst (run fuel p')) /\
  turned_phases a (snd (run fuel p)) (snd (run fuel p')).
Proof.
  intros Hrot a fuel p p' W X RP ((RI & NS) & V & _). unfold run.
  assert (S := system_turned Hrot a p p' _ _ W X RP RI NS (w_state _ _ _ W)).
  destruct (system p (ph_state p)) as [s|e] eqn:E, (system p' (ph_state p')) as [s'|e'] eqn:E'; cbn [both] in S; try contradiction.
  - assert (P : same_parameters p (set_ph_state p s)) by repeat split.
    apply (run_loop_turned Hrot).
    + destruct W. constructor; assumption.
    + now apply (axial_parameters p).
    + now apply (real_phase_parameters p).
    + intros ps q x. apply V. exact E.
  - cbn [fst snd]. split; [constructor|exact S].
Qed.

Lemma axial_over : forall (o : option (Table N)) t, opt (fun t => Forall (fun x => axial x = true) (table_variables t)) o ->
  Forall (fun x => axial x = true) (table_variables t) -> Forall (fun x => axial x = true) (table_variables (over o t)).
Proof. intros [u|] t H K; assumption. Qed.
Lemma axial_axis : forall (a : axis N) o, axial (ax_var a) = true -> opt (fun x : StateVariable * vec3 N => axial (fst x) = true) o ->
  axial (ax_var (axis_update a o)) = true.
Proof. intros a [c|] H K; assumption. Qed.
Lemma axial_default : axial_phase (@default_phase N).
Proof.
  constructor; try reflexivity; try (constructor; [reflexivity|constructor]). exists 0. reflexivity.
Qed.
Lemma axial_configured : forall (q : Phase N) c, axial_phase q -> no_longitude c -> axial_phase (configured q c).
Proof.
  intros q c [X1 X2 X3 X4 X5 X6 X7 X8] [K1 K2 K3 K4].
  assert (V : Forall (fun x => axial x = true) (table_variables (ve_drag_coeff (ph_vehicle (configured q c)))) /\
     Forall (fun x => axial x = true) (table_variables (ve_lift_coeff (ph_vehicle (configured q c)))) /\
     Forall (fun x => axial x = true) (table_variables (ve_side_force_coeff (ph_vehicle (configured q c))))).
  { cbn [configured ph_vehicle]. destruct (pc_vehicle c) as [v|]; [|tauto]. destruct K2 as (A1 & A2 & A3).
    cbn [vehicle_update_with_config ve_drag_coeff ve_lift_coeff ve_side_force_coeff].
    split; [now apply axial_over|]. split; now apply axial_over. }
  destruct V as (V1 & V2 & V3).
  assert (S : axial (ax_var (sg_roll (ph_steering (configured q c)))) = true /\ axial (ax_var (sg_yaw (ph_steering (configured q c)))) = true /\
     axial (ax_var (sg_pitch (ph_steering (configured q c)))) = true).
  { cbn [configured ph_steering]. destruct (pc_steering c) as [s|]; [|tauto]. destruct K3 as (A1 & A2 & A3).
    cbn [steering_update_with_config sg_roll sg_yaw sg_pitch].
    split; [now apply axial_axis|]. split; now apply axial_axis. }
  destruct S as (S1 & S2 & S3).
  constructor; try assumption.
  - cbn [configured ph_atmosphere]. destruct (pc_atmosphere c) as [[e w]|]; [|exact X1].
    unfold atmosphere_update_with_config. cbn [ac_enabled ac_wind opt] in *.
    destruct w as [w|]; [exact K1|]. destruct e as [[|]|]; exact X1.
  - cbn [configured ph_end_criterion]. destruct (pc_end_criterion c) as [e|]; [exact K4|exact X8].
Qed.
Lemma axial_reset : forall p : Phase N, axial_phase p -> axial_phase (reset p).
Proof. intros p []. constructor; assumption. Qed.

Lemma turned_mass : forall a (s s' : State N) m, turned a s s' -> turned a (set_mass s m) (set_mass s' m).
Proof. intros a s s' m []. constructor; try assumption; reflexivity. Qed.
Lemma turned_event_time : forall a (s s' : State N) m, turned a s s' -> turned a (set_time_since_event s m) (set_time_since_event s' m).
Proof. intros a s s' m []. constructor; try assumption; reflexivity. Qed.
Lemma twins_configured : forall a (p p' : Phase N) c, twins a p p' -> twins a (configured p c) (configured p' c).
Proof.
  intros a p p' c [W1 W2 W3 W4 W5 W6 W7 W8 W9 W10 W11 W12].
  constructor; cbn [configured ph_vehicle ph_steering ph_atmosphere ph_planet ph_launch ph_max_acceleration ph_stepsize
    ph_base_stepsize ph_end_criterion ph_end_criterion_tries ph_ended]; rewrite ?W1, ?W2, ?W3, ?W4, ?W6, ?W7, ?W8, ?W9, ?W10, ?W11;
    try reflexivity; try exact W5.
  cbn [configured ph_state]. 
  assert (M : mass_of p' c = mass_of p c).
  { unfold mass_of. rewrite (u_propellant_mass _ _ _ W12), W1, (u_mass _ _ _ W12). reflexivity. }
  rewrite M. destruct (pc_vehicle c) as [v|]; [|exact W12].
  destruct (vc_structure_mass v), (vc_propellant_mass v); try exact W12; now apply turned_mass.
Qed.
Lemma twins_reset : forall a (p p' : Phase N), twins a p p' -> twins a (reset p) (reset p').
Proof.
  intros a p p' [W1 W2 W3 W4 W5 W6 W7 W8 W9 W10 W11 W12].
  constructor; try assumption; try reflexivity.
  - change (steering_init (ph_steering p') (st_euler_angles (ph_state p')) = steering_init (ph_steering p) (st_euler_angles (ph_state p))).
    rewrite W2, (u_euler_angles _ _ _ W12). reflexivity.
  - rewrite !reset_state. now apply turned_event_time.
Qed.
Lemma reset_real : forall p : Phase N, real_params p -> realv (ph_launch p) -> real_input (ph_state (reset p)) ->
  regular (reset p) -> real_phase (reset p).
Proof.
  intros p H L I (_ & _ & M).
  rewrite reset_state in I. destruct (ri_euler_angles _ I) as [e E].
  change (st_euler_angles (ph_state p) = finv e) in E.
  destruct H as [H1 H2 H3 H4 H5 H6 H7 H8 H9 H10 H11 H12]. constructor; try assumption.
  + split; [|apply H9]. change (real (to_degrees (vx (st_euler_angles (ph_state p))))). rewrite E. eexists. apply to_degrees_fin.
  + split; [|apply H10]. change (real (to_degrees (vy (st_euler_angles (ph_state p))))). rewrite E. eexists. apply to_degrees_fin.
  + split; [|apply H11]. change (real (to_degrees (vz (st_euler_angles (ph_state p))))). rewrite E. eexists. apply to_degrees_fin.
Qed.
Lemma params_run : forall fuel (p : Phase N) h q, run fuel p = (h, Finished q) -> real_params p -> real_params q.
Proof.
  intros fuel p h q R PP. assert (K := C28_run_keeps_parameters fuel p h q (or_introl R)).
  destruct K as (E1 & E2 & E3 & E4 & E5 & _ & _ & E8).
  destruct PP as [H1 H2 H3 H4 H5 H6 H7 H8 H9 H10 H11 H12]. constructor; rewrite ?E1, ?E2, ?E3, ?E4, ?E8; assumption.
Qed.
Lemma params_reset : forall p : Phase N, real_phase (reset p) -> real_params p -> real_params (reset p).
Proof.
  intros p [R1 R2 R3 R4 R5 R6 R7 R8 R9 R10 R11 R12 R13] [H1 H2 H3 H4 H5 H6 H7 H8 H9 H10 H11 H12]. constructor; assumption.
Qed.
Lemma twins_status : forall a st st', turned_phases a st st' -> turned_status a st st'.
Proof. intros a [q|e|q] [q'|e'|q'] H; try exact H; try contradiction; exact (w_state _ _ _ H). Qed.
Lemma turned_records : forall a h h', Forall2 (turned a) h h' -> Forall2 (turned_event a) (map ERecord h) (map ERecord h').
Proof. intros a h h' H. induction H as [|s s' h h' A _ IH]; cbn [map]; constructor; assumption. Qed.

Lemma begun_turned : rot_contract rot -> forall a fuel i (p p' : Phase N) rest cs,
  begins cs (reset p) -> twins a p p' -> axial_phase p -> real_params p -> regular (reset p) ->
  Forall real_config rest -> Forall no_longitude rest ->
  (forall cs1 q, begins cs1 q -> (exists cs2, cs ++ rest = cs1 ++ cs2) -> regular q) ->
  let tail (st : status (Phase N)) := match st with
     | Finished p => sim_loop fuel (S i) (Some p) p rest
     | _ => ([], st) end in
  Forall2 (turned_event a) (fst (tail (snd (run fuel (reset p))))) (fst (tail (snd (run fuel (reset p'))))) /\
  turned_status a (snd (tail (snd (run fuel (reset p))))) (snd (tail (snd (run fuel (reset p'))))).
Proof.
  intros Hrot a fuel i p p' rest. revert i p p'. induction rest as [|c rest IH]; intros i p p' cs B W X PP G RC NL RG tail; unfold tail.
  - destruct (run_turned Hrot a fuel (reset p) (reset p')) as [A T]; [now apply twins_reset|now apply axial_reset| |exact G|].
    { apply reset_real; [exact PP| |apply G|exact G]. destruct (w_launch _ _ _ W) as (x & y & z & -> & _). eexists; reflexivity. }
    destruct (run fuel (reset p)) as [h [q|e|q]], (run fuel (reset p')) as [h' [q'|e'|q']]; cbn [snd turned_phases] in T;
      try contradiction; cbn [sim_loop fst snd]; (split; [constructor|]); try exact T; exact (w_state _ _ _ T).
  - assert (RP : real_phase (reset p)).
    { apply reset_real; [exact PP| |apply G|exact G]. destruct (w_launch _ _ _ W) as (x & y & z & -> & _). eexists; reflexivity. }
    destruct (run_turned Hrot a fuel (reset p) (reset p')) as [A T]; [now apply twins_reset|now apply axial_reset|exact RP|exact G|].
    destruct (run fuel (reset p)) as [h st] eqn:R, (run fuel (reset p')) as [h' st'] eqn:R'. cbn [snd fst] in *.
    destruct st as [q|e|q], st' as [q'|e'|q']; cbn [turned_phases] in T; try contradiction;
      try (cbn [fst snd]; split; [constructor|]; try exact T; exact (w_state _ _ _ T)).
    inversion RC as [|? ? C1 C2]; subst. inversion NL as [|? ? L1 L2]; subst.
    assert (Bn : begins (cs ++ [c]) (reset (configured q c))).
    { apply (begins_next cs (reset p) fuel h q c); [exact B|exact R|]. rewrite phase_new_configured. reflexivity. }
    assert (SP := C28_run_keeps_parameters fuel (reset p) h q (or_introl R)).
    destruct (IH (S i) (configured q c) (configured q' c) (cs ++ [c])) as [J1 J2].
    + exact Bn.
    + now apply twins_configured.
    + apply axial_configured; [|exact L1]. apply (axial_parameters (reset p)); [exact SP|now apply axial_reset].
    + apply configured_params; [|exact C1]. apply (params_run _ _ _ _ R). now apply params_reset.
    + apply (RG (cs ++ [c])); [exact Bn|]. exists rest. rewrite <- app_assoc. reflexivity.
    + exact C2.
    + exact L2.
    + intros cs1 q1 B1 (cs2 & E). apply (RG cs1 q1 B1). exists cs2. rewrite <- E, <- app_assoc. reflexivity.
    + destruct (run_turned Hrot a fuel (reset (configured q c)) (reset (configured q' c))) as [A1 T1].
      * apply twins_reset. now apply twins_configured.
      * apply axial_reset. apply axial_configured; [|exact L1]. apply (axial_parameters (reset p)); [exact SP|now apply axial_reset].
      * assert (Gn : regular (reset (configured q c))).
        { apply (RG (cs ++ [c])); [exact Bn|]. exists rest. rewrite <- app_assoc. reflexivity. }
        apply reset_real; [| |apply Gn|exact Gn].
        { apply configured_params; [|exact C1]. apply (params_run _ _ _ _ R). now apply params_reset. }
        { cbn [configured ph_launch]. destruct (w_launch _ _ _ T) as (x & y & z & -> & _). eexists; reflexivity. }
      * apply (RG (cs ++ [c])); [exact Bn|]. exists rest. rewrite <- app_assoc. reflexivity.
      * cbn [sim_loop]. rewrite !phase_new_configured.
        destruct (run fuel (reset (configured q c))) as [h1 st1], (run fuel (reset (configured q' c))) as [h1' st1'].
        cbn [fst snd] in *.
        destruct st1 as [q1|e1|q1], st1' as [q1'|e1'|q1']; cbn [turned_phases] in T1; try contradiction;
          try (cbn [fst snd]; split; [constructor; [reflexivity|now apply turned_records]|];
               first [exact T1|exact (w_state _ _ _ T1)]).
        destruct (sim_loop fuel (S (S i)) (Some q1) q1 rest) as [ev s1], (sim_loop fuel (S (S i)) (Some q1') q1' rest) as [ev' s1'].
        cbn [fst snd] in *. split; [|exact J2]. constructor; [reflexivity|]. apply Forall2_app; [now apply turned_records|exact J1].
Qed.

Lemma turned_default : forall a m, turned a (set_mass (@default_state N) m) (set_mass default_state m).
Proof. intros a m. constructor; try reflexivity; apply turnedv_zero. Qed.
Lemma turned_site : forall a (s : State N) r r' v v', turned a s s -> turnedv a r r' -> turnedv a v v' ->
  turned a (set_velocity (set_position s r) v) (set_velocity (set_position s r') v').
Proof. intros a s r r' v v' [] H K. constructor; assumption. Qed.
Lemma configured_default_turned : forall a (c : PhaseConfig N),
  turned a (ph_state (configured default_phase c)) (ph_state (configured default_phase c)).
Proof.
  intros a c. destruct (configured_state default_phase c) as [m ->]. apply turned_default.
Qed.
Lemma first_twins : forall (c : PhaseConfig N) i d, pc_init c = Some i -> real_config c ->
  exists i', pc_init (moved_east d c) = Some i' /\
  twins (deg d) (phase_init (configured default_phase c) i) (phase_init (configured default_phase (moved_east d c)) i').
Proof.
  intros c i d Ei Hc.
  assert (PP := configured_params _ c default_params Hc).
  destruct (pp_planet _ PP) as (Re & Rp & mu0 & J2 & J3 & J4 & w & HP & P1 & P2).
  assert (HI := rc_init _ Hc). rewrite Ei in HI. destruct HI as (lat & long & az & alt & -> & Hlat).
  exists (mkInitConfig (N := N) (Fin lat) (Fin (long + d)) (Fin az) (Fin alt)).
  split; [unfold moved_east; rewrite Ei; reflexivity|].
  change (configured default_phase (moved_east d c)) with (configured default_phase c).
  assert (HR : radii (ph_planet (configured default_phase c)) Re Rp) by (rewrite HP; repeat split; assumption).
  assert (Hw : pl_rotation_rate (ph_planet (configured default_phase c)) = Fin w) by (rewrite HP; reflexivity).
  assert (U := configured_default_turned (deg d) c).
  set (q := configured default_phase c) in *. clearbody q.
  destruct (phase_init_fin q Re Rp w lat long az (Fin alt) HR Hw Hlat) as (F1 & F2 & F3).
  destruct (phase_init_fin q Re Rp w lat (long + d) az (Fin alt) HR Hw Hlat) as (G1 & G2 & G3).
  assert (D : deg (long + d) = deg long + deg d) by (unfold deg; field).
  rewrite D in G1, G2, G3.
  set (g := atan _) in *. set (dd := Re / sqrt _) in *.
  assert (TP : scaleR dd (V3 (cos g * cos (deg long + deg d)) (cos g * sin (deg long + deg d)) (sin g))
     = turn (deg d) (scaleR dd (V3 (cos g * cos (deg long)) (cos g * sin (deg long)) (sin g)))).
  { unfold turn, scaleR. cbn [vx vy vz]. rewrite cos_plus, sin_plus. apply V3_eq; ring. }
  rewrite TP in G1, G2.
  destruct (phase_init_state q (mkInitConfig (N := N) (Fin lat) (Fin long) (Fin az) (Fin alt))) as (r & v & E).
  destruct (phase_init_state q (mkInitConfig (N := N) (Fin lat) (Fin (long + d)) (Fin az) (Fin alt))) as (r' & v' & E').
  constructor; try reflexivity.
  - eexists _, _, _. split; [exact F3|exact G3].
  - rewrite E in F1, F2. rewrite E' in G1, G2. rewrite E, E'. apply turned_site; [exact U| |].
    + change (r = finv (scaleR dd (V3 (cos g * cos (deg long)) (cos g * sin (deg long)) (sin g)))) in F1.
      change (r' = finv (turn (deg d) (scaleR dd (V3 (cos g * cos (deg long)) (cos g * sin (deg long)) (sin g))))) in G1.
      rewrite F1, G1. eexists; split; reflexivity.
    + match type of F2 with _ = ?x => change (v = x) in F2 end.
      match type of G2 with _ = ?x => change (v' = x) in G2 end.
      rewrite F2, G2. eexists; split; [reflexivity|]. apply (f_equal finv).
      unfold turn, crossR, scaleR. cbn [vx vy vz]. f_equal; ring.
Qed.

(** ** C56 *)
(** A mission with the launch site [d] degrees further east writes the same output, turned by [d] degrees
    about the polar axis, and ends in the same way. *)
Theorem C56_longitude : rot_contract rot -> forall d fuel (c : PhaseConfig N) rest ev st,
  Forall real_config (c :: rest) -> Forall no_longitude (c :: rest) ->
  (forall cs1 cs2 p, c :: rest = cs1 ++ cs2 -> begins cs1 p -> regular p) ->
  simulate fuel (c :: rest) = (ev, st) ->
  exists ev' st', simulate fuel (moved_east d c :: rest) = (ev', st') /\
    Forall2 (turned_event (deg d)) ev ev' /\ turned_status (deg d) st st'.
Proof.
  intros Hrot d fuel c rest ev st RC NL RG H.
  inversion RC as [|? ? C1 C2]; subst. inversion NL as [|? ? L1 L2]; subst.
  unfold simulate in *. cbn [sim_loop] in *. rewrite phase_new_configured in H |- *.
  destruct (pc_init c) as [i|] eqn:Ei.
  2: { unfold moved_east. rewrite Ei. cbn [pc_init option_map]. injection H as <- <-.
       eexists _, _. split; [reflexivity|]. split; [constructor; [reflexivity|constructor]|reflexivity]. }
  destruct (first_twins c i d Ei C1) as (i' & Ei' & W). rewrite Ei'.
  assert (B : begins [c] (reset (phase_init (configured default_phase c) i))).
  { apply begins_first. rewrite phase_new_configured, Ei. reflexivity. }
  assert (X : axial_phase (phase_init (configured default_phase c) i)).
  { destruct (axial_configured _ _ axial_default L1). constructor; assumption. }
  assert (PP : real_params (phase_init (configured default_phase c) i)).
  { destruct (configured_params _ c default_params C1). constructor; assumption. }
  revert H W B X PP. generalize (phase_init (configured default_phase (moved_east d c)) i').
  generalize (phase_init (configured default_phase c) i). intros p p' H W B X PP.
  assert (G : regular (reset p)) by (apply (RG [c] rest); [reflexivity|exact B]).
  destruct (begun_turned Hrot (deg d) fuel 1 p p' rest [c] B W X PP G C2 L2) as [J1 J2].
  { intros cs1 q B1 (cs2 & E). exact (RG cs1 cs2 q E B1). }
  destruct (run_turned Hrot (deg d) fuel (reset p) (reset p')) as [A T]; [now apply twins_reset|now apply axial_reset| |exact G|].
  { apply reset_real; [exact PP| |apply G|exact G]. destruct (w_launch _ _ _ W) as (x & y & z & -> & _). eexists; reflexivity. }
  destruct (run fuel (reset p)) as [h1 st1], (run fuel (reset p')) as [h1' st1'].
  cbn [fst snd] in *.
  destruct st1 as [q1|e1|q1], st1' as [q1'|e1'|q1']; cbn [turned_phases] in T; try contradiction;
    try (injection H as <- <-; eexists _, _; split; [reflexivity|]; split; [constructor; [reflexivity|now apply turned_records]|];
         first [exact T|exact (w_state _ _ _ T)]).
  destruct (sim_loop fuel 2 (Some q1) q1 rest) as [ev2 s2], (sim_loop fuel 2 (Some q1') q1' rest) as [ev2' s2'].
  cbn [fst snd] in *. injection H as <- <-.
  eexists _, _. split; [reflexivity|]. split; [|exact J2]. constructor; [reflexivity|].
  apply Forall2_app; [now apply turned_records|exact J1].
Qed.
End Exact.
