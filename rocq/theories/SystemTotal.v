(** * The equations of motion when no lookup fails

    [equations p s0 s] are the equations of [SystemFacts.eom] without the acceleration
    guard.  If the lookups succeed ([lookups_ok]), the equations have a solution [s] and
    the code returns it or, when the guard fails, aborts. *)
From Coq Require Import ZArith List Bool Lia.
From Verif Require Import Num Constants State Tables Config Planet Atmosphere Transformations
  Steering Vehicle RungeKutta Phase SystemFacts.
Import ListNotations.

Section WithNum.
Context {N : Num}.
Local Open Scope num_scope.

Record equations (p : Phase N) (s0 s : State N) : Prop := {
  q_time : st_time s = st_time s0;
  q_time_since_event : st_time_since_event s = st_time_since_event s0;
  q_position : st_position s = st_position s0;
  q_velocity : st_velocity s = st_velocity s0;
  q_mass : st_mass s = st_mass s0;
  q_position_planet : st_position_planet s
    = mulv (inertial_to_planet (st_time s) (pl_rotation_rate (ph_planet p))) (st_position s);
  q_velocity_planet : st_velocity_planet s
    = velocity_planet (ph_planet p) (st_position s) (st_velocity s);
  q_altitude : st_altitude s = altitude (ph_planet p) (st_position s);
  q_altitude_geopotential : st_altitude_geopotential s
    = geopotential_altitude (ph_planet p) (st_position s);
  q_propellant_mass : st_propellant_mass s = st_mass s - ve_structure_mass (ph_vehicle p);
  q_gravity : st_gravity_acceleration s = gravity (ph_planet p) (st_position s);
  q_velocity_atmosphere : st_velocity_atmosphere s
    = vsub (st_velocity_planet s) (at_wind (ph_atmosphere p));
  q_temperature : at_temperature (ph_atmosphere p) s = Ret (st_temperature s);
  q_pressure : at_pressure (ph_atmosphere p) s = Ret (st_pressure s);
  q_density : at_density (ph_atmosphere p) s = Ret (st_density s);
  q_mach_number : at_mach_number (ph_atmosphere p) s = Ret (st_mach_number s);
  q_dynamic_pressure : st_dynamic_pressure s = at_dynamic_pressure (ph_atmosphere p) s;
  q_euler_angles : st_euler_angles s
    = steering_euler_angles (ph_steering p) (before_attitude s0 s);
  q_alpha : st_alpha s
    = alpha (mulv (inertial_to_body (ph_launch p) (st_euler_angles s)) (st_velocity_atmosphere s));
  q_aero_force : aero_force (ph_vehicle p) (before_aero s0 s) = Ret (st_aero_force_body s);
  q_throttle : st_throttle s
    = auto_throttle (ph_vehicle p) (ph_max_acceleration p) (st_mass s) (st_pressure s)
        (st_aero_force_body s);
  q_thrust : st_thrust_force_body s = thrust_force (ph_vehicle p) (st_throttle s) (st_pressure s);
  q_massflow : st_massflow s = massflow (ph_vehicle p) (st_throttle s);
  q_vehicle_acceleration : st_vehicle_acceleration_body s
    = vdiv (vadd (st_aero_force_body s) (st_thrust_force_body s)) (st_mass s);
  q_acceleration : st_acceleration s
    = vadd (mulv (transpose (inertial_to_body (ph_launch p) (st_euler_angles s)))
                 (st_vehicle_acceleration_body s))
           (st_gravity_acceleration s) }.

(** The acceleration guard (phase.rs:115). *)
Definition guard (p : Phase N) (s : State N) : bool :=
  ((norm (st_vehicle_acceleration_body s) >? ph_max_acceleration p * n_lit 1001 (-3))
   || n_isnan (st_throttle s))%bool.

Lemma equations_eom : forall p s0 s, equations p s0 s -> guard p s = false -> eom p s0 s.
Proof.
  intros p s0 s E G. apply orb_false_elim in G. destruct G as [G1 G2].
  destruct E. constructor; assumption.
Qed.
Lemma eom_equations : forall p s0 s, eom p s0 s -> equations p s0 s.
Proof. intros p s0 s E. destruct E. constructor; assumption. Qed.

(** No lookup fails, whatever the state. *)
Definition lookups_ok (p : Phase N) : Prop := forall s : State N,
  (exists x, at_temperature (ph_atmosphere p) s = Ret x) /\
  (exists x, at_pressure (ph_atmosphere p) s = Ret x) /\
  (exists x, at_density (ph_atmosphere p) s = Ret x) /\
  (exists x, at_mach_number (ph_atmosphere p) s = Ret x) /\
  (exists f, aero_force (ph_vehicle p) s = Ret f).

Ltac st_cbn := cbv beta iota delta [st_time st_time_since_event st_position st_position_planet st_altitude
  st_altitude_geopotential st_velocity st_velocity_planet st_velocity_atmosphere st_acceleration
  st_thrust_force_body st_aero_force_body st_vehicle_acceleration_body st_gravity_acceleration
  st_mass st_propellant_mass st_massflow st_temperature st_pressure st_density st_mach_number
  st_dynamic_pressure st_alpha st_euler_angles st_throttle
  set_time set_time_since_event set_position set_position_planet set_altitude
  set_altitude_geopotential set_velocity set_velocity_planet set_velocity_atmosphere
  set_acceleration set_thrust_force_body set_aero_force_body set_vehicle_acceleration_body
  set_gravity_acceleration set_mass set_propellant_mass set_massflow set_temperature set_pressure
  set_density set_mach_number set_dynamic_pressure set_alpha set_euler_angles set_throttle
  before_attitude before_aero].

(** One assignment [s.f = v] of hypothesis [H]: name the new value. *)
Ltac asg H g E :=
  apply assign_inv in H; let s1 := fresh "s" in let E1 := fresh "E" in
  destruct H as [s1 [E1 H]];
  lazymatch type of E1 with
  | _ = _ _ ?v => remember v as g eqn:E in E1
  end;
  cbv beta iota delta [st_time st_time_since_event st_position st_position_planet st_altitude
  st_altitude_geopotential st_velocity st_velocity_planet st_velocity_atmosphere st_acceleration
  st_thrust_force_body st_aero_force_body st_vehicle_acceleration_body st_gravity_acceleration
  st_mass st_propellant_mass st_massflow st_temperature st_pressure st_density st_mach_number
  st_dynamic_pressure st_alpha st_euler_angles st_throttle
  set_time set_time_since_event set_position set_position_planet set_altitude
  set_altitude_geopotential set_velocity set_velocity_planet set_velocity_atmosphere
  set_acceleration set_thrust_force_body set_aero_force_body set_vehicle_acceleration_body
  set_gravity_acceleration set_mass set_propellant_mass set_massflow set_temperature set_pressure
  set_density set_mach_number set_dynamic_pressure set_alpha set_euler_angles set_throttle
  before_attitude before_aero] in E, E1; subst s1.
Lemma bind_Ret_l : forall A B (a : A) (f : A -> outcome B), bind (Ret a) f = f a.
Proof. reflexivity. Qed.

Lemma system_total : forall p s0, lookups_ok p ->
  exists s, equations p s0 s /\
    system p s0 = if guard p s then Panic PMaxAcceleration else Ret s.
Proof.
  intros p s0 L.
  destruct s0 as [f1 f2 f3 f4 f5 f6 f7 f8 f9 f10 f11 f12 f13 f14 f15 f16 f17 f18 f19 f20 f21 f22
                   f23 f24 f25].
  remember (system p _) as H eqn:EH. symmetry in EH. rename EH into H'.
  unfold system in H'.
  asg H' g4 E4. asg H' g8 E8. asg H' g5 E5. asg H' g6 E6. asg H' g8' E8'. asg H' g16 E16.
  asg H' g14 E14. asg H' g9 E9.
  match type of H' with bind (at_temperature _ ?s) _ = _ =>
    destruct (proj1 (L s)) as [g18 E18]; rewrite E18, bind_Ret_l in H' end.
  asg H' g18' E18'.
  match type of H' with bind (at_pressure _ ?s) _ = _ =>
    destruct (proj1 (proj2 (L s))) as [g19 E19]; rewrite E19, bind_Ret_l in H' end.
  asg H' g19' E19'.
  match type of H' with bind (at_density _ ?s) _ = _ =>
    destruct (proj1 (proj2 (proj2 (L s)))) as [g20 E20]; rewrite E20, bind_Ret_l in H' end.
  asg H' g20' E20'.
  match type of H' with bind (at_mach_number _ ?s) _ = _ =>
    destruct (proj1 (proj2 (proj2 (proj2 (L s))))) as [g21 E21]; rewrite E21, bind_Ret_l in H' end.
  asg H' g21' E21'. subst g18' g19' g20' g21'.
  asg H' g22 E22. asg H' g24 E24. asg H' g23 E23.
  match type of H' with bind (aero_force _ ?s) _ = _ =>
    destruct (proj2 (proj2 (proj2 (proj2 (L s))))) as [g12 E12]; rewrite E12, bind_Ret_l in H' end.
  asg H' g12' E12'. subst g12'.
  asg H' g25 E25. asg H' g11 E11. asg H' g17 E17. asg H' g13 E13.
  match type of H' with (if ?c then _ else assign ?s _) = _ => exists s; set (x := c) in * end.
  cbn zeta beta in H'.
  split; [|].
  - constructor; st_cbn; first [assumption | reflexivity
    | rewrite <- E18; apply at_temperature_ext; reflexivity
    | rewrite <- E19; apply at_pressure_ext; reflexivity
    | rewrite <- E20; apply at_density_ext; reflexivity
    | rewrite <- E21; apply at_mach_number_ext; reflexivity
    | rewrite E22; apply at_dynamic_pressure_ext; reflexivity].
  - rewrite <- H'. reflexivity.
Qed.

(** The only way in which the equations of motion abort. *)
Lemma system_cases : forall p s0, lookups_ok p ->
  (exists s, system p s0 = Ret s) \/ system p s0 = Panic PMaxAcceleration.
Proof.
  intros p s0 L. destruct (system_total p s0 L) as [s [_ E]]. destruct (guard p s); eauto.
Qed.
End WithNum.
