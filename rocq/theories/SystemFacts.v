(** * The equations of motion, equation by equation

    [eom p s0 s] lists the relations between the variables of a reported state
    [s]; [s0] supplies the variables that are not available yet when the
    attitude and the aerodynamic coefficients are evaluated.
    [system_eom]: a call of the equations of motion with argument [s0] returns [s]
    exactly when these relations hold. *)
From Coq Require Import ZArith List Bool.
From Verif Require Import Num Constants State Tables Config Planet Atmosphere Transformations
  Steering Vehicle RungeKutta Phase.
Import ListNotations.

Section WithNum.
Context {N : Num}.
Local Open Scope num_scope.

(** Variables available when the attitude is computed: those of [s]; all others
    still have their values of [s0]. *)
Definition before_attitude (s0 s : State N) : State N := {|
  st_time := st_time s;
  st_time_since_event := st_time_since_event s;
  st_position := st_position s;
  st_position_planet := st_position_planet s;
  st_altitude := st_altitude s;
  st_altitude_geopotential := st_altitude_geopotential s;
  st_velocity := st_velocity s;
  st_velocity_planet := st_velocity_planet s;
  st_velocity_atmosphere := st_velocity_atmosphere s;
  st_acceleration := st_acceleration s0;
  st_thrust_force_body := st_thrust_force_body s0;
  st_aero_force_body := st_aero_force_body s0;
  st_vehicle_acceleration_body := st_vehicle_acceleration_body s0;
  st_gravity_acceleration := st_gravity_acceleration s;
  st_mass := st_mass s;
  st_propellant_mass := st_propellant_mass s;
  st_massflow := st_massflow s0;
  st_temperature := st_temperature s;
  st_pressure := st_pressure s;
  st_density := st_density s;
  st_mach_number := st_mach_number s;
  st_dynamic_pressure := st_dynamic_pressure s;
  st_alpha := st_alpha s0;
  st_euler_angles := st_euler_angles s0;
  st_throttle := st_throttle s0 |}.
(** ... and when the aerodynamic coefficients are looked up: in addition the
    attitude and the angle of attack. *)
Definition before_aero (s0 s : State N) : State N :=
  set_alpha (set_euler_angles (before_attitude s0 s) (st_euler_angles s)) (st_alpha s).

Record eom (p : Phase N) (s0 s : State N) : Prop := {
  e_time : st_time s = st_time s0;
  e_time_since_event : st_time_since_event s = st_time_since_event s0;
  e_position : st_position s = st_position s0;
  e_velocity : st_velocity s = st_velocity s0;
  e_mass : st_mass s = st_mass s0;
  e_position_planet : st_position_planet s
    = mulv (inertial_to_planet (st_time s) (pl_rotation_rate (ph_planet p))) (st_position s);
  e_velocity_planet : st_velocity_planet s
    = velocity_planet (ph_planet p) (st_position s) (st_velocity s);
  e_altitude : st_altitude s = altitude (ph_planet p) (st_position s);
  e_altitude_geopotential : st_altitude_geopotential s
    = geopotential_altitude (ph_planet p) (st_position s);
  e_propellant_mass : st_propellant_mass s = st_mass s - ve_structure_mass (ph_vehicle p);
  e_gravity : st_gravity_acceleration s = gravity (ph_planet p) (st_position s);
  e_velocity_atmosphere : st_velocity_atmosphere s
    = vsub (st_velocity_planet s) (at_wind (ph_atmosphere p));
  e_temperature : at_temperature (ph_atmosphere p) s = Ret (st_temperature s);
  e_pressure : at_pressure (ph_atmosphere p) s = Ret (st_pressure s);
  e_density : at_density (ph_atmosphere p) s = Ret (st_density s);
  e_mach_number : at_mach_number (ph_atmosphere p) s = Ret (st_mach_number s);
  e_dynamic_pressure : st_dynamic_pressure s = at_dynamic_pressure (ph_atmosphere p) s;
  e_euler_angles : st_euler_angles s
    = steering_euler_angles (ph_steering p) (before_attitude s0 s);
  e_alpha : st_alpha s
    = alpha (mulv (inertial_to_body (ph_launch p) (st_euler_angles s)) (st_velocity_atmosphere s));
  e_aero_force : aero_force (ph_vehicle p) (before_aero s0 s) = Ret (st_aero_force_body s);
  e_throttle : st_throttle s
    = auto_throttle (ph_vehicle p) (ph_max_acceleration p) (st_mass s) (st_pressure s)
        (st_aero_force_body s);
  e_thrust : st_thrust_force_body s = thrust_force (ph_vehicle p) (st_throttle s) (st_pressure s);
  e_massflow : st_massflow s = massflow (ph_vehicle p) (st_throttle s);
  e_vehicle_acceleration : st_vehicle_acceleration_body s
    = vdiv (vadd (st_aero_force_body s) (st_thrust_force_body s)) (st_mass s);
  e_limit : norm (st_vehicle_acceleration_body s) >? ph_max_acceleration p * n_lit 1001 (-3) = false;
  e_throttle_not_nan : n_isnan (st_throttle s) = false;
  e_acceleration : st_acceleration s
    = vadd (mulv (transpose (inertial_to_body (ph_launch p) (st_euler_angles s)))
                 (st_vehicle_acceleration_body s))
           (st_gravity_acceleration s) }.

Ltac st_cbn := cbv beta iota delta [st_time st_time_since_event st_position st_position_planet st_altitude
  st_altitude_geopotential st_velocity st_velocity_planet st_velocity_atmosphere st_acceleration
  st_thrust_force_body st_aero_force_body st_vehicle_acceleration_body st_gravity_acceleration
  st_mass st_propellant_mass st_massflow st_temperature st_pressure st_density st_mach_number
  st_dynamic_pressure st_alpha st_euler_angles st_throttle
  set_time set_time_since_event set_position set_position_planet set_altitude
  set_altitude_geopotential set_velocity set_velocity_planet set_velocity_atmosphere
  set_acceleration set_thrust_force_body set_aero_force_body set_vehicle_acceleration_body
  set_gravity_acceleration set_mass set_propellant_mass set_massflow set_temperature set_pressure
  set_density set_mach_number set_dynamic_pressure set_alpha set_euler_angles set_throttle
  before_attitude before_aero].

Lemma at_temperature_ext : forall a (s s' : State N),
  st_altitude_geopotential s = st_altitude_geopotential s' -> at_temperature a s = at_temperature a s'.
Proof. intros a s s' H. unfold at_temperature. now rewrite H. Qed.
Lemma at_pressure_ext : forall a (s s' : State N),
  st_altitude_geopotential s = st_altitude_geopotential s' -> at_pressure a s = at_pressure a s'.
Proof. intros a s s' H. unfold at_pressure. now rewrite H. Qed.
Lemma at_density_ext : forall a (s s' : State N),
  st_altitude_geopotential s = st_altitude_geopotential s' -> at_density a s = at_density a s'.
Proof. intros a s s' H. unfold at_density. now rewrite H. Qed.
Lemma at_mach_number_ext : forall a (s s' : State N),
  st_altitude_geopotential s = st_altitude_geopotential s' ->
  st_velocity_atmosphere s = st_velocity_atmosphere s' ->
  at_mach_number a s = at_mach_number a s'.
Proof. intros a s s' H G. unfold at_mach_number, at_speed_of_sound. now rewrite H, G. Qed.

Lemma at_dynamic_pressure_ext : forall a (s s' : State N),
  st_density s = st_density s' -> st_velocity_atmosphere s = st_velocity_atmosphere s' ->
  at_dynamic_pressure a s = at_dynamic_pressure a s'.
Proof. intros a s s' H G. unfold at_dynamic_pressure. now rewrite H, G. Qed.

Lemma bind_Ret : forall A B (o : outcome A) (f : A -> outcome B) b,
  bind o f = Ret b -> exists a, o = Ret a /\ f a = Ret b.
Proof. intros A B [a|e] f b H; cbn in H; [eauto|discriminate]. Qed.


Lemma assign_inv : forall A B (v : A) (k : A -> B) r, assign v k = r -> exists x, x = v /\ k x = r.
Proof. intros A B v k r H. exists v. split; [reflexivity|exact H]. Qed.

(** One assignment [s.f = v] of hypothesis [H]: name the new value. *)
Ltac asg H g E :=
  apply assign_inv in H; let s1 := fresh "s" in let E1 := fresh "E" in
  destruct H as [s1 [E1 H]];
  lazymatch type of E1 with
  | _ = _ _ ?v => remember v as g eqn:E in E1
  end;
  cbv beta iota delta [st_time st_time_since_event st_position st_position_planet st_altitude
  st_altitude_geopotential st_velocity st_velocity_planet st_velocity_atmosphere st_acceleration
  st_thrust_force_body st_aero_force_body st_vehicle_acceleration_body st_gravity_acceleration
  st_mass st_propellant_mass st_massflow st_temperature st_pressure st_density st_mach_number
  st_dynamic_pressure st_alpha st_euler_angles st_throttle
  set_time set_time_since_event set_position set_position_planet set_altitude
  set_altitude_geopotential set_velocity set_velocity_planet set_velocity_atmosphere
  set_acceleration set_thrust_force_body set_aero_force_body set_vehicle_acceleration_body
  set_gravity_acceleration set_mass set_propellant_mass set_massflow set_temperature set_pressure
  set_density set_mach_number set_dynamic_pressure set_alpha set_euler_angles set_throttle
  before_attitude before_aero] in E, E1; subst s1.
Ltac bnd H g E :=
  apply bind_Ret in H; destruct H as [g [E H]]; cbv beta iota delta [st_time st_time_since_event st_position st_position_planet st_altitude
  st_altitude_geopotential st_velocity st_velocity_planet st_velocity_atmosphere st_acceleration
  st_thrust_force_body st_aero_force_body st_vehicle_acceleration_body st_gravity_acceleration
  st_mass st_propellant_mass st_massflow st_temperature st_pressure st_density st_mach_number
  st_dynamic_pressure st_alpha st_euler_angles st_throttle
  set_time set_time_since_event set_position set_position_planet set_altitude
  set_altitude_geopotential set_velocity set_velocity_planet set_velocity_atmosphere
  set_acceleration set_thrust_force_body set_aero_force_body set_vehicle_acceleration_body
  set_gravity_acceleration set_mass set_propellant_mass set_massflow set_temperature set_pressure
  set_density set_mach_number set_dynamic_pressure set_alpha set_euler_angles set_throttle
  before_attitude before_aero] in E.

Lemma system_eom_forward : forall p s0 s, system p s0 = Ret s -> eom p s0 s.
Proof.
  intros p s0 s H.
  destruct s0 as [f1 f2 f3 f4 f5 f6 f7 f8 f9 f10 f11 f12 f13 f14 f15 f16 f17 f18 f19 f20 f21 f22
                   f23 f24 f25].
  unfold system in H.
  asg H g4 E4. asg H g8 E8. asg H g5 E5. asg H g6 E6. asg H g8' E8'. asg H g16 E16.
  asg H g14 E14. asg H g9 E9.
  bnd H g18 E18. asg H g18' E18'. bnd H g19 E19. asg H g19' E19'.
  bnd H g20 E20. asg H g20' E20'. bnd H g21 E21. asg H g21' E21'. subst g18' g19' g20' g21'.
  asg H g22 E22. asg H g24 E24.
  asg H g23 E23. bnd H g12 E12. asg H g12' E12'. subst g12'.
  asg H g25 E25. asg H g11 E11. asg H g17 E17. asg H g13 E13.
  match type of H with (if ?c then _ else _) = _ => destruct c eqn:Hg; [discriminate|] end.
  apply orb_false_elim in Hg. destruct Hg as [Hg1 Hg2].
  asg H g10 E10.
  injection H as <-.
  constructor; st_cbn; first [assumption | reflexivity
    | rewrite <- E18; apply at_temperature_ext; reflexivity
    | rewrite <- E19; apply at_pressure_ext; reflexivity
    | rewrite <- E20; apply at_density_ext; reflexivity
    | rewrite <- E21; apply at_mach_number_ext; reflexivity
    | rewrite E22; apply at_dynamic_pressure_ext; reflexivity].
Qed.

Lemma assign_eq : forall A B (v x : A) (k : A -> B) r, v = x -> k x = r -> assign v k = r.
Proof. intros A B v x k r -> H. exact H. Qed.
Lemma bind_eq : forall A B (o : outcome A) (f : A -> outcome B) a r,
  o = Ret a -> f a = r -> bind o f = r.
Proof. intros A B o f a r -> H. exact H. Qed.

Lemma system_eom_backward : forall p s0 s, eom p s0 s -> system p s0 = Ret s.
Proof.
  intros p s0 s E.
  destruct s0 as [h1 h2 h3 h4 h5 h6 h7 h8 h9 h10 h11 h12 h13 h14 h15 h16 h17 h18 h19 h20 h21 h22
                   h23 h24 h25].
  destruct s as [f1 f2 f3 f4 f5 f6 f7 f8 f9 f10 f11 f12 f13 f14 f15 f16 f17 f18 f19 f20 f21 f22
                   f23 f24 f25].
  destruct E as [E1 E2 E3 E7 E15 E4 E8 E5 E6 E16 E14 E9 E18 E19 E20 E21 E22 E24 E23 E12 E25 E11 E17
                 E13 Hg1 Hg2 E10].
  unfold before_aero, before_attitude in *.
  cbv beta iota delta [st_time st_time_since_event st_position st_position_planet st_altitude
  st_altitude_geopotential st_velocity st_velocity_planet st_velocity_atmosphere st_acceleration
  st_thrust_force_body st_aero_force_body st_vehicle_acceleration_body st_gravity_acceleration
  st_mass st_propellant_mass st_massflow st_temperature st_pressure st_density st_mach_number
  st_dynamic_pressure st_alpha st_euler_angles st_throttle set_alpha set_euler_angles] in *.
  subst h1 h2 h3 h7 h15.
  unfold system.
  eapply assign_eq; [st_cbn; rewrite <- E4; reflexivity|].
  eapply assign_eq; [st_cbn; rewrite <- E8; reflexivity|].
  eapply assign_eq; [st_cbn; rewrite <- E5; reflexivity|].
  eapply assign_eq; [st_cbn; rewrite <- E6; reflexivity|].
  eapply assign_eq; [st_cbn; rewrite <- E8; reflexivity|].
  eapply assign_eq; [st_cbn; rewrite <- E16; reflexivity|].
  eapply assign_eq; [st_cbn; rewrite <- E14; reflexivity|].
  eapply assign_eq; [unfold at_velocity_atmosphere; st_cbn; rewrite <- E9; reflexivity|].
  eapply bind_eq; [rewrite <- E18; apply at_temperature_ext; reflexivity|].
  eapply assign_eq; [st_cbn; reflexivity|].
  eapply bind_eq; [rewrite <- E19; apply at_pressure_ext; reflexivity|].
  eapply assign_eq; [st_cbn; reflexivity|].
  eapply bind_eq; [rewrite <- E20; apply at_density_ext; reflexivity|].
  eapply assign_eq; [st_cbn; reflexivity|].
  eapply bind_eq; [rewrite <- E21; apply at_mach_number_ext; reflexivity|].
  eapply assign_eq; [st_cbn; reflexivity|].
  eapply assign_eq.
  { erewrite at_dynamic_pressure_ext; [rewrite <- E22|reflexivity|reflexivity]. st_cbn. reflexivity. }
  eapply assign_eq; [st_cbn; rewrite <- E24; reflexivity|].
  eapply assign_eq; [st_cbn; rewrite <- E23; reflexivity|].
  eapply bind_eq; [exact E12|].
  eapply assign_eq; [st_cbn; reflexivity|].
  eapply assign_eq; [st_cbn; rewrite <- E25; reflexivity|].
  eapply assign_eq; [st_cbn; rewrite <- E11; reflexivity|].
  eapply assign_eq; [st_cbn; rewrite <- E17; reflexivity|].
  eapply assign_eq; [st_cbn; rewrite <- E13; reflexivity|].
  st_cbn. rewrite Hg1, Hg2. cbn [orb].
  eapply assign_eq; [rewrite <- E10; reflexivity|]. reflexivity.
Qed.

Theorem system_eom : forall p s0 s, system p s0 = Ret s <-> eom p s0 s.
Proof. split; [apply system_eom_forward|apply system_eom_backward]. Qed.

End WithNum.
