(** * C27: what the propellant mass does (and does not) influence *)
From Coq Require Import ZArith List Bool Lia.
From Verif Require Import Num Constants State Tables Config Planet Atmosphere Transformations
  Steering Vehicle RungeKutta Phase Simulation SystemFacts SystemTotal RKFacts RunFacts Prop_Panics Prop_Steering.
Import ListNotations.

Section Generic.
Context {N : Num}.
Local Open Scope num_scope.

(** The equations of motion have one solution. *)
Lemma equations_unique : forall (p : Phase N) (a s s' : State N), equations p a s -> equations p a s' -> s = s'.
Proof.
  intros p a s s' Q Q'.
  assert (X1 : st_time s = st_time s') by (rewrite (q_time _ _ _ Q), (q_time _ _ _ Q'); reflexivity).
  assert (X2 : st_time_since_event s = st_time_since_event s')
    by (rewrite (q_time_since_event _ _ _ Q), (q_time_since_event _ _ _ Q'); reflexivity).
  assert (X3 : st_position s = st_position s') by (rewrite (q_position _ _ _ Q), (q_position _ _ _ Q'); reflexivity).
  assert (X4 : st_velocity s = st_velocity s') by (rewrite (q_velocity _ _ _ Q), (q_velocity _ _ _ Q'); reflexivity).
  assert (X5 : st_mass s = st_mass s') by (rewrite (q_mass _ _ _ Q), (q_mass _ _ _ Q'); reflexivity).
  assert (X6 : st_position_planet s = st_position_planet s')
    by (rewrite (q_position_planet _ _ _ Q), (q_position_planet _ _ _ Q'), X1, X3; reflexivity).
  assert (X7 : st_velocity_planet s = st_velocity_planet s')
    by (rewrite (q_velocity_planet _ _ _ Q), (q_velocity_planet _ _ _ Q'), X3, X4; reflexivity).
  assert (X8 : st_altitude s = st_altitude s') by (rewrite (q_altitude _ _ _ Q), (q_altitude _ _ _ Q'), X3; reflexivity).
  assert (X9 : st_altitude_geopotential s = st_altitude_geopotential s')
    by (rewrite (q_altitude_geopotential _ _ _ Q), (q_altitude_geopotential _ _ _ Q'), X3; reflexivity).
  assert (X10 : st_propellant_mass s = st_propellant_mass s')
    by (rewrite (q_propellant_mass _ _ _ Q), (q_propellant_mass _ _ _ Q'), X5; reflexivity).
  assert (X11 : st_gravity_acceleration s = st_gravity_acceleration s')
    by (rewrite (q_gravity _ _ _ Q), (q_gravity _ _ _ Q'), X3; reflexivity).
  assert (X12 : st_velocity_atmosphere s = st_velocity_atmosphere s')
    by (rewrite (q_velocity_atmosphere _ _ _ Q), (q_velocity_atmosphere _ _ _ Q'), X7; reflexivity).
  assert (X13 : st_temperature s = st_temperature s').
  { assert (G := q_temperature _ _ _ Q). assert (G' := q_temperature _ _ _ Q').
    rewrite (at_temperature_ext _ s s' X9) in G. congruence. }
  assert (X14 : st_pressure s = st_pressure s').
  { assert (G := q_pressure _ _ _ Q). assert (G' := q_pressure _ _ _ Q').
    rewrite (at_pressure_ext _ s s' X9) in G. congruence. }
  assert (X15 : st_density s = st_density s').
  { assert (G := q_density _ _ _ Q). assert (G' := q_density _ _ _ Q').
    rewrite (at_density_ext _ s s' X9) in G. congruence. }
  assert (X16 : st_mach_number s = st_mach_number s').
  { assert (G := q_mach_number _ _ _ Q). assert (G' := q_mach_number _ _ _ Q').
    rewrite (at_mach_number_ext _ s s' X9 X12) in G. congruence. }
  assert (X17 : st_dynamic_pressure s = st_dynamic_pressure s').
  { rewrite (q_dynamic_pressure _ _ _ Q), (q_dynamic_pressure _ _ _ Q'). now apply at_dynamic_pressure_ext. }
  assert (B : before_attitude a s = before_attitude a s').
  { unfold before_attitude.
    rewrite X1, X2, X3, X4, X5, X6, X7, X8, X9, X10, X11, X12, X13, X14, X15, X16, X17. reflexivity. }
  assert (X18 : st_euler_angles s = st_euler_angles s')
    by (rewrite (q_euler_angles _ _ _ Q), (q_euler_angles _ _ _ Q'), B; reflexivity).
  assert (X19 : st_alpha s = st_alpha s')
    by (rewrite (q_alpha _ _ _ Q), (q_alpha _ _ _ Q'), X12, X18; reflexivity).
  assert (X20 : st_aero_force_body s = st_aero_force_body s').
  { assert (F := q_aero_force _ _ _ Q). assert (F' := q_aero_force _ _ _ Q'). unfold before_aero in F, F'.
    rewrite B, X18, X19, F' in F. congruence. }
  assert (X21 : st_throttle s = st_throttle s')
    by (rewrite (q_throttle _ _ _ Q), (q_throttle _ _ _ Q'), X5, X14, X20; reflexivity).
  assert (X22 : st_thrust_force_body s = st_thrust_force_body s')
    by (rewrite (q_thrust _ _ _ Q), (q_thrust _ _ _ Q'), X14, X21; reflexivity).
  assert (X23 : st_massflow s = st_massflow s')
    by (rewrite (q_massflow _ _ _ Q), (q_massflow _ _ _ Q'), X21; reflexivity).
  assert (X24 : st_vehicle_acceleration_body s = st_vehicle_acceleration_body s')
    by (rewrite (q_vehicle_acceleration _ _ _ Q), (q_vehicle_acceleration _ _ _ Q'), X5, X20, X22; reflexivity).
  assert (X25 : st_acceleration s = st_acceleration s')
    by (rewrite (q_acceleration _ _ _ Q), (q_acceleration _ _ _ Q'), X11, X18, X24; reflexivity).
  exact (state_ext s s' X1 X2 X3 X6 X8 X9 X4 X7 X12 X25 X22 X20 X24 X11 X5 X10 X23 X13 X14 X15 X16 X17 X19 X18 X21).
Qed.

(** The same phase with another structure mass [m], and the same state seen with it. *)
Definition with_structure (m : N) (p : Phase N) : Phase N :=
  set_ph_vehicle p (mkVehicle m (ve_initial_propellant_mass (ph_vehicle p)) (ve_reference_area (ph_vehicle p))
    (ve_drag_coeff (ph_vehicle p)) (ve_lift_coeff (ph_vehicle p)) (ve_side_force_coeff (ph_vehicle p))
    (ve_engines (ph_vehicle p))).
Definition reweigh (m : N) (s : State N) : State N := set_propellant_mass s (st_mass s - m).
(** Neither the steering nor a coefficient table refers to the propellant mass. *)
Definition ignores_propellant (p : Phase N) : Prop :=
  (forall v, In v (steering_variables (ph_steering p)) -> v <> PropellantMass) /\
  (forall v, In v (vehicle_variables (ph_vehicle p)) -> v <> PropellantMass).

Lemma get_value_reweigh : forall m v s, v <> PropellantMass -> get_value v (reweigh m s) = get_value v s.
Proof. intros m v s H. destruct v; try reflexivity. contradiction. Qed.

Lemma equations_structure : forall m (p : Phase N) s0 s, ignores_propellant p ->
  equations p s0 s -> equations (with_structure m p) s0 (reweigh m s).
Proof.
  intros m p s0 s [Hs Hv] Q.
  assert (G : forall v, v <> PropellantMass ->
    get_value v (before_attitude s0 (reweigh m s)) = get_value v (before_attitude s0 s)).
  { intros v H. destruct v; try reflexivity. contradiction. }
  assert (G2 : forall v, v <> PropellantMass ->
    get_value v (before_aero s0 (reweigh m s)) = get_value v (before_aero s0 s)).
  { intros v H. destruct v; try reflexivity. contradiction. }
  constructor.
  - exact (q_time _ _ _ Q).
  - exact (q_time_since_event _ _ _ Q).
  - exact (q_position _ _ _ Q).
  - exact (q_velocity _ _ _ Q).
  - exact (q_mass _ _ _ Q).
  - exact (q_position_planet _ _ _ Q).
  - exact (q_velocity_planet _ _ _ Q).
  - exact (q_altitude _ _ _ Q).
  - exact (q_altitude_geopotential _ _ _ Q).
  - reflexivity.
  - exact (q_gravity _ _ _ Q).
  - exact (q_velocity_atmosphere _ _ _ Q).
  - exact (eq_trans (at_temperature_ext (ph_atmosphere p) (reweigh m s) s eq_refl) (q_temperature _ _ _ Q)).
  - exact (eq_trans (at_pressure_ext (ph_atmosphere p) (reweigh m s) s eq_refl) (q_pressure _ _ _ Q)).
  - exact (eq_trans (at_density_ext (ph_atmosphere p) (reweigh m s) s eq_refl) (q_density _ _ _ Q)).
  - exact (eq_trans (at_mach_number_ext (ph_atmosphere p) (reweigh m s) s eq_refl eq_refl) (q_mach_number _ _ _ Q)).
  - exact (q_dynamic_pressure _ _ _ Q).
  - change (st_euler_angles (reweigh m s)) with (st_euler_angles s). rewrite (q_euler_angles _ _ _ Q).
    change (ph_steering (with_structure m p)) with (ph_steering p). unfold steering_euler_angles.
    rewrite !G; [reflexivity| | |]; apply Hs; unfold steering_variables; cbn [In]; auto.
  - exact (q_alpha _ _ _ Q).
  - change (st_aero_force_body (reweigh m s)) with (st_aero_force_body s). rewrite <- (q_aero_force _ _ _ Q).
    unfold aero_force, with_structure. cbn [ph_vehicle set_ph_vehicle ve_drag_coeff ve_lift_coeff ve_side_force_coeff ve_reference_area].
    rewrite !(at_state_ext _ (before_aero s0 (reweigh m s)) (before_aero s0 s))
      by (intros v Hv'; apply G2; apply Hv; unfold vehicle_variables; rewrite !in_app_iff; auto).
    reflexivity.
  - exact (q_throttle _ _ _ Q).
  - exact (q_thrust _ _ _ Q).
  - exact (q_massflow _ _ _ Q).
  - exact (q_vehicle_acceleration _ _ _ Q).
  - exact (q_acceleration _ _ _ Q).
Qed.

Definition map_outcome {A B} (f : A -> B) (o : outcome A) : outcome B :=
  match o with Ret a => Ret (f a) | Panic e => Panic e end.

Theorem C27_system_partial : forall m (p : Phase N) s0, tables_accepted (ph_vehicle p) -> ignores_propellant p ->
  system (with_structure m p) s0 = map_outcome (reweigh m) (system p s0).
Proof.
  intros m p s0 T H.
  destruct (system_total p s0 (accepted_lookups p T)) as [s [Q ->]].
  destruct (system_total (with_structure m p) s0 (accepted_lookups (with_structure m p) T)) as [s' [Q' ->]].
  rewrite (equations_unique _ _ _ _ Q' (equations_structure m p s0 s H Q)).
  change (guard (with_structure m p) (reweigh m s)) with (guard p s). destruct (guard p s); reflexivity.
Qed.

Lemma rk_loop_ext : forall X Y (add0 : X -> N -> X) (zero : Y) add scale (tb : RungeKutta N) f f' x y h is k,
  (forall a b, f a b = f' a b) ->
  rk_loop add0 zero add scale tb f x y h k is = rk_loop add0 zero add scale tb f' x y h k is.
Proof.
  intros X Y add0 zero add scale tb f f' x y h is. induction is as [|i is IH]; intros k E; [reflexivity|].
  cbn [rk_loop]. unfold rk_stage. destruct (index (rk_c tb) i) as [c|]; [|reflexivity].
  destruct (index (rk_a tb) i) as [aa|]; [|reflexivity]. cbn [bind]. rewrite E.
  destruct (f' _ _) as [r|]; [|reflexivity]. cbn [bind]. now apply IH.
Qed.
Lemma candidate_structure : forall m (p : Phase N), tables_accepted (ph_vehicle p) -> ignores_propellant p ->
  forall s h, integrator_step (system (with_structure m p)) (reweigh m s) h
    = map_outcome (reweigh m) (integrator_step (system p) s h).
Proof.
  intros m p T H s h. unfold integrator_step, rk_step. cbv zeta.
  change (to_primary_vec (reweigh m s)) with (to_primary_vec s).
  change (st_time (reweigh m s)) with (st_time s).
  change (st_time_since_event (reweigh m s)) with (st_time_since_event s).
  rewrite (rk_loop_ext _ _ _ _ _ _ _ _
    (fun t v => let* st := system p (from_vec t v) in Ret (to_differentials_vector st))).
  - destruct (rk_loop _ _ _ _ _ _ _ _ _ _ _) as [k|e]; [|reflexivity]. cbn [bind]. apply C27_system_partial; assumption.
  - intros t v. rewrite (C27_system_partial m p _ T H). destruct (system p (from_vec t v)); reflexivity.
Qed.

Definition map_status {A B} (f : A -> B) (st : status A) : status B :=
  match st with Finished a => Finished (f a) | Aborted e => Aborted e | Running a => Running (f a) end.
(** The phase [p] with its state and vehicle re-weighed. *)
Definition reweigh_phase (m : N) (p : Phase N) : Phase N :=
  set_ph_state (with_structure m p) (reweigh m (ph_state p)).

Lemma step_structure : forall m (p : Phase N), tables_accepted (ph_vehicle p) -> ignores_propellant p ->
  fst (ph_end_criterion p) <> PropellantMass ->
  step (reweigh_phase m p) = map_outcome (reweigh_phase m) (step p).
Proof.
  intros m p T H C. unfold step.
  change (ph_ended (reweigh_phase m p)) with (ph_ended p). destruct (ph_ended p); [reflexivity|].
  change (integrator_step (fun s => system (reweigh_phase m p) s) (ph_state (reweigh_phase m p)) (ph_stepsize (reweigh_phase m p)))
    with (integrator_step (system (with_structure m p)) (reweigh m (ph_state p)) (ph_stepsize p)).
  rewrite (candidate_structure m p T H). change (integrator_step (fun s => system p s)) with (integrator_step (system p)).
  destruct (integrator_step (system p) (ph_state p) (ph_stepsize p)) as [s|e]; [|reflexivity].
  cbn [map_outcome bind]. change (ph_end_criterion (reweigh_phase m p)) with (ph_end_criterion p).
  rewrite (get_value_reweigh m _ s C). destruct (n_abs _ <? _); [reflexivity|].
  assert (E : event_is_active (reweigh_phase m p) (ph_state (reweigh_phase m p)) (reweigh m s)
            = event_is_active p (ph_state p) s).
  { unfold event_is_active. change (ph_end_criterion (reweigh_phase m p)) with (ph_end_criterion p).
    change (ph_state (reweigh_phase m p)) with (reweigh m (ph_state p)). now rewrite !(get_value_reweigh m _ _ C). }
  assert (E2 : time_to_go (reweigh_phase m p) (ph_state (reweigh_phase m p)) (reweigh m s)
            = time_to_go p (ph_state p) s).
  { unfold time_to_go. change (ph_end_criterion (reweigh_phase m p)) with (ph_end_criterion p).
    change (ph_stepsize (reweigh_phase m p)) with (ph_stepsize p).
    change (ph_state (reweigh_phase m p)) with (reweigh m (ph_state p)). now rewrite !(get_value_reweigh m _ _ C). }
  rewrite E, E2. change (ph_end_criterion_tries (reweigh_phase m p)) with (ph_end_criterion_tries p).
  destruct (event_is_active p (ph_state p) s); [|reflexivity].
  destruct (20 <? ph_end_criterion_tries p)%nat; reflexivity.
Qed.

(** The structure mass - the mass below which there is no propellant left - has no
    influence on a flight whatever, except on the reported propellant mass itself: neither
    thrust nor mass flow nor trajectory take notice of an empty tank.  (The steering,
    the tables and the end criterion may of course look at the propellant mass.) *)
Theorem C27_run_partial : forall m fuel (p : Phase N), tables_accepted (ph_vehicle p) -> ignores_propellant p ->
  fst (ph_end_criterion p) <> PropellantMass ->
  run fuel (with_structure m p)
  = (map (reweigh m) (fst (run fuel p)), map_status (reweigh_phase m) (snd (run fuel p))).
Proof.
  intros m fuel p T H C. unfold run. change (ph_state (with_structure m p)) with (ph_state p).
  rewrite (C27_system_partial m p _ T H). destruct (system p (ph_state p)) as [s|e]; [|reflexivity].
  cbn [map_outcome]. change (set_ph_state (with_structure m p) (reweigh m s)) with (reweigh_phase m (set_ph_state p s)).
  assert (T' : tables_accepted (ph_vehicle (set_ph_state p s))) by exact T.
  assert (H' : ignores_propellant (set_ph_state p s)) by exact H.
  assert (C' : fst (ph_end_criterion (set_ph_state p s)) <> PropellantMass) by exact C.
  generalize dependent (set_ph_state p s). clear. induction fuel as [|fuel IH]; intros q T H C; cbn [run_loop].
  - change (ph_ended (reweigh_phase m q)) with (ph_ended q). destruct (ph_ended q); reflexivity.
  - change (ph_ended (reweigh_phase m q)) with (ph_ended q). destruct (ph_ended q); [reflexivity|].
    rewrite (step_structure m q T H C). destruct (step q) as [q'|e] eqn:S; [|reflexivity]. cbn [map_outcome].
    destruct (step_parameters _ _ S) as (Pv & Ps & _ & _ & _ & _ & _ & Pc).
    rewrite IH.
    + destruct (run_loop fuel q') as [h st]. reflexivity.
    + rewrite Pv. exact T.
    + unfold ignores_propellant. rewrite Pv, Ps. exact H.
    + rewrite Pc. exact C.
Qed.
End Generic.
