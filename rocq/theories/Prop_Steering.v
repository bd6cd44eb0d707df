(** * C38 - C40: steering, and what the equations of motion depend on *)
From Coq Require Import ZArith List Reals Lra Lia Bool.
From Verif Require Import Num Constants State Tables Config Planet Atmosphere Transformations
  Steering Vehicle RungeKutta Phase Simulation XR XRFacts SpecReal SystemFacts RKFacts RunFacts PhaseNew
  Prop_Run SystemTotal Prop_Panics.
Import ListNotations.

(** Variables that are not available when the attitude is computed (user manual, section
    on steering: acceleration, forces, mass flow, throttle, angle of attack, attitude). *)
Definition late (v : StateVariable) : bool :=
  match v with
  | Acceleration1 | Acceleration2 | Acceleration3 | AccelerationNorm
  | ThrustForceBody1 | ThrustForceBody2 | ThrustForceBody3 | ThrustForceBodyNorm
  | AeroForceBody1 | AeroForceBody2 | AeroForceBody3 | AeroForceBodyNorm
  | VehicleAccelerationBody1 | VehicleAccelerationBody2 | VehicleAccelerationBody3
  | VehicleAccelerationBodyNorm
  | Massflow | Throttle | Alpha | EulerAnglesRoll | EulerAnglesYaw | EulerAnglesPitch => true
  | _ => false
  end.
(** ... and when the aerodynamic coefficients are looked up: the attitude and the angle
    of attack are known by then. *)
Definition late_aero (v : StateVariable) : bool :=
  match v with
  | Alpha | EulerAnglesRoll | EulerAnglesYaw | EulerAnglesPitch => false
  | _ => late v
  end.

Section Generic.
Context {N : Num}.
Local Open Scope num_scope.

Definition table_variables (t : Table N) : list StateVariable :=
  match t with
  | D1 t => [fst (t1_x t)]
  | D2 t => [fst (t2_x t); fst (t2_y t)]
  | D3 t => [fst (t3_x t); fst (t3_y t); fst (t3_z t)]
  end.
Definition vehicle_variables (v : Vehicle N) : list StateVariable :=
  table_variables (ve_drag_coeff v) ++ table_variables (ve_lift_coeff v)
    ++ table_variables (ve_side_force_coeff v).
Definition steering_variables (s : Steering N) : list StateVariable :=
  [ax_var (sg_roll s); ax_var (sg_yaw s); ax_var (sg_pitch s)].

(** The five primary quantities agree. *)
Definition same_primary (a b : State N) : Prop :=
  st_time a = st_time b /\ st_time_since_event a = st_time_since_event b /\
  st_position a = st_position b /\ st_velocity a = st_velocity b /\ st_mass a = st_mass b.

Lemma at_state_ext : forall t (a b : State N),
  (forall v, In v (table_variables t) -> get_value v a = get_value v b) -> at_state t a = at_state t b.
Proof.
  intros [t|t|t] a b H; cbn [table_variables] in H; cbn [at_state].
  - unfold t1_at_state. rewrite (H (fst (t1_x t))) by (left; reflexivity). reflexivity.
  - unfold t2_at_state. rewrite (H (fst (t2_x t))) by (left; reflexivity).
    rewrite (H (fst (t2_y t))) by (right; left; reflexivity). reflexivity.
  - unfold t3_at_state. rewrite (H (fst (t3_x t))) by (left; reflexivity).
    rewrite (H (fst (t3_y t))) by (right; left; reflexivity).
    rewrite (H (fst (t3_z t))) by (right; right; left; reflexivity). reflexivity.
Qed.
Lemma state_ext : forall a b : State N,
  st_time a = st_time b -> st_time_since_event a = st_time_since_event b ->
  st_position a = st_position b -> st_position_planet a = st_position_planet b ->
  st_altitude a = st_altitude b -> st_altitude_geopotential a = st_altitude_geopotential b ->
  st_velocity a = st_velocity b -> st_velocity_planet a = st_velocity_planet b ->
  st_velocity_atmosphere a = st_velocity_atmosphere b -> st_acceleration a = st_acceleration b ->
  st_thrust_force_body a = st_thrust_force_body b -> st_aero_force_body a = st_aero_force_body b ->
  st_vehicle_acceleration_body a = st_vehicle_acceleration_body b ->
  st_gravity_acceleration a = st_gravity_acceleration b ->
  st_mass a = st_mass b -> st_propellant_mass a = st_propellant_mass b -> st_massflow a = st_massflow b ->
  st_temperature a = st_temperature b -> st_pressure a = st_pressure b -> st_density a = st_density b ->
  st_mach_number a = st_mach_number b -> st_dynamic_pressure a = st_dynamic_pressure b ->
  st_alpha a = st_alpha b -> st_euler_angles a = st_euler_angles b -> st_throttle a = st_throttle b -> a = b.
Proof. intros [] []; cbn; intros; subst; reflexivity. Qed.

(** ** C38 *)
(** One integration step starts from the five primary quantities alone. *)
Theorem C38_step_input : forall f (a b : State N) h, same_primary a b ->
  integrator_step f a h = integrator_step f b h.
Proof.
  intros f a b h (E1 & E2 & E3 & E4 & E5). unfold integrator_step, to_primary_vec.
  now rewrite E1, E2, E3, E4, E5.
Qed.

(** The state returned by the equations of motion is determined by the primary quantities
    whenever the steering and the tables use available variables only. *)
Theorem C38_function : forall (p : Phase N) (a b s s' : State N), same_primary a b ->
  (forall v, In v (steering_variables (ph_steering p)) -> late v = false) ->
  (forall v, In v (vehicle_variables (ph_vehicle p)) -> late_aero v = false) ->
  equations p a s -> equations p b s' -> s = s'.
Proof.
  intros p a b s s' (E1 & E2 & E3 & E4 & E5) Hst Htb Q Q'.
  assert (X1 : st_time s = st_time s') by (rewrite (q_time _ _ _ Q), (q_time _ _ _ Q'); exact E1).
  assert (X2 : st_time_since_event s = st_time_since_event s')
    by (rewrite (q_time_since_event _ _ _ Q), (q_time_since_event _ _ _ Q'); exact E2).
  assert (X3 : st_position s = st_position s') by (rewrite (q_position _ _ _ Q), (q_position _ _ _ Q'); exact E3).
  assert (X4 : st_velocity s = st_velocity s') by (rewrite (q_velocity _ _ _ Q), (q_velocity _ _ _ Q'); exact E4).
  assert (X5 : st_mass s = st_mass s') by (rewrite (q_mass _ _ _ Q), (q_mass _ _ _ Q'); exact E5).
  assert (X6 : st_position_planet s = st_position_planet s')
    by (rewrite (q_position_planet _ _ _ Q), (q_position_planet _ _ _ Q'), X1, X3; reflexivity).
  assert (X7 : st_velocity_planet s = st_velocity_planet s')
    by (rewrite (q_velocity_planet _ _ _ Q), (q_velocity_planet _ _ _ Q'), X3, X4; reflexivity).
  assert (X8 : st_altitude s = st_altitude s') by (rewrite (q_altitude _ _ _ Q), (q_altitude _ _ _ Q'), X3; reflexivity).
  assert (X9 : st_altitude_geopotential s = st_altitude_geopotential s')
    by (rewrite (q_altitude_geopotential _ _ _ Q), (q_altitude_geopotential _ _ _ Q'), X3; reflexivity).
  assert (X10 : st_propellant_mass s = st_propellant_mass s')
    by (rewrite (q_propellant_mass _ _ _ Q), (q_propellant_mass _ _ _ Q'), X5; reflexivity).
  assert (X11 : st_gravity_acceleration s = st_gravity_acceleration s')
    by (rewrite (q_gravity _ _ _ Q), (q_gravity _ _ _ Q'), X3; reflexivity).
  assert (X12 : st_velocity_atmosphere s = st_velocity_atmosphere s')
    by (rewrite (q_velocity_atmosphere _ _ _ Q), (q_velocity_atmosphere _ _ _ Q'), X7; reflexivity).
  assert (X13 : st_temperature s = st_temperature s').
  { assert (G := q_temperature _ _ _ Q). assert (G' := q_temperature _ _ _ Q').
    rewrite (at_temperature_ext _ s s' X9) in G. congruence. }
  assert (X14 : st_pressure s = st_pressure s').
  { assert (G := q_pressure _ _ _ Q). assert (G' := q_pressure _ _ _ Q').
    rewrite (at_pressure_ext _ s s' X9) in G. congruence. }
  assert (X15 : st_density s = st_density s').
  { assert (G := q_density _ _ _ Q). assert (G' := q_density _ _ _ Q').
    rewrite (at_density_ext _ s s' X9) in G. congruence. }
  assert (X16 : st_mach_number s = st_mach_number s').
  { assert (G := q_mach_number _ _ _ Q). assert (G' := q_mach_number _ _ _ Q').
    rewrite (at_mach_number_ext _ s s' X9 X12) in G. congruence. }
  assert (X17 : st_dynamic_pressure s = st_dynamic_pressure s').
  { rewrite (q_dynamic_pressure _ _ _ Q), (q_dynamic_pressure _ _ _ Q'). now apply at_dynamic_pressure_ext. }
  assert (G : forall v, late v = false -> get_value v (before_attitude a s) = get_value v (before_attitude b s')).
  { intros v Hv. clear Q Q' Hst Htb. destruct v; try discriminate; cbn [get_value before_attitude st_time st_time_since_event st_position
      st_position_planet st_altitude st_altitude_geopotential st_velocity st_velocity_planet
      st_velocity_atmosphere st_gravity_acceleration st_mass st_propellant_mass st_temperature st_pressure
      st_density st_mach_number st_dynamic_pressure];
      rewrite ?E1, ?E2, ?E3, ?E4, ?E5, ?X1, ?X2, ?X3, ?X4, ?X5, ?X6, ?X7, ?X8, ?X9, ?X10, ?X11, ?X12, ?X13, ?X14, ?X15, ?X16, ?X17; reflexivity. }
  assert (X18 : st_euler_angles s = st_euler_angles s').
  { rewrite (q_euler_angles _ _ _ Q), (q_euler_angles _ _ _ Q'). unfold steering_euler_angles.
    rewrite !G; [reflexivity| | |]; apply Hst; unfold steering_variables; cbn [In]; auto. }
  assert (X19 : st_alpha s = st_alpha s')
    by (rewrite (q_alpha _ _ _ Q), (q_alpha _ _ _ Q'), X12, X18; reflexivity).
  assert (G2 : forall v, late_aero v = false -> get_value v (before_aero a s) = get_value v (before_aero b s')).
  { intros v Hv. destruct (late v) eqn:L.
    - destruct v; try discriminate; unfold before_aero; cbn [get_value set_alpha set_euler_angles st_alpha st_euler_angles];
        rewrite ?X18, ?X19; reflexivity.
    - replace (get_value v (before_aero a s)) with (get_value v (before_attitude a s)) by (destruct v; try discriminate; reflexivity).
      replace (get_value v (before_aero b s')) with (get_value v (before_attitude b s')) by (destruct v; try discriminate; reflexivity).
      now apply G. }
  assert (X20 : st_aero_force_body s = st_aero_force_body s').
  { assert (F := q_aero_force _ _ _ Q). assert (F' := q_aero_force _ _ _ Q'). unfold aero_force in F, F'.
    rewrite !(at_state_ext _ (before_aero a s) (before_aero b s')) in F
      by (intros v Hv; apply G2; apply Htb; unfold vehicle_variables; rewrite !in_app_iff; auto).
    change (st_alpha (before_aero a s)) with (st_alpha s) in F. change (st_alpha (before_aero b s')) with (st_alpha s') in F'.
    change (st_dynamic_pressure (before_aero a s)) with (st_dynamic_pressure s) in F.
    change (st_dynamic_pressure (before_aero b s')) with (st_dynamic_pressure s') in F'.
    rewrite X17, X19 in F. rewrite F in F'. congruence. }
  assert (X21 : st_throttle s = st_throttle s')
    by (rewrite (q_throttle _ _ _ Q), (q_throttle _ _ _ Q'), X5, X14, X20; reflexivity).
  assert (X22 : st_thrust_force_body s = st_thrust_force_body s')
    by (rewrite (q_thrust _ _ _ Q), (q_thrust _ _ _ Q'), X14, X21; reflexivity).
  assert (X23 : st_massflow s = st_massflow s')
    by (rewrite (q_massflow _ _ _ Q), (q_massflow _ _ _ Q'), X21; reflexivity).
  assert (X24 : st_vehicle_acceleration_body s = st_vehicle_acceleration_body s')
    by (rewrite (q_vehicle_acceleration _ _ _ Q), (q_vehicle_acceleration _ _ _ Q'), X5, X20, X22; reflexivity).
  assert (X25 : st_acceleration s = st_acceleration s')
    by (rewrite (q_acceleration _ _ _ Q), (q_acceleration _ _ _ Q'), X11, X18, X24; reflexivity).
  exact (state_ext s s' X1 X2 X3 X6 X8 X9 X4 X7 X12 X25 X22 X20 X24 X11 X5 X10 X23 X13 X14 X15 X16 X17 X19 X18 X21).
Qed.
Theorem C38_system : forall (p : Phase N) (a b : State N), same_primary a b -> tables_accepted (ph_vehicle p) ->
  (forall v, In v (steering_variables (ph_steering p)) -> late v = false) ->
  (forall v, In v (vehicle_variables (ph_vehicle p)) -> late_aero v = false) ->
  system p a = system p b.
Proof.
  intros p a b H T Hs Hv.
  destruct (system_total p a (accepted_lookups p T)) as [s [Q ->]].
  destruct (system_total p b (accepted_lookups p T)) as [s' [Q' ->]].
  now rewrite (C38_function p a b s s' H Hs Hv Q Q').
Qed.
(** In particular a whole phase behaves the same whatever is left over in the derived
    variables when it starts. *)
Theorem C38_run : forall fuel (p : Phase N) (b : State N), same_primary (ph_state p) b ->
  tables_accepted (ph_vehicle p) ->
  (forall v, In v (steering_variables (ph_steering p)) -> late v = false) ->
  (forall v, In v (vehicle_variables (ph_vehicle p)) -> late_aero v = false) ->
  run fuel (set_ph_state p b) = run fuel p.
Proof.
  intros fuel p b H T Hs Hv. unfold run. change (ph_state (set_ph_state p b)) with b.
  change (system (set_ph_state p b) b) with (system p b).
  rewrite <- (C38_system p (ph_state p) b H T Hs Hv).
  destruct (system p (ph_state p)); reflexivity.
Qed.

(** What variables are read as when they are not available yet.  [view] shows the
    variables of [s], except those marked [unavailable], which are read from [left]. *)
Definition shows (unavailable : StateVariable -> bool) (left s view : State N) : Prop :=
  (forall v, unavailable v = false -> get_value v view = get_value v s) /\
  (forall v, unavailable v = true -> get_value v view = get_value v left).
Theorem C38_reads : forall (p : Phase N) (s0 s : State N), system p s0 = Ret s ->
  (exists view, shows late s0 s view /\ st_euler_angles s = steering_euler_angles (ph_steering p) view) /\
  (exists view, shows late_aero s0 s view /\ aero_force (ph_vehicle p) view = Ret (st_aero_force_body s)).
Proof.
  intros p s0 s H. apply system_eom in H. split.
  - exists (before_attitude s0 s). split; [|exact (e_euler_angles _ _ _ H)].
    split; intros v Hv; destruct v; try discriminate Hv; reflexivity.
  - exists (before_aero s0 s). split; [|exact (e_aero_force _ _ _ H)].
    split; intros v Hv; destruct v; try discriminate Hv; reflexivity.
Qed.
Lemma late_aero_late : forall v, late_aero v = true -> late v = true.
Proof. intros v H. destruct v; try discriminate H; reflexivity. Qed.
Lemma late_primary_only : forall v (s : State N), late v = true ->
  get_value v (primary_only s) = get_value v default_state.
Proof. intros v s Hv. destruct v; try discriminate Hv; reflexivity. Qed.
Lemma shows_left : forall u (a b s view : State N), (forall v, u v = true -> get_value v a = get_value v b) ->
  shows u a s view -> shows u b s view.
Proof.
  intros u a b s view E [A B]. split; [exact A|]. intros v Hv. rewrite <- (E v Hv). now apply B.
Qed.
(** Every reported state that is not the initial state of its phase: unavailable
    variables read as in the default state, i.e. as zero. *)
Theorem C38_zero : forall fuel (p : Phase N) h st s, run fuel p = (h, st) -> In s h -> initial p s \/
  (exists view, shows late default_state s view /\ st_euler_angles s = steering_euler_angles (ph_steering p) view) /\
  (exists view, shows late_aero default_state s view /\ aero_force (ph_vehicle p) view = Ret (st_aero_force_body s)).
Proof.
  intros fuel p h st s R Hs. destruct (C37_self_consistent _ _ _ _ _ R Hs) as [I|I]; [left; exact I|right].
  destruct (C38_reads p _ s I) as [(v1 & A1 & B1) (v2 & A2 & B2)]. split.
  - exists v1. split; [|exact B1]. revert A1. apply shows_left. intros v. apply late_primary_only.
  - exists v2. split; [|exact B2]. revert A2. apply shows_left. intros v Hv. apply late_primary_only. now apply late_aero_late.
Qed.
Lemma configured_state : forall (old : Phase N) c, exists m, ph_state (configured old c) = set_mass (ph_state old) m.
Proof.
  intros old c. unfold configured. cbn [ph_state].
  destruct (pc_vehicle c) as [[[m|] [k|] ra dc lc sf en]|]; cbn [vc_structure_mass vc_propellant_mass];
    first [eexists; reflexivity|exists (st_mass (ph_state old)); destruct (ph_state old); reflexivity].
Qed.
Lemma phase_init_state : forall (p : Phase N) i, exists r v, ph_state (phase_init p i) = set_velocity (set_position (ph_state p) r) v.
Proof. intros p i. eexists. eexists. reflexivity. Qed.
Lemma reset_state : forall p : Phase N, ph_state (reset p) = set_time_since_event (ph_state p) #0.
Proof. reflexivity. Qed.
(** So does the initial state of the first phase ... *)
Theorem C38_first_phase : forall (c : PhaseConfig N) (p : Phase N) s, begins [c] p -> initial p s ->
  (exists view, shows late default_state s view /\ st_euler_angles s = steering_euler_angles (ph_steering p) view) /\
  (exists view, shows late_aero default_state s view /\ aero_force (ph_vehicle p) view = Ret (st_aero_force_body s)).
Proof.
  intros c p s Hb Hi.
  assert (L : forall v, late v = true -> get_value v (ph_state p) = get_value v default_state).
  { destruct (begins_simulate _ _ Hb [] c eq_refl) as [[_ [p' [Hn ->]]]|(p1 & fuel & h & q & p' & B & _)].
    2:{ inversion B. destruct cs; discriminate. }
    rewrite phase_new_configured in Hn. destruct (pc_init c) as [i|]; [|discriminate].
    assert (E : p' = phase_init (configured default_phase c) i) by congruence. subst p'. clear.
    destruct (phase_init_state (configured default_phase c) i) as (r & w & E1).
    destruct (configured_state default_phase c) as [m E2].
    rewrite reset_state, E1, E2. clear. intros v Hv. destruct v; try discriminate Hv; reflexivity. }
  destruct (C38_reads p _ s Hi) as [(v1 & A1 & B1) (v2 & A2 & B2)]. split.
  - exists v1. split; [|exact B1]. revert A1. now apply shows_left.
  - exists v2. split; [|exact B2]. revert A2. apply shows_left. intros v Hv. apply L. now apply late_aero_late.
Qed.
(** ... but the initial state of every later phase reads what the last state of the previous
    phase has left over. *)
Theorem C38_later_phase : forall (q : Phase N) (c : PhaseConfig N) p' s, phase_new (Some q) c = Ret p' ->
  initial (reset p') s ->
  (exists view, shows late (ph_state q) s view /\ st_euler_angles s = steering_euler_angles (ph_steering (reset p')) view) /\
  (exists view, shows late_aero (ph_state q) s view /\ aero_force (ph_vehicle p') view = Ret (st_aero_force_body s)).
Proof.
  intros q c p' s Hn Hi. destruct (C28_state q c p' Hn) as (_ & _ & E1 & E2).
  assert (L : forall v, late v = true -> get_value v (ph_state (reset p')) = get_value v (ph_state q)).
  { intros v Hv. rewrite E2, E1. destruct v; try discriminate Hv; reflexivity. }
  destruct (C38_reads _ _ s Hi) as [(v1 & A1 & B1) (v2 & A2 & B2)]. split.
  - exists v1. split; [|exact B1]. revert A1. now apply shows_left.
  - exists v2. split; [|exact B2]. revert A2. apply shows_left. intros v Hv. apply L. now apply late_aero_late.
Qed.

(** ** C40: structure *)
(** The constant coefficients of a phase are the angles (in degrees) with which it starts. *)
Theorem C40_constant_coefficients : forall (cs : list (PhaseConfig N)) (p : Phase N), begins cs p ->
  ax_c0 (sg_roll (ph_steering p)) = to_degrees (vx (st_euler_angles (ph_state p))) /\
  ax_c0 (sg_yaw (ph_steering p)) = to_degrees (vy (st_euler_angles (ph_state p))) /\
  ax_c0 (sg_pitch (ph_steering p)) = to_degrees (vz (st_euler_angles (ph_state p))).
Proof. intros cs p H. destruct H; repeat split. Qed.
(** Those are the angles at the end of the previous phase, or zero. *)
Theorem C40_start_angles : forall (cs : list (PhaseConfig N)) (p : Phase N), begins cs p ->
  (exists c, cs = [c] /\ st_euler_angles (ph_state p) = V3 #0 #0 #0) \/
  (exists cs' c p1 fuel h q, cs = cs' ++ [c] /\ begins cs' p1 /\ run fuel p1 = (h, Finished q) /\
     st_euler_angles (ph_state p) = st_euler_angles (ph_state q)).
Proof.
  intros cs p H. destruct H as [c p Hn|cs p fuel h q c p' Hb Hr Hn].
  - left. exists c. split; [reflexivity|]. rewrite phase_new_configured in Hn.
    destruct (pc_init c) as [i|]; [|discriminate].
    assert (E : p = phase_init (configured default_phase c) i) by congruence. subst p. clear.
    destruct (phase_init_state (configured default_phase c) i) as (r & w & E1).
    destruct (configured_state default_phase c) as [m E2].
    rewrite reset_state, E1, E2. reflexivity.
  - right. exists cs, c, p, fuel, h, q. split; [reflexivity|]. split; [exact Hb|]. split; [exact Hr|].
    destruct (C28_state q c p' Hn) as (_ & _ & E1 & E2). rewrite E2, E1. reflexivity.
Qed.
(** An axis only depends on its own configuration. *)
Theorem C40_axes_independent : forall (a b : Steering N) (s : State N),
  (sg_roll a = sg_roll b -> vx (steering_euler_angles a s) = vx (steering_euler_angles b s)) /\
  (sg_yaw a = sg_yaw b -> vy (steering_euler_angles a s) = vy (steering_euler_angles b s)) /\
  (sg_pitch a = sg_pitch b -> vz (steering_euler_angles a s) = vz (steering_euler_angles b s)).
Proof.
  intros a b s. unfold steering_euler_angles. cbn [vx vy vz].
  split; [|split]; intros E; rewrite E; reflexivity.
Qed.
End Generic.

(** ** C39, C40 in exact arithmetic *)
From Verif Require Import Prop_Planet.
Local Open Scope R_scope.
(** The steering polynomial without its constant term. *)
Definition poly (c : vec3 R) (y : R) : R := vx c * y + vy c * y ^ 2 + vz c * y ^ 3.
Section Exact.
Context {rot : mat3 xr -> mat3 xr}.
Notation N := (XR rot).

(** Axis [a] is steered by variable [v] with the real coefficients [c0], [c]. *)
Definition axis_is (a : axis N) (v : StateVariable) (c0 : R) (c : vec3 R) : Prop :=
  ax_var a = v /\ ax_c0 a = Fin c0 /\ ax_c a = finv c.
Lemma calc_coeff_fin : forall (a : axis N) v c0 c y, axis_is a v c0 c ->
  calc_coeff (N := N) (Fin y) a = Fin (c0 + poly c y).
Proof.
  intros a v c0 c y (_ & E0 & E). unfold calc_coeff. rewrite E0, E. unfold poly, sum. cbn [fold_left]. xrs.
  f_equal. ring.
Qed.
(** The three axes by name. *)
Inductive angle_of : (Steering N -> axis N) -> (State N -> N) -> Prop :=
| angle_roll : angle_of (@sg_roll N) (fun s => vx (st_euler_angles s))
| angle_yaw : angle_of (@sg_yaw N) (fun s => vy (st_euler_angles s))
| angle_pitch : angle_of (@sg_pitch N) (fun s => vz (st_euler_angles s)).

Lemma law : forall (p : Phase N) (s view : State N) ax angle v c0 c y, angle_of ax angle ->
  axis_is (ax (ph_steering p)) v c0 c ->
  st_euler_angles s = steering_euler_angles (ph_steering p) view -> get_value v view = Fin y ->
  angle s = Fin (deg (c0 + poly c y)).
Proof.
  intros p s view ax angle v c0 c y Ha Hx E Hy.
  assert (Hv : ax_var (ax (ph_steering p)) = v) by apply Hx.
  destruct Ha; rewrite E; unfold steering_euler_angles; cbn [vx vy vz];
    rewrite Hv, Hy, (calc_coeff_fin _ v c0 c y Hx), to_radians_fin; reflexivity.
Qed.
(** Each Euler angle is the cubic polynomial of its variable, in degrees, converted to
    radians; in every reported state and, as long as the variable is available, at the
    start of a phase. *)
Theorem C40_law : forall (cs : list (PhaseConfig N)) (p : Phase N) (s : State N) ax angle v c0 c y,
  reported cs p s \/ initial p s -> angle_of ax angle -> axis_is (ax (ph_steering p)) v c0 c ->
  late v = false -> get_value v s = Fin y ->
  angle s = Fin (deg (c0 + poly c y)).
Proof.
  intros cs p s ax angle v c0 c y H Ha Hx Hv Hy.
  assert (S : exists s0, system p s0 = Ret s).
  { destruct H as [H|H]; [|eauto]. destruct (C37_reported _ _ _ H) as [s0 E]. exists s0. now apply system_eom. }
  destruct S as [s0 S]. destruct (C38_reads p s0 s S) as [(view & [A _] & E) _].
  apply (law p s view ax angle v c0 c y Ha Hx E). rewrite (A v Hv). exact Hy.
Qed.
(** An axis steered by an unavailable variable keeps its constant term. *)
Theorem C40_unavailable : forall (cs : list (PhaseConfig N)) (p : Phase N) (s : State N) ax angle v c0 c,
  reported cs p s -> ~ initial p s -> angle_of ax angle -> axis_is (ax (ph_steering p)) v c0 c ->
  late v = true -> angle s = Fin (deg c0).
Proof.
  intros cs p s ax angle v c0 c (cs1 & cs2 & fuel & h & st & _ & _ & R & Hs) Hni Ha Hx Hv.
  destruct (C38_zero _ _ _ _ _ R Hs) as [I|[(view & [_ A] & E) _]]; [contradiction|].
  rewrite (law p s view ax angle v c0 c 0 Ha Hx E); [f_equal; f_equal; unfold poly; ring|].
  rewrite (A v Hv). destruct v; try discriminate Hv; try reflexivity;
    cbn [get_value]; change (norm (N := N) (finv zeroR) = Fin 0); rewrite norm_fin, normR_zeroR; reflexivity.
Qed.

Lemma to_degrees_fin : forall x, to_degrees (N := N) (Fin x) = Fin (x * (180 / PI)).
Proof.
  intros x. unfold to_degrees. xrs. rewrite xdiv_fin; [reflexivity|]. apply Rgt_not_eq. apply PI_RGT_0.
Qed.
(** At the start of a phase each angle jumps by the polynomial (without constant term)
    of its variable. *)
Theorem C39_jump : forall (cs : list (PhaseConfig N)) (p : Phase N) (s : State N) ax angle v c a y,
  begins cs p -> initial p s -> angle_of ax angle ->
  ax_var (ax (ph_steering p)) = v -> ax_c (ax (ph_steering p)) = finv c ->
  angle (ph_state p) = Fin a -> late v = false -> get_value v s = Fin y ->
  angle s = Fin (a + deg (poly c y)).
Proof.
  intros cs p s ax angle v c a y Hb Hi Ha Ev Ec Ea Hv Hy.
  destruct (C40_constant_coefficients cs p Hb) as (K1 & K2 & K3).
  assert (K : ax_c0 (ax (ph_steering p)) = Fin (a * (180 / PI))).
  { destruct Ha; [rewrite K1|rewrite K2|rewrite K3]; cbn beta in Ea; rewrite Ea; apply to_degrees_fin. }
  rewrite (C40_law cs p s ax angle v (a * (180 / PI)) c y (or_intror Hi) Ha (conj Ev (conj K Ec)) Hv Hy).
  f_equal. unfold deg. assert (P := PI_RGT_0). field. lra.
Qed.
(** The attitude is continuous exactly when that polynomial vanishes, in particular when
    the variable is zero at the event, such as the time since the event. *)
Theorem C39_continuous_partial : forall (cs : list (PhaseConfig N)) (p : Phase N) (s : State N) ax angle v c a y,
  begins cs p -> initial p s -> angle_of ax angle ->
  ax_var (ax (ph_steering p)) = v -> ax_c (ax (ph_steering p)) = finv c ->
  angle (ph_state p) = Fin a -> late v = false -> get_value v s = Fin y ->
  (angle s = angle (ph_state p) <-> poly c y = 0).
Proof.
  intros cs p s ax angle v c a y Hb Hi Ha Ev Ec Ea Hv Hy.
  rewrite (C39_jump cs p s ax angle v c a y Hb Hi Ha Ev Ec Ea Hv Hy), Ea. unfold deg.
  assert (P := PI_RGT_0). split.
  - intros E. injection E as E. assert (Q : poly c y * (PI / 180) = 0) by lra.
    apply Rmult_integral in Q. destruct Q as [Q|Q]; [exact Q|lra].
  - intros ->. f_equal. ring.
Qed.
Theorem C39_time_since_event_partial : forall (cs : list (PhaseConfig N)) (p : Phase N) (s : State N) ax angle c a,
  begins cs p -> initial p s -> angle_of ax angle ->
  ax_var (ax (ph_steering p)) = TimeSinceEvent -> ax_c (ax (ph_steering p)) = finv c ->
  angle (ph_state p) = Fin a -> angle s = angle (ph_state p).
Proof.
  intros cs p s ax angle c a Hb Hi Ha Ev Ec Ea.
  apply (C39_continuous_partial cs p s ax angle TimeSinceEvent c a 0); auto.
  - destruct (C36_start cs p Hb) as [_ E]. destruct (E s Hi) as [E1 _]. exact E1.
  - unfold poly. ring.
Qed.
End Exact.
