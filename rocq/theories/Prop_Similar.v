(** * C60: similar vehicles fly the same trajectory

    Multiplying all masses, thrusts, nozzle exit areas and the reference area of the vehicle by the same factor changes no
    record but for its masses, flows and forces, which are multiplied by the factor. *)
From Coq Require Import ZArith List Reals Lra Lia Bool.
From Verif Require Import Num Constants State Tables Config Planet Atmosphere Transformations
  Steering Vehicle RungeKutta Phase Simulation XR XRFacts SpecReal SystemFacts SystemTotal RKFacts RunFacts
  PhaseNew Prop_Run Prop_Steering Prop_Depletion Prop_Engines.
Import ListNotations.

(** ** Specification *)
(** Variables that do not depend on the size of the vehicle: all but masses, mass flow and forces. *)
Definition sizeless (v : StateVariable) : bool :=
  match v with
  | Mass | PropellantMass | Massflow
  | ThrustForceBody1 | ThrustForceBody2 | ThrustForceBody3 | ThrustForceBodyNorm
  | AeroForceBody1 | AeroForceBody2 | AeroForceBody3 | AeroForceBodyNorm => false
  | _ => true
  end.
Section Spec.
Context {N : Num}.
Variable K : N -> N.
Definition times (v : vec3 N) : vec3 N := V3 (K (vx v)) (K (vy v)) (K (vz v)).
(** [s'] is the state [s] of a vehicle of [K] times the size. *)
Record similar (s s' : State N) : Prop := {
  z_mass : st_mass s' = K (st_mass s);
  z_propellant_mass : st_propellant_mass s' = K (st_propellant_mass s);
  z_massflow : st_massflow s' = K (st_massflow s);
  z_thrust_force_body : st_thrust_force_body s' = times (st_thrust_force_body s);
  z_aero_force_body : st_aero_force_body s' = times (st_aero_force_body s);
  z_time : st_time s' = st_time s;
  z_time_since_event : st_time_since_event s' = st_time_since_event s;
  z_position : st_position s' = st_position s;
  z_position_planet : st_position_planet s' = st_position_planet s;
  z_altitude : st_altitude s' = st_altitude s;
  z_altitude_geopotential : st_altitude_geopotential s' = st_altitude_geopotential s;
  z_velocity : st_velocity s' = st_velocity s;
  z_velocity_planet : st_velocity_planet s' = st_velocity_planet s;
  z_velocity_atmosphere : st_velocity_atmosphere s' = st_velocity_atmosphere s;
  z_acceleration : st_acceleration s' = st_acceleration s;
  z_vehicle_acceleration_body : st_vehicle_acceleration_body s' = st_vehicle_acceleration_body s;
  z_gravity_acceleration : st_gravity_acceleration s' = st_gravity_acceleration s;
  z_temperature : st_temperature s' = st_temperature s;
  z_pressure : st_pressure s' = st_pressure s;
  z_density : st_density s' = st_density s;
  z_mach_number : st_mach_number s' = st_mach_number s;
  z_dynamic_pressure : st_dynamic_pressure s' = st_dynamic_pressure s;
  z_alpha : st_alpha s' = st_alpha s;
  z_euler_angles : st_euler_angles s' = st_euler_angles s;
  z_throttle : st_throttle s' = st_throttle s }.
(** The configurations of the larger vehicle. *)
Definition larger_engine (e : Engine N) : Engine N :=
  mkEngine (en_incidence e) (K (en_thrust_vac e)) (en_isp_vac e) (K (en_exit_area e)).
Definition larger_vehicle (v : VehicleConfig N) : VehicleConfig N :=
  mkVehicleConfig (option_map K (vc_structure_mass v)) (option_map K (vc_propellant_mass v)) (option_map K (vc_reference_area v))
    (vc_drag_coeff v) (vc_lift_coeff v) (vc_side_force_coeff v) (option_map (map larger_engine) (vc_engines v)).
Definition larger (c : PhaseConfig N) : PhaseConfig N :=
  mkPhaseConfig (pc_init c) (option_map larger_vehicle (pc_vehicle c)) (pc_steering c) (pc_planet_model c) (pc_atmosphere c)
    (pc_max_acceleration c) (pc_stepsize c) (pc_end_criterion c).
Definition similar_event (e e' : event N) : Prop :=
  match e, e' with
  | EPhase i, EPhase j => i = j
  | ERecord s, ERecord s' => similar s s'
  | _, _ => False
  end.
Definition similar_status (st st' : status (Phase N)) : Prop :=
  match st, st' with
  | Finished q, Finished q' => similar (ph_state q) (ph_state q')
  | Running q, Running q' => similar (ph_state q) (ph_state q')
  | Aborted e, Aborted e' => e = e'
  | _, _ => False
  end.
(** Tables, steering and end criterion do not use the size of the vehicle. *)
Record size_free (c : PhaseConfig N) : Prop := {
  sf_tables : forall v t, pc_vehicle c = Some v -> vc_drag_coeff v = Some t \/ vc_lift_coeff v = Some t \/ vc_side_force_coeff v = Some t ->
    forall x, In x (table_variables t) -> sizeless x = true;
  sf_steering : forall s x, pc_steering c = Some s -> sc_roll s = Some x \/ sc_yaw s = Some x \/ sc_pitch s = Some x -> sizeless (fst x) = true;
  sf_criterion : forall e, pc_end_criterion c = Some e -> sizeless (fst e) = true }.
End Spec.

(** ** Scalings, in every arithmetic *)
Section WithNum.
Context {N : Num}.
Local Open Scope num_scope.
Variable K : N -> N.
Record scaling : Prop := {
  k_zero : K #0 = #0;
  k_add : forall a b, K (a + b) = K a + K b;
  k_sub : forall a b, K (a - b) = K a - K b;
  k_neg : forall a, K (- a) = - K a;
  k_mul_l : forall a b, K (a * b) = K a * b;
  k_mul_r : forall a b, K (a * b) = a * K b;
  k_div_l : forall a b, K (a / b) = K a / b;
  k_div : forall a b, K a / K b = a / b;
  k_ltb : forall a b, (K a <? K b) = (a <? b);
  k_eqb0 : forall a, (K a =? #0) = (a =? #0);
  k_isnan : forall a, n_isnan (K a) = n_isnan a;
  k_sqrt : forall a, n_sqrt (K (K a)) = K (n_sqrt a) }.
Hypothesis HK : scaling.
Local Notation TV := (times K).

Lemma times_zero : TV vzero = vzero.
Proof. unfold times, vzero. cbn [vx vy vz]. now rewrite (k_zero HK). Qed.
Lemma times_add : forall a b, TV (vadd a b) = vadd (TV a) (TV b).
Proof. intros a b. unfold times, vadd. cbn [vx vy vz]. now rewrite !(k_add HK). Qed.
Lemma times_scale : forall t a, TV (vscale t a) = vscale t (TV a).
Proof. intros t a. unfold times, vscale. cbn [vx vy vz]. now rewrite !(k_mul_r HK). Qed.
Lemma scale_times : forall t a, TV (vscale t a) = vscale (K t) a.
Proof. intros t a. unfold times, vscale. cbn [vx vy vz]. now rewrite !(k_mul_l HK). Qed.
Lemma scale_r_times : forall t a, TV (vscale_r a t) = vscale_r a (K t).
Proof. intros t a. unfold times, vscale_r. cbn [vx vy vz]. now rewrite !(k_mul_r HK). Qed.
Lemma div_times : forall t a, vdiv (TV a) (K t) = vdiv a t.
Proof. intros t a. unfold times, vdiv. cbn [vx vy vz]. now rewrite !(k_div HK). Qed.
Lemma dot_times : forall a b, vdot (TV a) (TV b) = K (K (vdot a b)).
Proof.
  intros a b. unfold times, vdot. cbn [vx vy vz]. rewrite !(k_add HK).
  now rewrite (k_mul_l HK (vx a)), (k_mul_r HK _ (vx b)), (k_mul_l HK (vy a)), (k_mul_r HK _ (vy b)), (k_mul_l HK (vz a)), (k_mul_r HK _ (vz b)).
Qed.
Lemma norm_times : forall a, norm (TV a) = K (norm a).
Proof.
  intros a. unfold norm, norm_squared. rewrite dot_times. rewrite <- (k_sqrt HK), !(k_add HK), !(k_zero HK). reflexivity.
Qed.
Lemma angle_times : forall a b, vangle (TV a) (TV b) = vangle a b.
Proof.
  intros a b. unfold vangle. rewrite dot_times, !norm_times, !(k_eqb0 HK).
  now rewrite <- (k_mul_l HK), <- (k_mul_r HK), !(k_div HK).
Qed.
Lemma eqb_times : forall a, veqb (TV a) vzero = veqb a vzero.
Proof. intros a. unfold veqb, times, vzero. cbn [vx vy vz]. now rewrite !(k_eqb0 HK). Qed.
Lemma gtb_times : forall a b, (K a >? K b) = (a >? b).
Proof. intros a b. apply (k_ltb HK). Qed.
Lemma side_side_angle_times : forall a b al, side_side_angle (K a) (K b) al = option_map K (side_side_angle a b al).
Proof.
  intros a b al. unfold side_side_angle. rewrite <- (k_mul_r HK), !gtb_times, (k_div HK).
  destruct (al =? #0); [destruct (b >? a); cbn [option_map]; now rewrite ?(k_sub HK), ?(k_add HK)|].
  destruct (al =? n_pi); [cbn [option_map]; now rewrite (k_sub HK)|].
  destruct (n_sin al * b >? a); [reflexivity|]. cbn [option_map]. now rewrite (k_div_l HK), (k_mul_l HK).
Qed.
Lemma nan_to_zero_times : forall x, nan_to_zero (K x) = K (nan_to_zero x).
Proof. intros x. unfold nan_to_zero. rewrite (k_isnan HK). destruct (n_isnan x); [symmetry; apply (k_zero HK)|reflexivity]. Qed.

(** ** Engines and vehicle *)
Lemma engine_thrust_larger : forall e P, engine_thrust (larger_engine K e) P = TV (engine_thrust e P).
Proof.
  intros e P. unfold engine_thrust. cbn [en_incidence en_thrust_vac en_exit_area larger_engine].
  now rewrite scale_r_times, (k_sub HK), (k_mul_l HK).
Qed.
Lemma engine_massflow_larger : forall e, engine_massflow (larger_engine K e) = K (engine_massflow e).
Proof.
  intros e. unfold engine_massflow. cbn [en_thrust_vac en_isp_vac larger_engine]. now rewrite !(k_div_l HK), (k_neg HK).
Qed.
Lemma vsum_larger : forall es P, vsum (map (fun e => engine_thrust e P) (map (larger_engine K) es)) = TV (vsum (map (fun e => engine_thrust e P) es)).
Proof.
  intros es P. unfold vsum. rewrite <- times_zero at 1. generalize (vzero (N := N)).
  induction es as [|e es IH]; intros z; cbn [map fold_left]; [reflexivity|]. now rewrite engine_thrust_larger, <- times_add, IH.
Qed.
Lemma sum_larger : forall es, sum (map (fun e => engine_massflow e) (map (larger_engine K) es)) = K (sum (map (fun e => engine_massflow e) es)).
Proof.
  intros es. unfold sum. rewrite <- (k_zero HK) at 1. generalize (n_lit (n := N) 0 0).
  induction es as [|e es IH]; intros z; cbn [map fold_left]; [reflexivity|]. now rewrite engine_massflow_larger, <- (k_add HK), IH.
Qed.
Definition grow (v : Vehicle N) : Vehicle N :=
  mkVehicle (K (ve_structure_mass v)) (K (ve_initial_propellant_mass v)) (K (ve_reference_area v)) (ve_drag_coeff v) (ve_lift_coeff v)
    (ve_side_force_coeff v) (map (larger_engine K) (ve_engines v)).
Lemma thrust_grow : forall v t P, thrust_force (grow v) t P = TV (thrust_force v t P).
Proof. intros v t P. unfold thrust_force. cbn [ve_engines grow]. now rewrite vsum_larger, times_scale. Qed.
Lemma massflow_grow : forall v t, massflow (grow v) t = K (massflow v t).
Proof. intros v t. unfold massflow. cbn [ve_engines grow]. now rewrite sum_larger, (k_mul_r HK). Qed.
Lemma auto_throttle_grow : forall v a m P f, auto_throttle (grow v) a (K m) P (TV f) = auto_throttle v a m P f.
Proof.
  intros v a m P f. unfold auto_throttle. rewrite thrust_grow, eqb_times. destruct (veqb _ _); [reflexivity|]. cbv zeta.
  rewrite angle_times, !norm_times, <- (k_mul_r HK), side_side_angle_times.
  destruct (side_side_angle _ _ _); [|reflexivity]. cbn [option_map]. now rewrite (k_div HK).
Qed.

(** ** States *)
Definition swell (s : State N) : State N :=
  set_massflow (set_aero_force_body (set_thrust_force_body (set_propellant_mass (set_mass s (K (st_mass s))) (K (st_propellant_mass s)))
    (TV (st_thrust_force_body s))) (TV (st_aero_force_body s))) (K (st_massflow s)).
Lemma swell_similar : forall s, similar K s (swell s).
Proof. intros s. constructor; reflexivity. Qed.
Lemma get_value_swell : forall v s, sizeless v = true -> get_value v (swell s) = get_value v s.
Proof. intros v s H. destruct v; try discriminate H; reflexivity. Qed.
Lemma swell_default : swell default_state = default_state.
Proof.
  unfold swell. change (st_mass (@default_state N)) with (n_lit (n := N) 0 0).
  change (st_propellant_mass (@default_state N)) with (n_lit (n := N) 0 0). change (st_massflow (@default_state N)) with (n_lit (n := N) 0 0).
  change (st_thrust_force_body (@default_state N)) with (vzero (N := N)). change (st_aero_force_body (@default_state N)) with (vzero (N := N)).
  rewrite times_zero, (k_zero HK). reflexivity.
Qed.
Definition swell7 (v : vec7 N) : vec7 N := V7 (v7_pos v) (v7_vel v) (K (v7_mass v)).
Lemma swell_from_vec : forall t v, from_vec t (swell7 v) = swell (from_vec t v).
Proof. intros t v. unfold from_vec. rewrite <- swell_default at 1. reflexivity. Qed.
Lemma swell7_add : forall u v, swell7 (v7_add u v) = v7_add (swell7 u) (swell7 v).
Proof. intros u v. unfold swell7, v7_add. cbn [v7_pos v7_vel v7_mass]. now rewrite (k_add HK). Qed.
Lemma swell7_scale : forall h v, swell7 (v7_scale h v) = v7_scale h (swell7 v).
Proof. intros u v. unfold swell7, v7_scale. cbn [v7_pos v7_vel v7_mass]. now rewrite (k_mul_r HK). Qed.
Lemma swell7_zero : swell7 v7_zero = v7_zero.
Proof. unfold swell7, v7_zero. cbn [v7_pos v7_vel v7_mass]. now rewrite (k_zero HK). Qed.
Lemma swell7_primary : forall s, to_primary_vec (swell s) = swell7 (to_primary_vec s).
Proof. reflexivity. Qed.
Lemma swell7_differentials : forall s, to_differentials_vector (swell s) = swell7 (to_differentials_vector s).
Proof. reflexivity. Qed.

(** ** The equations of motion *)
Record sizeless_phase (p : Phase N) : Prop := {
  sp_drag : forall x, In x (table_variables (ve_drag_coeff (ph_vehicle p))) -> sizeless x = true;
  sp_lift : forall x, In x (table_variables (ve_lift_coeff (ph_vehicle p))) -> sizeless x = true;
  sp_side : forall x, In x (table_variables (ve_side_force_coeff (ph_vehicle p))) -> sizeless x = true;
  sp_roll : sizeless (ax_var (sg_roll (ph_steering p))) = true;
  sp_yaw : sizeless (ax_var (sg_yaw (ph_steering p))) = true;
  sp_pitch : sizeless (ax_var (sg_pitch (ph_steering p))) = true;
  sp_criterion : sizeless (fst (ph_end_criterion p)) = true }.
Definition swollen (p : Phase N) : Phase N := set_ph_state (set_ph_vehicle p (grow (ph_vehicle p))) (swell (ph_state p)).

Lemma assign_swell : forall e e' (k k' : State N -> outcome (State N)), e' = swell e -> (forall x, k' (swell x) = map_outcome swell (k x)) ->
  assign e' k' = map_outcome swell (assign e k).
Proof. intros e e' k k' -> H. apply H. Qed.
Lemma bind_swell : forall A (f : A -> A) (e e' : outcome A) (k k' : A -> outcome (State N)), e' = map_outcome f e ->
  (forall x, k' (f x) = map_outcome swell (k x)) -> bind e' k' = map_outcome swell (bind e k).
Proof. intros A f e e' k k' -> H. destruct e; [apply H|reflexivity]. Qed.
Lemma map_same : forall A (o : outcome A), o = map_outcome (fun x => x) o.
Proof. intros A [a|e]; reflexivity. Qed.
Lemma aero_grow : forall p s, sizeless_phase p -> aero_force (grow (ph_vehicle p)) (swell s) = map_outcome TV (aero_force (ph_vehicle p) s).
Proof.
  intros p s S. unfold aero_force. cbn [ve_drag_coeff ve_lift_coeff ve_side_force_coeff ve_reference_area grow].
  rewrite (at_state_ext (ve_drag_coeff (ph_vehicle p)) (swell s) s) by (intros v H; apply get_value_swell; exact (sp_drag _ S v H)).
  rewrite (at_state_ext (ve_lift_coeff (ph_vehicle p)) (swell s) s) by (intros v H; apply get_value_swell; exact (sp_lift _ S v H)).
  rewrite (at_state_ext (ve_side_force_coeff (ph_vehicle p)) (swell s) s) by (intros v H; apply get_value_swell; exact (sp_side _ S v H)).
  destruct (at_state (ve_drag_coeff (ph_vehicle p)) s) as [cd|]; [|reflexivity]. cbn [bind].
  destruct (at_state (ve_lift_coeff (ph_vehicle p)) s) as [cl|]; [|reflexivity]. cbn [bind].
  destruct (at_state (ve_side_force_coeff (ph_vehicle p)) s) as [cy|]; [|reflexivity]. cbn [bind map_outcome]. cbv zeta.
  change (st_alpha (swell s)) with (st_alpha s). change (st_dynamic_pressure (swell s)) with (st_dynamic_pressure s).
  rewrite <- (k_mul_r HK), <- scale_times. generalize (vscale (st_dynamic_pressure s * ve_reference_area (ph_vehicle p))
    (V3 (- (n_cos (st_alpha s) * cd - n_sin (st_alpha s) * cl)) cy (- (n_sin (st_alpha s) * cd + n_cos (st_alpha s) * cl)))).
  intros f. unfold times at 1 2 3 4. cbn [vx vy vz]. now rewrite !nan_to_zero_times.
Qed.
Lemma angles_swell : forall p s, sizeless_phase p -> steering_euler_angles (ph_steering p) (swell s) = steering_euler_angles (ph_steering p) s.
Proof.
  intros p s S. unfold steering_euler_angles. rewrite (get_value_swell _ s (sp_roll _ S)), (get_value_swell _ s (sp_yaw _ S)), (get_value_swell _ s (sp_pitch _ S)). reflexivity.
Qed.
Lemma system_swollen : forall p s, sizeless_phase p -> system (swollen p) (swell s) = map_outcome swell (system p s).
Proof.
  intros p s S. assert (Ae := aero_grow p). assert (An := angles_swell p).
  unfold system, swollen. cbn [ph_planet ph_atmosphere ph_vehicle ph_steering ph_launch ph_max_acceleration set_ph_vehicle set_ph_state].
  cbv zeta.
  change (st_time (swell s)) with (st_time s).
  do 5 (apply assign_swell; [reflexivity|intros ?x]).
  apply assign_swell; [|intros ?x].
  { lazymatch goal with |- set_propellant_mass (swell ?y) ?a = _ =>
      assert (E : a = K (st_mass y - ve_structure_mass (ph_vehicle p))) by (rewrite (k_sub HK); reflexivity); rewrite E end. reflexivity. }
  do 2 (apply assign_swell; [reflexivity|intros ?x]).
  do 4 (apply (bind_swell _ (fun x => x)); [apply map_same|intros ?x]; apply assign_swell; [reflexivity|intros ?x]).
  do 1 (apply assign_swell; [reflexivity|intros ?x]).
  apply assign_swell; [rewrite (An _ S); reflexivity|intros ?x].
  apply assign_swell; [reflexivity|intros ?x].
  apply (bind_swell _ TV); [apply (Ae _ S)|intros ?x].
  apply assign_swell; [reflexivity|intros y1].
  apply assign_swell; [|intros y2].
  { change (st_mass (swell y1)) with (K (st_mass y1)). change (st_aero_force_body (swell y1)) with (TV (st_aero_force_body y1)).
    rewrite auto_throttle_grow. reflexivity. }
  apply assign_swell; [rewrite thrust_grow; reflexivity|intros y3].
  apply assign_swell; [rewrite massflow_grow; reflexivity|intros y4].
  apply assign_swell; [|intros y5].
  { change (st_mass (swell y4)) with (K (st_mass y4)). change (st_aero_force_body (swell y4)) with (TV (st_aero_force_body y4)).
    change (st_thrust_force_body (swell y4)) with (TV (st_thrust_force_body y4)). rewrite <- times_add, div_times. reflexivity. }
  change (st_vehicle_acceleration_body (swell y5)) with (st_vehicle_acceleration_body y5). change (st_throttle (swell y5)) with (st_throttle y5).
  destruct (_ || _)%bool; [reflexivity|]. apply assign_swell; [reflexivity|intros y6]. reflexivity.
Qed.

(** ** Steps and phases *)
Lemma rk_sum_map : forall X (g : X -> X) zero add scale, g zero = zero -> (forall u v, g (add u v) = add (g u) (g v)) ->
  (forall h v, g (scale h v) = scale h (g v)) -> forall cs ks, rk_sum (N := N) zero add scale cs (map g ks) = g (rk_sum zero add scale cs ks).
Proof.
  intros X g zero add scale Z A S cs ks. unfold rk_sum. rewrite <- Z at 1. generalize zero. revert ks.
  induction cs as [|c cs IH]; intros ks z; [reflexivity|]. destruct ks as [|y ks]; [reflexivity|].
  cbn [map combine fold_left fst snd]. rewrite <- S, <- A. apply IH.
Qed.
Lemma rk_loop_map : forall X Y (g : Y -> Y) (add0 : X -> N -> X) zero add scale, g zero = zero -> (forall u v, g (add u v) = add (g u) (g v)) ->
  (forall h v, g (scale h v) = scale h (g v)) -> forall (tb : RungeKutta N) f f' x y h is k,
  (forall a b, f' a (g b) = map_outcome g (f a b)) ->
  rk_loop add0 zero add scale tb f' x (g y) h (map g k) is = map_outcome (map g) (rk_loop add0 zero add scale tb f x y h k is).
Proof.
  intros X Y g add0 zero add scale Z A S tb f f' x y h is. induction is as [|i is IH]; intros k E; [reflexivity|].
  cbn [rk_loop]. unfold rk_stage. destruct (index (rk_c tb) i) as [c|]; [|reflexivity].
  destruct (index (rk_a tb) i) as [aa|]; [|reflexivity]. cbn [bind]. rewrite (rk_sum_map _ g zero add scale Z A S), <- A, E.
  destruct (f _ _) as [r|]; [|reflexivity]. cbn [bind map_outcome].
  rewrite <- S. unfold set_column. rewrite firstn_map, skipn_map.
  change (g (scale h r) :: map g (skipn (Datatypes.S i) k)) with (map g (scale h r :: skipn (Datatypes.S i) k)). rewrite <- map_app. now apply IH.
Qed.
Lemma integrator_swollen : forall p s h, sizeless_phase p ->
  integrator_step (system (swollen p)) (swell s) h = map_outcome swell (integrator_step (system p) s h).
Proof.
  intros p s h Sp. unfold integrator_step, rk_step. cbv zeta. rewrite swell7_primary.
  change (st_time (swell s)) with (st_time s). change (st_time_since_event (swell s)) with (st_time_since_event s).
  assert (Z := swell7_zero). assert (A := swell7_add). assert (Sc := swell7_scale).
  set (b := rk_b (@RK4 N)). set (zs := repeat (v7_zero (N := N)) (length b)).
  assert (Ez : map swell7 zs = zs) by (unfold zs; cbn [b RK4 rk_b length repeat map]; now rewrite Z).
  set (g := fun (t : N * N) v => let* st := system p (from_vec t v) in Ret (to_differentials_vector st)).
  assert (L := rk_loop_map _ _ swell7 t_add_scalar v7_zero v7_add v7_scale Z A Sc RK4 g
    (fun t v => let* st := system (swollen p) (from_vec t v) in Ret (to_differentials_vector st))
    (st_time s, st_time_since_event s) (to_primary_vec s) h (seq 0 (length b)) zs).
  rewrite Ez in L. rewrite L; clear L.
  - destruct (rk_loop _ _ _ _ _ _ _ _ _ _ _) as [ks|e]; [|reflexivity]. cbn [bind map_outcome].
    rewrite (rk_sum_map _ swell7 v7_zero v7_add v7_scale Z A Sc), <- A, swell_from_vec. now apply system_swollen.
  - intros t v. unfold g. rewrite swell_from_vec, (system_swollen p _ Sp). destruct (system p (from_vec t v)) as [d|]; reflexivity.
Qed.
Lemma step_swollen : forall p, sizeless_phase p -> step (swollen p) = map_outcome swollen (step p).
Proof.
  intros p Sp. unfold step. change (ph_ended (swollen p)) with (ph_ended p). destruct (ph_ended p); [reflexivity|].
  change (integrator_step (fun s => system (swollen p) s) (ph_state (swollen p)) (ph_stepsize (swollen p)))
    with (integrator_step (system (swollen p)) (swell (ph_state p)) (ph_stepsize p)).
  rewrite (integrator_swollen p _ _ Sp). change (integrator_step (fun s => system p s)) with (integrator_step (system p)).
  destruct (integrator_step (system p) (ph_state p) (ph_stepsize p)) as [s|e]; [|reflexivity].
  cbn [map_outcome bind]. change (ph_end_criterion (swollen p)) with (ph_end_criterion p).
  assert (C := sp_criterion _ Sp).
  unfold event_is_active, time_to_go. change (ph_end_criterion (swollen p)) with (ph_end_criterion p).
  change (ph_state (swollen p)) with (swell (ph_state p)). rewrite !(get_value_swell _ _ C).
  destruct (n_abs _ <? _); [reflexivity|].
  match goal with |- (if ?b then _ else _) = map_outcome _ (if ?b' then _ else _) => change b' with b; destruct b end; [|reflexivity].
  change (ph_end_criterion_tries (swollen p)) with (ph_end_criterion_tries p).
  destruct (20 <? ph_end_criterion_tries p)%nat; reflexivity.
Qed.
Lemma sizeless_same : forall p q : Phase N, same_parameters p q -> sizeless_phase p -> sizeless_phase q.
Proof.
  intros p q (E1 & E2 & _ & _ & _ & _ & _ & E8) [A B C D E F G]. constructor; rewrite ?E1, ?E2, ?E8; assumption.
Qed.
Lemma run_loop_swollen : forall fuel p, sizeless_phase p ->
  run_loop fuel (swollen p) = (map swell (fst (run_loop fuel p)), map_status swollen (snd (run_loop fuel p))).
Proof.
  intros fuel. induction fuel as [|fuel IH]; intros p Sp; cbn [run_loop]; change (ph_ended (swollen p)) with (ph_ended p);
    (destruct (ph_ended p); [reflexivity|]); [reflexivity|].
  rewrite (step_swollen p Sp). destruct (step p) as [q|e] eqn:St; [|reflexivity]. cbn [map_outcome].
  destruct (C32_iteration _ _ St) as [s [_ [Sa _]]].
  rewrite (IH q (sizeless_same _ _ Sa Sp)). change (ph_state (swollen q)) with (swell (ph_state q)).
  destruct (run_loop fuel q) as [h st]. reflexivity.
Qed.
Lemma run_swollen : forall fuel p, sizeless_phase p ->
  run fuel (swollen p) = (map swell (fst (run fuel p)), map_status swollen (snd (run fuel p))).
Proof.
  intros fuel p Sp. unfold run. change (ph_state (swollen p)) with (swell (ph_state p)). rewrite (system_swollen p _ Sp).
  destruct (system p (ph_state p)) as [s|e]; [|reflexivity]. cbn [map_outcome].
  change (set_ph_state (swollen p) (swell s)) with (swollen (set_ph_state p s)). apply run_loop_swollen.
  apply (sizeless_same p); [repeat split|exact Sp].
Qed.

(** ** Missions *)
Lemma configured_swollen : forall p c, configured (swollen p) (larger K c) = swollen (configured p c).
Proof.
  intros p c. unfold configured, mass_of, larger, swollen.
  cbn [pc_vehicle pc_steering pc_planet_model pc_atmosphere pc_max_acceleration pc_stepsize pc_end_criterion].
  destruct p as [s ve sg at_ pl la ma ss bs ec tr en].
  cbn [ph_state ph_vehicle ph_steering ph_atmosphere ph_planet ph_launch ph_max_acceleration ph_stepsize ph_base_stepsize
          ph_end_criterion ph_end_criterion_tries ph_ended set_ph_vehicle set_ph_state].
  destruct (pc_vehicle c) as [v|]; [|reflexivity]. cbn [option_map larger_vehicle vc_structure_mass vc_propellant_mass].
  assert (V : vehicle_update_with_config (grow ve) (larger_vehicle K v) = grow (vehicle_update_with_config ve v)).
  { unfold vehicle_update_with_config, grow, larger_vehicle, over.
    cbn [vc_structure_mass vc_propellant_mass vc_reference_area vc_drag_coeff vc_lift_coeff vc_side_force_coeff vc_engines
      ve_structure_mass ve_initial_propellant_mass ve_reference_area ve_drag_coeff ve_lift_coeff ve_side_force_coeff ve_engines].
    destruct (vc_structure_mass v), (vc_propellant_mass v), (vc_reference_area v), (vc_engines v); reflexivity. }
  rewrite V. f_equal.
  destruct (vc_structure_mass v) as [m|], (vc_propellant_mass v) as [k|]; cbn [option_map]; try reflexivity.
  - rewrite <- (k_add HK). reflexivity.
  - change (st_propellant_mass (swell s)) with (K (st_propellant_mass s)). rewrite <- (k_add HK). reflexivity.
  - change (ve_structure_mass (grow ve)) with (K (ve_structure_mass ve)). rewrite <- (k_add HK). reflexivity.
Qed.
Lemma default_swollen : swollen default_phase = default_phase.
Proof.
  unfold swollen. change (ph_vehicle (@default_phase N)) with (@default_vehicle N). change (ph_state (@default_phase N)) with (@default_state N).
  rewrite swell_default. unfold grow, default_vehicle.
  cbn [ve_structure_mass ve_initial_propellant_mass ve_reference_area ve_drag_coeff ve_lift_coeff ve_side_force_coeff ve_engines map].
  now rewrite (k_zero HK).
Qed.
Lemma phase_init_swollen : forall p i, phase_init (swollen p) i = swollen (phase_init p i).
Proof. reflexivity. Qed.
Lemma reset_swollen : forall p, reset (swollen p) = swollen (reset p).
Proof. reflexivity. Qed.
Lemma phase_new_swollen : forall prev c, phase_new (option_map swollen prev) (larger K c) = map_outcome swollen (phase_new prev c).
Proof.
  intros prev c. rewrite !phase_new_configured. destruct prev as [p|]; cbn [option_map].
  - cbn [map_outcome]. now rewrite configured_swollen.
  - change (pc_init (larger K c)) with (pc_init c). destruct (pc_init c) as [i|]; [|reflexivity]. cbn [map_outcome].
    rewrite <- default_swollen at 1. now rewrite configured_swollen, phase_init_swollen.
Qed.
Lemma sizeless_default : sizeless_phase (@default_phase N).
Proof. constructor; try reflexivity; intros x [<-|[]]; reflexivity. Qed.
Lemma sizeless_configured : forall (p : Phase N) c, sizeless_phase p -> size_free c -> sizeless_phase (configured p c).
Proof.
  intros p c [A B C D E F G] [H1 H2 H3].
  assert (V : (forall x, In x (table_variables (ve_drag_coeff (ph_vehicle (configured p c)))) -> sizeless x = true) /\
     (forall x, In x (table_variables (ve_lift_coeff (ph_vehicle (configured p c)))) -> sizeless x = true) /\
     (forall x, In x (table_variables (ve_side_force_coeff (ph_vehicle (configured p c)))) -> sizeless x = true)).
  { cbn [configured ph_vehicle]. destruct (pc_vehicle c) as [v|] eqn:Hv; [|tauto]. specialize (H1 v).
    cbn [vehicle_update_with_config ve_drag_coeff ve_lift_coeff ve_side_force_coeff]. unfold over.
    split; [|split].
    - destruct (vc_drag_coeff v) as [t|] eqn:Et; [|exact A]. apply (H1 t eq_refl). rewrite ?Et. auto.
    - destruct (vc_lift_coeff v) as [t|] eqn:Et; [|exact B]. apply (H1 t eq_refl). rewrite ?Et. auto.
    - destruct (vc_side_force_coeff v) as [t|] eqn:Et; [|exact C]. apply (H1 t eq_refl). rewrite ?Et. auto. }
  destruct V as (V1 & V2 & V3).
  assert (S : sizeless (ax_var (sg_roll (ph_steering (configured p c)))) = true /\ sizeless (ax_var (sg_yaw (ph_steering (configured p c)))) = true /\
     sizeless (ax_var (sg_pitch (ph_steering (configured p c)))) = true).
  { cbn [configured ph_steering]. destruct (pc_steering c) as [s|] eqn:Hs; [|tauto]. specialize (H2 s).
    cbn [steering_update_with_config sg_roll sg_yaw sg_pitch]. unfold axis_update. split; [|split].
    - destruct (sc_roll s) as [x|] eqn:Ex; [|exact D]. apply (H2 x eq_refl). rewrite ?Ex. auto.
    - destruct (sc_yaw s) as [x|] eqn:Ex; [|exact E]. apply (H2 x eq_refl). rewrite ?Ex. auto.
    - destruct (sc_pitch s) as [x|] eqn:Ex; [|exact F]. apply (H2 x eq_refl). rewrite ?Ex. auto. }
  destruct S as (S1 & S2 & S3). constructor; try assumption.
  cbn [configured ph_end_criterion]. destruct (pc_end_criterion c) as [e|]; [exact (H3 e eq_refl)|exact G].
Qed.
Lemma sizeless_new : forall prev c p, match prev with Some q => sizeless_phase q | None => True end -> size_free c ->
  phase_new prev c = Ret p -> sizeless_phase (reset p).
Proof.
  intros prev c p Hp Hc H. rewrite phase_new_configured in H.
  assert (R : forall q : Phase N, sizeless_phase q -> sizeless_phase (reset q)) by (intros q []; constructor; assumption).
  destruct prev as [q|].
  - injection H as <-. apply R. now apply sizeless_configured.
  - destruct (pc_init c) as [i|]; [|discriminate]. injection H as <-. apply R.
    destruct (sizeless_configured _ _ sizeless_default Hc). constructor; assumption.
Qed.
Definition swell_event (e : event N) : event N := match e with EPhase i => EPhase i | ERecord s => ERecord (swell s) end.
Lemma sim_swollen : forall fuel cs i prev p, Forall size_free cs -> match prev with Some q => sizeless_phase q | None => True end ->
  sim_loop fuel i (option_map swollen prev) (swollen p) (map (larger K) cs)
    = (map swell_event (fst (sim_loop fuel i prev p cs)), map_status swollen (snd (sim_loop fuel i prev p cs))).
Proof.
  intros fuel cs. induction cs as [|c cs IH]; intros i prev p F Hp; cbn [map sim_loop]; [reflexivity|].
  inversion F as [|? ? Hc Hcs]; subst. rewrite phase_new_swollen.
  destruct (phase_new prev c) as [q|e] eqn:Hn; [|reflexivity]. cbn [map_outcome]. rewrite reset_swollen.
  assert (Sq := sizeless_new prev c q Hp Hc Hn). rewrite (run_swollen fuel _ Sq).
  assert (M : forall h, map ERecord (map swell h) = map swell_event (map ERecord h)) by (intros h; rewrite !map_map; reflexivity).
  destruct (run fuel (reset q)) as [h st] eqn:Hr. cbn [fst snd]. destruct st as [q1|e1|q1]; cbn [map_status]; rewrite M; try reflexivity.
  assert (K1 := C28_run_keeps_parameters fuel (reset q) h q1 (or_introl Hr)).
  specialize (IH (S i) (Some q1) q1 Hcs (sizeless_same _ _ K1 Sq)). cbn [option_map] in IH. rewrite IH.
  destruct (sim_loop fuel (S i) (Some q1) q1 cs) as [ev st1]. cbn [fst snd map swell_event]. now rewrite map_app.
Qed.
Theorem simulate_similar : forall fuel (cs : list (PhaseConfig N)) ev st, Forall size_free cs -> simulate fuel cs = (ev, st) ->
  exists ev' st', simulate fuel (map (larger K) cs) = (ev', st') /\ Forall2 (similar_event K) ev ev' /\ similar_status K st st'.
Proof.
  intros fuel cs ev st F H. exists (map swell_event ev), (map_status swollen st). split; [|split].
  - unfold simulate in *. assert (E := sim_swollen fuel cs 1 None default_phase F I). rewrite H in E. cbn [fst snd option_map] in E.
    now rewrite default_swollen in E.
  - clear. induction ev as [|e ev IH]; cbn [map]; constructor; [|exact IH]. destruct e as [i|s]; [reflexivity|apply swell_similar].
  - destruct st as [q|e|q]; cbn [map_status similar_status]; [apply swell_similar|reflexivity|apply swell_similar].
Qed.
End WithNum.

(** ** Exact arithmetic *)
From Verif Require Import Prop_Throttle Prop_Mass Prop_MassLimited.
Section Exact.
Context {rot : mat3 xr -> mat3 xr}.
Notation N := (XR rot).
Local Open Scope R_scope.
Lemma exact_scaling : forall k : R, 0 < k -> scaling (N := N) (n_mul (n := N) (Fin k)).
Proof.
  intros k Hk.
  assert (Is : forall x, inf_sign (k * x) = inf_sign x).
  { intros x. unfold inf_sign. destruct (Rlt_dec 0 x) as [H|H]; [rewrite !Rltb_true; auto; now apply Rmult_lt_0_compat|].
    rewrite (Rltb_false 0 x) by lra. destruct (Rlt_dec x 0) as [G|G].
    - rewrite (Rltb_true x 0 G). assert (k * x < 0) by (rewrite <- (Rmult_0_r k); now apply Rmult_lt_compat_l). now rewrite Rltb_false, Rltb_true by lra.
    - replace x with 0 by lra. rewrite Rmult_0_r, !Rltb_false by lra. reflexivity. }
  assert (Ik : inf_sign k = PInf) by (unfold inf_sign; now rewrite Rltb_true).
  assert (In : inf_sign (- k) = NInf) by (unfold inf_sign; rewrite Rltb_false, Rltb_true by lra; reflexivity).
  assert (Lt : forall x y, Rltb (k * x) (k * y) = Rltb x y).
  { intros x y. destruct (Rlt_dec x y) as [H|H].
    - rewrite !Rltb_true; auto. now apply Rmult_lt_compat_l.
    - rewrite !Rltb_false; auto; [lra|]. apply Rmult_le_compat_l; lra. }
  assert (Eq : forall x, Reqb (k * x) 0 = Reqb x 0).
  { intros x. unfold Reqb. destruct (Req_EM_T x 0) as [->|H]; destruct (Req_EM_T (k * _) 0) as [G|G]; auto; exfalso.
    - apply G. ring.
    - apply Rmult_integral in G. lra. }
  assert (Isn : forall x, inf_sign (- (k * x)) = inf_sign (- x)) by (intros x; replace (- (k * x)) with (k * - x) by ring; apply Is).
  assert (KI : forall x, xmul (Fin k) (inf_sign x) = inf_sign x).
  { intros x. unfold inf_sign at 1 2. destruct (Rltb 0 x); [exact Ik|]. destruct (Rltb x 0); [exact In|reflexivity]. }
  assert (Kp : xmul (Fin k) PInf = PInf) by exact Ik. assert (Kn : xmul (Fin k) NInf = NInf) by exact In.
  assert (Kf : forall x, xmul (Fin k) (Fin x) = Fin (k * x)) by reflexivity. assert (Ka : xmul (Fin k) NaN = NaN) by reflexivity.
  assert (Lt0 : forall y, Rltb (k * y) 0 = Rltb y 0) by (intros y; rewrite <- (Lt y 0), Rmult_0_r; reflexivity).
  assert (Ki : forall (b : bool) x y, xmul (Fin k) (if b then x else y) = if b then xmul (Fin k) x else xmul (Fin k) y) by (intros [|]; reflexivity).
  constructor; cbn [n_add n_sub n_mul n_div n_neg n_ltb n_eqb n_isnan n_sqrt n_lit XR].
  - unfold xlit. cbn. apply (f_equal Fin). ring.
  - intros [x| | |] [y| | |]; cbn [xadd]; rewrite ?Kp, ?Kn, ?Kf, ?Ka; try reflexivity. cbn [xadd]. apply (f_equal Fin). ring.
  - intros [x| | |] [y| | |]; unfold xsub, xneg; cbn [xadd]; rewrite ?Kp, ?Kn, ?Kf, ?Ka; try reflexivity. apply (f_equal Fin). ring.
  - intros [x| | |]; cbn [xneg]; rewrite ?Kp, ?Kn, ?Kf, ?Ka; try reflexivity. cbn [xneg]. apply (f_equal Fin). ring.
  - intros [x| | |] [y| | |]; rewrite ?Kp, ?Kn, ?Kf, ?Ka;
      first [change (xmul (Fin x) (Fin y)) with (Fin (x * y)); rewrite Kf; apply (f_equal Fin); ring
            |cbn [xmul]; rewrite ?Is, ?Isn, ?Ik, ?In; reflexivity | cbn [xmul]; rewrite ?Is, ?Isn; exact (KI _)].
  - intros [x| | |] [y| | |]; rewrite ?Kp, ?Kn, ?Kf, ?Ka;
      first [change (xmul (Fin x) (Fin y)) with (Fin (x * y)); rewrite Kf; apply (f_equal Fin); ring
            |cbn [xmul]; rewrite ?Is, ?Isn, ?Ik, ?In; reflexivity | cbn [xmul]; rewrite ?Is, ?Isn; exact (KI _)].
  - intros [x| | |] [y| | |]; rewrite ?Kp, ?Kn, ?Kf, ?Ka; unfold xdiv; rewrite ?Ki, ?Kp, ?Kn, ?Kf, ?Ka, ?KI, ?Is, ?Rmult_0_r; try reflexivity.
    unfold Reqb. destruct (Req_EM_T y 0); [reflexivity|]. apply (f_equal Fin). field. assumption.
  - intros [x| | |] [y| | |]; rewrite ?Kp, ?Kn, ?Kf, ?Ka; unfold xdiv; rewrite ?Lt0, ?Eq, ?Is; try reflexivity.
    unfold Reqb. destruct (Req_EM_T y 0); [reflexivity|]. apply (f_equal Fin). field. split; lra.
  - intros [x| | |] [y| | |]; rewrite ?Kp, ?Kn, ?Kf, ?Ka; cbn [xltb]; try reflexivity. apply Lt.
  - intros [x| | |]; rewrite ?Kp, ?Kn, ?Kf, ?Ka; try reflexivity. unfold xlit. cbn [Z.eqb xeqb]. apply Eq.
  - intros [x| | |]; rewrite ?Kp, ?Kn, ?Kf, ?Ka; reflexivity.
  - intros [x| | |]; rewrite ?Kp, ?Kn, ?Kf, ?Ka; try reflexivity; try (symmetry; exact Kp). unfold xsqrt. rewrite !Lt0, Ki, Ka, Kf.
    destruct (Rlt_dec x 0) as [H|H]; [now rewrite Rltb_true|]. rewrite Rltb_false by lra. apply (f_equal Fin).
    rewrite <- Rmult_assoc, sqrt_mult_alt by (left; now apply Rmult_lt_0_compat). rewrite sqrt_square by lra. reflexivity.
Qed.
(** A mission and the same mission of a vehicle of [k] times the size, in exact arithmetic. *)
Theorem C60_similar : forall (k : R) fuel (cs : list (PhaseConfig N)) ev st, 0 < k -> Forall size_free cs -> simulate fuel cs = (ev, st) ->
  exists ev' st', simulate fuel (map (larger (n_mul (n := N) (Fin k))) cs) = (ev', st') /\
    Forall2 (similar_event (n_mul (n := N) (Fin k))) ev ev' /\ similar_status (n_mul (n := N) (Fin k)) st st'.
Proof. intros k fuel cs ev st Hk F H. apply simulate_similar; auto. now apply exact_scaling. Qed.

(** A burn under an acceleration limit, and the same burn of a vehicle of twice the size. *)
Example C60_nonvacuous : exists (ev ev' : list (event N)) (q q' : Phase N), (2 <= length ev)%nat /\ size_free (engines_config (rot := rot) [burn_engine]) /\
  simulate 5 [engines_config [burn_engine]] = (ev, Finished q) /\
  simulate 5 [larger (n_mul (n := N) (Fin 2)) (engines_config [burn_engine])] = (ev', Finished q') /\
  Forall2 (similar_event (n_mul (n := N) (Fin 2))) ev ev' /\ similar (n_mul (n := N) (Fin 2)) (ph_state q) (ph_state q').
Proof.
  destruct (C58_nonvacuous (rot := rot)) as (ev & q & L & S & _).
  assert (F : size_free (engines_config (rot := rot) [burn_engine])).
  { constructor.
    - intros v t E [H|[H|H]]; injection E as <-; discriminate H.
    - intros s x E. discriminate E.
    - intros e E. injection E as <-. reflexivity. }
  destruct (C60_similar 2 5 [engines_config [burn_engine]] ev (Finished q)) as (ev' & st' & S' & A & B); [lra|now constructor|exact S|].
  destruct st' as [q'|e|q']; try contradiction. exists ev, ev', q, q'. split; [exact L|]. split; [exact F|]. split; [exact S|]. split; [exact S'|]. now split.
Qed.
End Exact.
