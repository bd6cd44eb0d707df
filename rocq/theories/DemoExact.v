(** * Concrete flights in exact arithmetic that meet the hypotheses of the theorems

    A glider released at rest on a planet that does not rotate, in a wind; and a two-stage rocket. *)
From Coq Require Import ZArith List Reals Lra Lia Bool.
From Verif Require Import Num Constants State Tables Config Planet Atmosphere Transformations
  Steering Vehicle RungeKutta Phase Simulation XR XRFacts SpecReal SystemFacts RKFacts RunFacts PhaseNew
  Prop_Run SystemTotal TablesFacts Prop_Tables Prop_Panics Prop_Time Prop_Planet Prop_Gravity Prop_Frames
  Prop_Atmosphere Prop_Interp Prop_Aero Prop_Throttle Prop_Steering Prop_Limit Prop_Mass Prop_AeroReported
  Prop_Real Prop_RealSim.
Import ListNotations.
Local Open Scope R_scope.

Section Exact.
Context {rot : mat3 xr -> mat3 xr}.
Notation N := (XR rot).

(** ** Flights that cannot abort *)
Lemma glider_total : forall (p : Phase N) s0, tables_accepted (ph_vehicle p) -> ve_engines (ph_vehicle p) = [] ->
  ph_max_acceleration p = PInf -> exists s, system p s0 = Ret s.
Proof.
  intros p s0 T E L. destruct (system_total p s0 (accepted_lookups p T)) as (s & Q & S). exists s. rewrite S.
  replace (guard p s) with false; [reflexivity|]. symmetry. unfold guard. rewrite L, (q_throttle _ _ _ Q).
  unfold auto_throttle, thrust_force. rewrite E. cbn [map].
  replace (veqb (vscale (n_lit 1 0) (vsum [])) vzero) with true.
  - xrs. unfold inf_sign. rewrite Rltb_true by lra. destruct (norm (st_vehicle_acceleration_body s)); reflexivity.
  - symmetry. unfold veqb, vscale, vsum, vzero. cbn. xrs. rewrite !Reqb_true by ring. reflexivity.
Qed.
Definition glides (p : Phase N) : Prop :=
  tables_accepted (ph_vehicle p) /\ ve_engines (ph_vehicle p) = [] /\ ph_max_acceleration p = PInf.
Lemma glider_candidate : forall p : Phase N, glides p -> exists s, candidate p = Ret s.
Proof.
  intros p (A & B & C). destruct (candidate p) as [s|e] eqn:E; [eauto|].
  destruct (integrator_panic _ _ _ _ E) as [s' E']. destruct (glider_total p s' A B C) as [s X]. congruence.
Qed.

(** A glide of half a second: the first step of one second overshoots and is rejected, so the initial state
    is reported. *)
Lemma half_second : forall (c : PhaseConfig N) p, begins [c] p -> glides p ->
  ph_end_criterion p = (TimeSinceEvent, Fin (1 / 2)) ->
  exists s0, initial p s0 /\ reported [c] p s0.
Proof.
  intros c p B G Ec. destruct G as (G1 & G2 & G3).
  destruct (glider_total p (ph_state p) G1 G2 G3) as [s0 Hi]. exists s0. split; [exact Hi|].
  destruct (C29_stepsize_is_one [c] p B) as [H1 _].
  destruct (C32_counter_starts_at_zero [c] p s0 B) as [H3 H4].
  set (q := set_ph_state p s0).
  assert (Hq : glides q) by (exact (conj G1 (conj G2 G3))).
  destruct (glider_candidate q Hq) as [s C].
  assert (T0 : st_time_since_event s0 = Fin 0).
  { assert (E := Hi). apply system_eom in E. rewrite (e_time_since_event _ _ _ E). destruct B; reflexivity. }
  assert (T1 : st_time_since_event s = Fin 1).
  { destruct (candidate_eom _ _ C) as [y E]. rewrite (e_time_since_event _ _ _ E).
    change (st_time_since_event (from_vec (n_add (st_time (ph_state q)) (ph_stepsize q), n_add (st_time_since_event (ph_state q)) (ph_stepsize q)) y))
      with (n_add (st_time_since_event s0) (ph_stepsize p)).
    rewrite T0, H1. xrs. apply (f_equal Fin). ring. }
  exists [c], [], 1%nat. unfold run. unfold initial in Hi. rewrite Hi.
  fold q. change (ph_ended q = false) in H4. cbn [run_loop]. rewrite H4, (step_at q s TimeSinceEvent (1 / 2) 1 H4 C Ec T1).
  rewrite Rltb_false by (rewrite Rabs_pos_eq; lra).
  replace (event_is_active q (ph_state q) s) with true.
  - change (ph_end_criterion_tries q = 0%nat) in H3. rewrite H3. cbn [Nat.ltb Nat.leb].
    set (r := set_ph_end_criterion_tries _ _). assert (Er : ph_ended r = false) by exact H4. rewrite Er.
    do 2 eexists. split; [reflexivity|]. split; [exact B|]. split; [reflexivity|]. left. reflexivity.
  - symmetry. unfold event_is_active. change (ph_end_criterion q) with (ph_end_criterion p). rewrite Ec. cbn [fst snd].
    change (get_value TimeSinceEvent (ph_state q)) with (st_time_since_event s0).
    change (get_value TimeSinceEvent s) with (st_time_since_event s). rewrite T0, T1. xrs.
    rewrite (Rltb_false 1 0), (Rltb_true (1 / 2) 1) by lra. reflexivity.
Qed.

(** ** The glider *)
Definition glide_config (cl : R) : PhaseConfig N :=
  mkPhaseConfig (N := N) (Some (mkInitConfig (N := N) (Fin 0) (Fin 0) (Fin 0) (Fin 0)))
    (Some (mkVehicleConfig (N := N) (Some (Fin 100)) None (Some (Fin 2)) (Some (rt1 MachNumber [0] [1 / 2]))
             (Some (rt1 MachNumber [0] [cl])) (Some (rt1 Alpha [0] [0])) None))
    (Some (mkSteeringConfig (N := N) None None (Some (TimeSinceEvent, finv (V3 1 0 0)))))
    (Some (Custom (N := N) (Fin 6000000) (Fin 6000000) (Fin (4 * 10 ^ 14), Fin 0, Fin 0, Fin 0) (Fin 0)))
    (Some (mkAtmosphereConfig (N := N) (Some true) (Some (finv (V3 (- 50) 0 (- 10))))))
    None None (Some (TimeSinceEvent, Fin (1 / 2))).

Lemma constant_accepted : forall v c, accepted (N := N) (rt1 v [0] [c]).
Proof. intros v c. exists (v, [Fin 0]), [Fin c], Linear. reflexivity. Qed.
Lemma constant_value : forall v c (s : State N) x, get_value v s = Fin x -> at_state (rt1 v [0] [c]) s = Ret (Fin c).
Proof.
  intros v c s x E.
  rewrite (C20_linear v [0] [c] s x (constant_accepted v c)); [|discriminate|exact E]. reflexivity.
Qed.

Lemma glide_config_real : forall cl, real_config (glide_config cl).
Proof.
  intros cl. constructor.
  - exists 0, 0, 0, 0. split; [reflexivity|lra].
  - constructor; try exact I.
    + exists 100; reflexivity.
    + exists 2; reflexivity.
    + apply real_1d, constant_accepted.
    + apply real_1d, constant_accepted.
    + apply real_1d, constant_accepted.
  - split; [exact I|]. split; [exact I|]. exists (V3 1 0 0). reflexivity.
  - constructor; lra.
  - exists (V3 (- 50) 0 (- 10)). reflexivity.
  - exists (1 / 2). reflexivity.
Qed.

Lemma reset_position : forall p : Phase N, st_position (ph_state (reset p)) = st_position (ph_state p).
Proof. reflexivity. Qed.
Lemma reset_velocity : forall p : Phase N, st_velocity (ph_state (reset p)) = st_velocity (ph_state p).
Proof. reflexivity. Qed.
Record glide (cl : R) (p : Phase N) (s : State N) : Prop := {
  g_begins : begins [glide_config cl] p;
  g_initial : initial p s;
  g_reported : reported [glide_config cl] p s;
  g_equations : equations p (ph_state p) s;
  g_phase : p = reset (phase_init (configured default_phase (glide_config cl))
                         (mkInitConfig (N := N) (Fin 0) (Fin 0) (Fin 0) (Fin 0)));
  g_real_phase : real_phase p;
  g_real_input : real_input (ph_state p);
  g_real : real_state (with_air p) s;
  g_launch : ph_launch p = finv zeroR;
  g_position : st_position s = finv (V3 6000000 0 0);
  g_velocity : st_velocity s = finv zeroR;
  g_airspeed : st_velocity_atmosphere s = finv (V3 50 0 10);
  g_altitude : st_altitude_geopotential s = Fin 0;
  g_mass : st_mass s = Fin 100;
  g_attitude : st_euler_angles s = finv zeroR }.

Lemma the_glide : rot_contract rot -> forall cl, exists p s, glide cl p s.
Proof.
  intros Hrot cl. set (i := mkInitConfig (N := N) (Fin 0) (Fin 0) (Fin 0) (Fin 0)).
  set (q := configured default_phase (glide_config cl)). set (p := reset (phase_init q i)).
  assert (B : begins [glide_config cl] p).
  { apply begins_first. rewrite phase_new_configured. reflexivity. }
  assert (G : glides p).
  { split; [|split; reflexivity]. split; [|split]; apply constant_accepted. }
  destruct (half_second (glide_config cl) p B G eq_refl) as (s & Hi & Hr). exists p, s.
  assert (S : sound p) by (apply (first_sound (glide_config cl) i eq_refl (glide_config_real cl))).
  assert (RP : real_phase p) by (apply sound_real_phase; [exact S|]; intros _; reflexivity).
  destruct S as (_ & _ & RI & _).
  assert (E := Hi). apply system_eom in E.
  assert (HR : radii (ph_planet q) 6000000 6000000) by (repeat split; lra).
  destruct (phase_init_fin q 6000000 6000000 0 0 0 0 (Fin 0) HR eq_refl ltac:(lra)) as (A1 & A2 & A3). fold i in A1, A2, A3.
  assert (D0 : deg 0 = 0) by (unfold deg; field).
  replace (6000000 / 6000000) with 1 in A1, A2, A3 by field. rewrite D0, tan_0 in A1, A2, A3.
  replace (1 * 1 * (1 * 1) * 0) with 0 in A1, A2, A3 by ring. rewrite atan_0 in A1, A2, A3.
  rewrite sin_0, cos_0 in A1, A2. replace (1 + (1 * 1 - 1) * (0 * 0)) with 1 in A1, A2 by ring. rewrite sqrt_1 in A1, A2.
  assert (P : st_position s = finv (V3 6000000 0 0)).
  { rewrite (e_position _ _ _ E). unfold p. rewrite reset_position, A1. apply (f_equal finv). unfold scaleR. cbn [vx vy vz]. f_equal; field. }
  assert (V : st_velocity s = finv zeroR).
  { rewrite (e_velocity _ _ _ E). unfold p. rewrite reset_velocity, A2. apply (f_equal finv). unfold crossR, scaleR, zeroR. cbn [vx vy vz]. f_equal; field. }
  assert (NS : ~ singular p (ph_state p)).
  { rewrite (C52_start (glide_config cl) p B (glide_config_real cl)). change (Fin (0 + 100) <> Fin 0). intros X. injection X. lra. }
  assert (Q : equations p (ph_state p) s).
  { destruct (system_total p (ph_state p) (accepted_lookups p (proj1 G))) as (s' & Q & S). unfold initial in Hi.
    rewrite S in Hi. destruct (guard p s'); [discriminate|]. injection Hi as <-. exact Q. }
  assert (VP : st_velocity_planet s = finv zeroR).
  { rewrite (q_velocity_planet _ _ _ Q), P, V. unfold velocity_planet.
    change (pl_rotation_rate (ph_planet p)) with (Fin 0).
    change (V3 (@n_lit N 0 0) (n_lit 0 0) (Fin 0)) with (finv zeroR).
    rewrite vcross_fin, vsub_fin. apply (f_equal finv). unfold subR, crossR, zeroR. cbn [vx vy vz]. f_equal; ring. }
  constructor; try assumption.
  - reflexivity.
  - destruct (C52_evaluation Hrot p (ph_state p) RP RI NS) as [X|(s' & X & Y)]; unfold initial in Hi; rewrite Hi in X; [discriminate|].
    injection X as <-. exact Y.
  - rewrite (q_velocity_atmosphere _ _ _ Q), VP. change (at_wind (ph_atmosphere p)) with (finv (V3 (- 50) 0 (- 10))).
    rewrite vsub_fin. apply (f_equal finv). unfold subR, zeroR. cbn [vx vy vz]. f_equal; ring.
  - rewrite (q_altitude_geopotential _ _ _ Q), P.
    destruct (C05_sign (ph_planet q) 6000000 6000000 (V3 6000000 0 0) HR) as (h & Eh & X & _).
    { intros Z. injection Z. lra. }
    assert (h = 0).
    { apply X. unfold level. cbn [vx vy vz]. field. }
    subst h. change (ph_planet p) with (ph_planet q).
    rewrite (C06_geopotential (ph_planet q) 6000000 6000000 (V3 6000000 0 0) 0 HR Eh) by lra.
    apply (f_equal Fin). field.
  - rewrite (q_mass _ _ _ Q). change (Fin (0 + 100) = Fin 100). apply (f_equal Fin). ring.
  - assert (Z : forall ax angle v c0 c y, angle_of ax angle -> axis_is (ax (ph_steering p)) v c0 c ->
      late v = false -> get_value v s = Fin y -> angle s = Fin (deg (c0 + poly c y))).
    { intros. eapply (C40_law [glide_config cl] p s); eauto. }
    assert (T : forall v, v = Time \/ v = TimeSinceEvent -> get_value v s = Fin 0).
    { intros v [-> | ->]; cbn [get_value]; [rewrite (e_time _ _ _ E)|rewrite (e_time_since_event _ _ _ E)]; reflexivity. }
    assert (C0 : to_degrees (N := N) (Fin 0) = Fin 0) by (rewrite to_degrees_fin; apply (f_equal Fin); ring).
    destruct (st_euler_angles s) as [x y z] eqn:EA. unfold finv, zeroR. cbn [vx vy vz].
    assert (X := Z _ _ Time 0 zeroR 0 angle_roll). assert (Y := Z _ _ Time 0 zeroR 0 angle_yaw).
    assert (W := Z _ _ TimeSinceEvent 0 (V3 1 0 0) 0 angle_pitch). cbv beta in X, Y, W. rewrite EA in X, Y, W. cbn [vx vy vz] in X, Y, W.
    rewrite X, Y, W; auto; try (split; [reflexivity|]; split; [exact C0|reflexivity]).
    unfold poly, zeroR. cbn [vx vy vz]. f_equal; apply (f_equal Fin); unfold deg; field.
Qed.

(** ** Hypotheses met by the glider *)
Lemma glide_model : forall cl p s, glide cl p s -> at_model (ph_atmosphere p) = StandardAtmosphere1962.
Proof. intros cl p s G. rewrite (g_phase _ _ _ G). reflexivity. Qed.
Lemma glide_variables : forall cl p s, glide cl p s ->
  forall v, In v (vehicle_variables (ph_vehicle p)) -> late_aero v = false.
Proof. intros cl p s G v. rewrite (g_phase _ _ _ G). cbn. intros [<-|[<-|[<-|[]]]]; reflexivity. Qed.
Lemma glide_body_airspeed : rot_contract rot -> forall cl p s, glide cl p s ->
  mulv (inertial_to_body (ph_launch p) (st_euler_angles s)) (st_velocity_atmosphere s) = finv (V3 50 0 10).
Proof.
  intros Hrot cl p s G. rewrite (g_launch _ _ _ G), (g_attitude _ _ _ G), (g_airspeed _ _ _ G).
  rewrite (inertial_to_body_real Hrot), mulv_fin. apply (f_equal finv).
  unfold l2b, i2l, zeroR. cbn [vx vy vz]. rewrite Ropp_0.
  assert (E : Rx 0 = idR /\ Ry 0 = idR /\ Rz 0 = idR).
  { unfold Rx, Ry, Rz, idR. rewrite sin_0, cos_0, Ropp_0. auto. }
  destruct E as (-> & -> & ->).
  assert (E : mulmR idR idR = idR).
  { unfold mulmR, mulvR, transposeR, dotR, idR. cbn [vx vy vz row0 row1 row2]. f_equal; f_equal; ring. }
  rewrite !E. unfold mulvR, dotR, idR. cbn [vx vy vz row0 row1 row2]. f_equal; ring.
Qed.
Lemma glide_coefficients : forall cl p s s', glide cl p s ->
  get_value MachNumber s' = get_value MachNumber s -> get_value Alpha s' = get_value Alpha s ->
  at_state (ve_drag_coeff (ph_vehicle p)) s' = Ret (Fin (1 / 2)) /\
  at_state (ve_lift_coeff (ph_vehicle p)) s' = Ret (Fin cl) /\
  at_state (ve_side_force_coeff (ph_vehicle p)) s' = Ret (Fin 0).
Proof.
  intros cl p s s' G E1 E2.
  destruct (r_mach_number _ _ (g_real _ _ _ G) (glide_model _ _ _ G)) as [m Hm].
  destruct (r_alpha _ _ (g_real _ _ _ G)) as [a Ha].
  rewrite (g_phase _ _ _ G). split; [|split].
  - apply (constant_value MachNumber _ _ m). rewrite E1. exact Hm.
  - apply (constant_value MachNumber _ _ m). rewrite E1. exact Hm.
  - apply (constant_value Alpha _ _ a). rewrite E2. exact Ha.
Qed.

Example C11_reported_nonvacuous : rot_contract rot -> exists cs (p : Phase N) s,
  reported cs p s /\ at_model (ph_atmosphere p) = StandardAtmosphere1962 /\
  st_altitude_geopotential s = Fin 0 /\ st_velocity_atmosphere s = finv (V3 50 0 10).
Proof.
  intros Hrot. destruct (the_glide Hrot 0) as (p & s & G). exists [glide_config 0], p, s.
  split; [apply G|]. split; [exact (glide_model _ _ _ G)|]. split; apply G.
Qed.
Example C15_reported_nonvacuous : rot_contract rot -> exists cs (p : Phase N) s a,
  reported cs p s /\ at_model (ph_atmosphere p) = StandardAtmosphere1962 /\
  (forall v, In v (vehicle_variables (ph_vehicle p)) -> late_aero v = false) /\
  st_altitude_geopotential s = Fin 0 /\ st_velocity_atmosphere s = finv (V3 50 0 10) /\ st_alpha s = Fin a /\
  ve_reference_area (ph_vehicle p) = Fin 2 /\
  at_state (ve_drag_coeff (ph_vehicle p)) s = Ret (Fin (1 / 2)) /\
  at_state (ve_lift_coeff (ph_vehicle p)) s = Ret (Fin (1 / 4)) /\
  at_state (ve_side_force_coeff (ph_vehicle p)) s = Ret (Fin 0).
Proof.
  intros Hrot. destruct (the_glide Hrot (1 / 4)) as (p & s & G).
  destruct (r_alpha _ _ (g_real _ _ _ G)) as [a Ha]. exists [glide_config (1 / 4)], p, s, a.
  split; [apply G|]. split; [exact (glide_model _ _ _ G)|]. split; [exact (glide_variables _ _ _ G)|].
  split; [apply G|]. split; [apply G|]. split; [exact Ha|]. split; [rewrite (g_phase _ _ _ G); reflexivity|].
  exact (glide_coefficients _ _ _ s G eq_refl eq_refl).
Qed.
Example C16_reported_nonvacuous : rot_contract rot -> exists cs (p : Phase N) s v, reported cs p s /\
  mulv (inertial_to_body (ph_launch p) (st_euler_angles s)) (st_velocity_atmosphere s) = finv v /\
  1 / 1000000 <= vx v /\ vz v / vx v = 1 / 5.
Proof.
  intros Hrot. destruct (the_glide Hrot 0) as (p & s & G). exists [glide_config 0], p, s, (V3 50 0 10).
  split; [apply G|]. split; [exact (glide_body_airspeed Hrot _ _ _ G)|]. cbn [vx vz]. lra.
Qed.
Example C51_drag_brakes_nonvacuous : rot_contract rot -> exists (p : Phase N) s0 s w q, equations p s0 s /\
  mulv (inertial_to_body (ph_launch p) (st_euler_angles s)) (st_velocity_atmosphere s) = finv w /\
  1 / 1000000 <= vx w /\
  at_state (ve_drag_coeff (ph_vehicle p)) (before_aero s0 s) = Ret (Fin (1 / 2)) /\
  at_state (ve_lift_coeff (ph_vehicle p)) (before_aero s0 s) = Ret (Fin 0) /\
  at_state (ve_side_force_coeff (ph_vehicle p)) (before_aero s0 s) = Ret (Fin 0) /\
  st_dynamic_pressure s = Fin q /\ ve_reference_area (ph_vehicle p) = Fin 2 /\ 0 < q * 2 * (1 / 2).
Proof.
  intros Hrot. destruct (the_glide Hrot 0) as (p & s & G).
  destruct (C11_reported [glide_config 0] p s 0 (V3 50 0 10) (g_reported _ _ _ G) (glide_model _ _ _ G)
    (g_altitude _ _ _ G) (g_airspeed _ _ _ G)) as (T & P & D & A & _ & _ & _ & _ & _ & PD & _ & _ & _ & _ & Q).
  exists p, (ph_state p), s, (V3 50 0 10), (D * (normR (V3 50 0 10) * normR (V3 50 0 10)) / 2).
  split; [apply G|]. split; [exact (glide_body_airspeed Hrot _ _ _ G)|]. split; [cbn [vx]; lra|].
  destruct (glide_coefficients 0 p s (before_aero (ph_state p) s) G eq_refl eq_refl) as (C1 & C2 & C3).
  split; [exact C1|]. split; [exact C2|]. split; [exact C3|]. split; [exact Q|].
  split; [rewrite (g_phase _ _ _ G); reflexivity|].
  rewrite normR_sq. unfold dotR. cbn [vx vy vz]. lra.
Qed.
Example C40_law_nonvacuous : rot_contract rot -> exists cs (p : Phase N) s,
  reported cs p s /\ axis_is (sg_pitch (ph_steering p)) TimeSinceEvent 0 (V3 1 0 0) /\
  late TimeSinceEvent = false /\ get_value TimeSinceEvent s = Fin 0.
Proof.
  intros Hrot. destruct (the_glide Hrot 0) as (p & s & G). exists [glide_config 0], p, s.
  split; [apply G|]. split; [|split; [reflexivity|]].
  - rewrite (g_phase _ _ _ G). split; [reflexivity|]. split; [|reflexivity].
    change (to_degrees (N := N) (Fin 0) = Fin 0). rewrite to_degrees_fin; apply (f_equal Fin); ring.
  - cbn [get_value]. rewrite (q_time_since_event _ _ _ (g_equations _ _ _ G)), (g_phase _ _ _ G). reflexivity.
Qed.
Example C47_newton_nonvacuous : rot_contract rot -> exists (p : Phase N) s0 s aero thrust g,
  system p s0 = Ret s /\ ph_launch p = finv zeroR /\ st_euler_angles s = finv zeroR /\
  st_aero_force_body s = finv aero /\ st_thrust_force_body s = finv thrust /\
  st_mass s = Fin 100 /\ st_gravity_acceleration s = finv g /\ vx aero < 0 /\ vx g < 0.
Proof.
  intros Hrot. destruct (the_glide Hrot 0) as (p & s & G).
  destruct (C11_reported [glide_config 0] p s 0 (V3 50 0 10) (g_reported _ _ _ G) (glide_model _ _ _ G)
    (g_altitude _ _ _ G) (g_airspeed _ _ _ G)) as (T & P & D & A & _ & _ & _ & _ & _ & PD & _ & _ & _ & _ & Q).
  destruct (glide_coefficients 0 p s s G eq_refl eq_refl) as (C1 & C2 & C3).
  destruct (C16_reported [glide_config 0] p s (V3 50 0 10) (g_reported _ _ _ G) (glide_body_airspeed Hrot _ _ _ G)) as (a & Ha & Ba & _);
    [cbn [vx]; lra|].
  destruct (C15_reported [glide_config 0] p s 0 (V3 50 0 10) a 2 (1 / 2) 0 0 (g_reported _ _ _ G) (glide_model _ _ _ G)
    (glide_variables _ _ _ G) (g_altitude _ _ _ G) (g_airspeed _ _ _ G) Ha) as (D' & f & _ & PD' & Ef & X); try assumption.
  { rewrite (g_phase _ _ _ G). reflexivity. }
  destruct (r_thrust_force_body _ _ (g_real _ _ _ G)) as [th Hth].
  assert (HG : real_planet (ph_planet p) 6000000 6000000 (4 * 10 ^ 14) 0 0 0 0) by (rewrite (g_phase _ _ _ G); reflexivity).
  assert (Nz : V3 6000000 0 0 <> zeroR) by (intros Z; injection Z; lra).
  exists p, (ph_state p), s, f, th, (grav (4 * 10 ^ 14) 0 0 0 6000000 (V3 6000000 0 0)).
  split; [apply G|]. split; [apply G|]. split; [apply G|]. split; [exact Ef|]. split; [exact Hth|]. split; [apply G|].
  split.
  { rewrite (q_gravity _ _ _ (g_equations _ _ _ G)), (g_position _ _ _ G). exact (gravity_real _ _ _ _ _ _ _ _ _ HG Nz). }
  split.
  - cbv zeta in X. rewrite X. rewrite normR_sq. unfold addR, scaleR, dotR. cbn [vx vy vz].
    assert (0 < cos a) by (apply cos_gt_0; lra).
    replace (50 * 50 + 0 * 0 + 10 * 10) with 2600 by ring.
    replace (- (D' * 2600 / 2 * 2 * (1 / 2)) * cos a + D' * 2600 / 2 * 2 * 0 * sin a + D' * 2600 / 2 * 2 * 0 * 0)
      with (- (1300 * (D' * cos a))) by field.
    assert (0 < D' * cos a) by (now apply Rmult_lt_0_compat). lra.
  - assert (E : normR (V3 6000000 0 0) = 6000000).
    { unfold normR, dotR. cbn [vx vy vz]. replace (6000000 * 6000000 + 0 * 0 + 0 * 0) with (6000000 * 6000000) by ring. apply sqrt_square. lra. }
    unfold grav, pot_r. rewrite E. cbn [vx vy vz]. lra.
Qed.

(** The glide meets the hypotheses of C52_evaluation, C52_run_partial, C52_timed_run and C49_unlimited. *)
Lemma glide_not_singular : forall cl p s, glide cl p s -> ~ singular p (ph_state p).
Proof.
  intros cl p s G. rewrite (C52_start (glide_config cl) p (g_begins _ _ _ G) (glide_config_real cl)).
  rewrite <- (q_mass _ _ _ (g_equations _ _ _ G)), (g_mass _ _ _ G). intros X. injection X. lra.
Qed.
Example C52_evaluation_nonvacuous : rot_contract rot -> exists p : Phase N, begins [glide_config 1] p /\ real_phase p /\
  real_input (ph_state p) /\ ~ singular p (ph_state p) /\ ph_max_acceleration p = PInf /\
  st_mass (ph_state p) = Fin 100 /\ ph_stepsize p = Fin 1 /\ ph_end_criterion p = (TimeSinceEvent, Fin (1 / 2)).
Proof.
  intros Hrot. destruct (the_glide Hrot 1) as (p & s & G). exists p.
  split; [apply G|]. split; [apply G|]. split; [apply G|]. split; [exact (glide_not_singular _ _ _ G)|].
  split; [rewrite (g_phase _ _ _ G); reflexivity|].
  split; [now rewrite <- (q_mass _ _ _ (g_equations _ _ _ G)), (g_mass _ _ _ G)|].
  split; rewrite (g_phase _ _ _ G); reflexivity.
Qed.
Example C52_simulation_nonvacuous : rot_contract rot -> exists (cs : list (PhaseConfig N)) p s, Forall real_config cs /\
  (forall cs1 cs2 q, cs = cs1 ++ cs2 -> begins cs1 q -> no_mach_in_vacuum q) /\ reported cs p s /\
  real_state (with_air p) s /\ with_air p.
Proof.
  intros Hrot. destruct (the_glide Hrot 1) as (p & s & G). exists [glide_config 1], p, s.
  split; [constructor; [apply glide_config_real|constructor]|]. split.
  { intros cs1 cs2 q E B. assert (Em : at_model (ph_atmosphere q) = StandardAtmosphere1962).
    { destruct B as [c p0 Hn|cs p0 fuel h r c p' B R Hn].
      - injection E as <- _. change (at_model (ph_atmosphere (reset p0))) with (at_model (ph_atmosphere p0)).
        rewrite (i_atmosphere_model _ _ _ (proj1 (C28_inheritance _ _ _ Hn))). reflexivity.
      - exfalso. assert (L : length [glide_config 1] = length ((cs ++ [c]) ++ cs2)) by now rewrite E.
        rewrite !app_length in L. cbn [length] in L. destruct B; [|rewrite app_length in L]; cbn [length] in L; lia. }
    intros _. exact Em. }
  split; [apply G|]. split; [apply G|]. exact (glide_model _ _ _ G).
Qed.
(** C39: the glider starts with the attitude it was configured with. *)
Example C39_time_since_event_nonvacuous : rot_contract rot -> exists (p : Phase N) s, begins [glide_config 0] p /\ initial p s /\
  ax_var (sg_pitch (ph_steering p)) = TimeSinceEvent /\ ax_c (sg_pitch (ph_steering p)) = finv (V3 1 0 0) /\
  vz (st_euler_angles (ph_state p)) = Fin 0 /\ vz (st_euler_angles s) = Fin 0.
Proof.
  intros Hrot. destruct (the_glide Hrot 0) as (p & s & G). exists p, s.
  split; [apply G|]. split; [apply G|]. rewrite (g_attitude _ _ _ G), (g_phase _ _ _ G).
  split; [reflexivity|]. split; [reflexivity|]. split; reflexivity.
Qed.
End Exact.
