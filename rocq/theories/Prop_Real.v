(** * C52: the numbers of a record are real numbers

    In exact arithmetic (reals with infinities and NaN): an evaluation of the equations of motion
    at a real state that is not singular either aborts or yields real numbers only. *)
From Coq Require Import ZArith List Reals Lra Lia Bool Classical_Prop.
From Verif Require Import Num Constants State Tables Config Planet Atmosphere Transformations
  Steering Vehicle RungeKutta Phase Simulation XR XRFacts SpecReal SystemFacts RKFacts RunFacts PhaseNew
  Prop_Run SystemTotal TablesFacts Prop_Tables Prop_Panics Prop_Time Prop_Planet Prop_Gravity Prop_Frames Prop_Atmosphere Prop_Interp Prop_Aero
  Prop_Throttle Prop_Steering Prop_Limit.
Import ListNotations.
Local Open Scope R_scope.

Definition real (x : xr) : Prop := exists r, x = Fin r.
Definition realv (v : vec3 xr) : Prop := exists r, v = finv r.

Lemma realv_components : forall v, realv v -> real (vx v) /\ real (vy v) /\ real (vz v).
Proof. intros v [[x y z] ->]. cbn [finv vx vy vz]. split; [|split]; eexists; reflexivity. Qed.
Lemma realv_intro : forall a b c, real a -> real b -> real c -> realv (V3 a b c).
Proof. intros a b c [x ->] [y ->] [z ->]. exists (V3 x y z). reflexivity. Qed.

Section Exact.
Context {rot : mat3 xr -> mat3 xr}.
Notation N := (XR rot).

Lemma real_norm : forall v, realv v -> real (norm (N := N) v).
Proof. intros v [r ->]. rewrite norm_fin. eexists; reflexivity. Qed.

(** All numbers of a record are real; the Mach number only if there is air. *)
Record real_state (air : Prop) (s : State N) : Prop := {
  r_time : real (st_time s);
  r_time_since_event : real (st_time_since_event s);
  r_position : realv (st_position s);
  r_position_planet : realv (st_position_planet s);
  r_altitude : real (st_altitude s);
  r_altitude_geopotential : real (st_altitude_geopotential s);
  r_velocity : realv (st_velocity s);
  r_velocity_planet : realv (st_velocity_planet s);
  r_velocity_atmosphere : realv (st_velocity_atmosphere s);
  r_acceleration : realv (st_acceleration s);
  r_thrust_force_body : realv (st_thrust_force_body s);
  r_aero_force_body : realv (st_aero_force_body s);
  r_vehicle_acceleration_body : realv (st_vehicle_acceleration_body s);
  r_gravity_acceleration : realv (st_gravity_acceleration s);
  r_mass : real (st_mass s);
  r_propellant_mass : real (st_propellant_mass s);
  r_massflow : real (st_massflow s);
  r_temperature : real (st_temperature s);
  r_pressure : real (st_pressure s);
  r_density : real (st_density s);
  r_mach_number : air -> real (st_mach_number s);
  r_dynamic_pressure : real (st_dynamic_pressure s);
  r_alpha : real (st_alpha s);
  r_euler_angles : realv (st_euler_angles s);
  r_throttle : real (st_throttle s) }.

(** Every variable a table, the steering or an end criterion may read is real. *)
Lemma get_real : forall air (s : State N) v, real_state air s -> (v = MachNumber -> air) ->
  real (get_value v s).
Proof.
  intros air s v H Hm. destruct H.
  destruct v; cbn [get_value]; first
    [ assumption
    | apply real_norm; assumption
    | (apply realv_components; assumption)
    | (apply r_mach_number0, Hm; reflexivity) ].
Qed.

(** The numbers of the configuration are real. *)
Inductive real_table : Table N -> Prop :=
| real_1d : forall v xs vals, accepted (N := N) (rt1 v xs vals) -> real_table (rt1 v xs vals)
| real_2d : forall v w xs ys rows, accepted (N := N) (rt2 v w xs ys rows) -> rows <> [] -> ys <> [] ->
    real_table (rt2 v w xs ys rows)
| real_3d : forall v w u xs ys zs cube, accepted (N := N) (rt3 v w u xs ys zs cube) ->
    cube <> [] -> ys <> [] -> zs <> [] -> real_table (rt3 v w u xs ys zs cube).

Record real_axis (a : axis N) : Prop := {
  ra_c0 : real (ax_c0 a);
  ra_c : realv (ax_c a) }.

Definition with_air (p : Phase N) : Prop := at_model (ph_atmosphere p) = StandardAtmosphere1962.

Record real_phase (p : Phase N) : Prop := {
  rp_planet : exists Re Rp mu J2 J3 J4 w, real_planet (ph_planet p) Re Rp mu J2 J3 J4 w /\ 0 < Re /\ 0 < Rp;
  rp_wind : realv (at_wind (ph_atmosphere p));
  rp_structure : real (ve_structure_mass (ph_vehicle p));
  rp_area : real (ve_reference_area (ph_vehicle p));
  rp_drag : real_table (ve_drag_coeff (ph_vehicle p));
  rp_lift : real_table (ve_lift_coeff (ph_vehicle p));
  rp_side : real_table (ve_side_force_coeff (ph_vehicle p));
  rp_engines : exists es, engines_are (ph_vehicle p) es /\ Forall (fun e => isp e <> 0) es;
  rp_launch : realv (ph_launch p);
  rp_roll : real_axis (sg_roll (ph_steering p));
  rp_yaw : real_axis (sg_yaw (ph_steering p));
  rp_pitch : real_axis (sg_pitch (ph_steering p));
  rp_mach : In MachNumber (steering_variables (ph_steering p)) -> with_air p }.

(** The quantities that an evaluation takes over: time and primary variables, and the forces,
    accelerations and angles of the previous evaluation. *)
Record real_input (s : State N) : Prop := {
  ri_time : real (st_time s);
  ri_time_since_event : real (st_time_since_event s);
  ri_position : realv (st_position s);
  ri_velocity : realv (st_velocity s);
  ri_mass : real (st_mass s);
  ri_acceleration : realv (st_acceleration s);
  ri_thrust_force_body : realv (st_thrust_force_body s);
  ri_aero_force_body : realv (st_aero_force_body s);
  ri_vehicle_acceleration_body : realv (st_vehicle_acceleration_body s);
  ri_massflow : real (st_massflow s);
  ri_alpha : real (st_alpha s);
  ri_euler_angles : realv (st_euler_angles s);
  ri_throttle : real (st_throttle s) }.

(** At the centre of the planet, without mass, or so deep inside the planet that the geopotential
    altitude is infinite. *)
Definition singular (p : Phase N) (s : State N) : Prop :=
  st_position s = finv zeroR \/ st_mass s = Fin 0 \/
  exists Re Rp, radii (ph_planet p) Re Rp /\ altitude (ph_planet p) (st_position s) = Fin (- ((Re + Rp) / 2)).

(** *** Table values: real or, for an empty table, NaN *)
Definition fn (x : xr) : Prop := x = NaN \/ real x.
Lemma table_value : forall air (t : Table N) (s : State N), real_table t -> real_state air s ->
  (In MachNumber (table_variables t) -> air) -> exists c, at_state t s = Ret c /\ fn c.
Proof.
  intros air t s H Hs Hm.
  assert (G : forall v, In v (table_variables t) -> real (get_value v s)).
  { intros v Hv. apply (get_real air); [exact Hs|]. intros ->. now apply Hm. }
  destruct H as [v xs vals A|v w xs ys rows A E1 E2|v w u xs ys zs cube A E1 E2 E3];
    cbn [table_variables rt1 rt2 rt3 t1_x t2_x t2_y t3_x t3_y t3_z fst In] in G.
  - destruct (G v (or_introl eq_refl)) as [x Hx]. destruct vals as [|y vals].
    + exists NaN. split; [reflexivity|now left].
    + eexists. split; [apply (C20_linear v xs (y :: vals) s x A); [discriminate|exact Hx]|right; eexists; reflexivity].
  - destruct (G v (or_introl eq_refl)) as [x Hx]. destruct (G w (or_intror (or_introl eq_refl))) as [y Hy].
    eexists. split; [apply (C20_bilinear v w xs ys rows s x y A E1 E2 Hx Hy)|right; eexists; reflexivity].
  - destruct (G v (or_introl eq_refl)) as [x Hx]. destruct (G w (or_intror (or_introl eq_refl))) as [y Hy].
    destruct (G u (or_intror (or_intror (or_introl eq_refl)))) as [z Hz].
    eexists. split; [apply (C20_trilinear v w u xs ys zs cube s x y z A E1 E2 E3 Hx Hy Hz)|right; eexists; reflexivity].
Qed.
Lemma fn_mul : forall a x, fn x -> fn (xmul (Fin a) x).
Proof. intros a x [->|[r ->]]; [left|right; eexists]; reflexivity. Qed.
Lemma fn_add : forall x y, fn x -> fn y -> fn (xadd x y).
Proof. intros x y [->|[r ->]] [->|[q ->]]; [left|left|left|right; eexists]; reflexivity. Qed.
Lemma fn_sub : forall x y, fn x -> fn y -> fn (xsub x y).
Proof. intros x y [->|[r ->]] [->|[q ->]]; [left|left|left|right; eexists]; reflexivity. Qed.
Lemma fn_neg : forall x, fn x -> fn (xneg x).
Proof. intros x [->|[r ->]]; [left|right; eexists]; reflexivity. Qed.
Lemma fn_real : forall x, fn x -> real (nan_to_zero (N := N) x).
Proof. intros x [->|[r ->]]; eexists; reflexivity. Qed.

Lemma aero_real : forall (v : Vehicle N) (s : State N) cd cl cy,
  at_state (ve_drag_coeff v) s = Ret cd -> at_state (ve_lift_coeff v) s = Ret cl ->
  at_state (ve_side_force_coeff v) s = Ret cy -> fn cd -> fn cl -> fn cy ->
  real (st_alpha s) -> real (st_dynamic_pressure s) -> real (ve_reference_area v) ->
  exists f, aero_force v s = Ret f /\ realv f.
Proof.
  intros v s cd cl cy E1 E2 E3 F1 F2 F3 [a Ha] [q Hq] [S HS]. unfold aero_force.
  rewrite E1, E2, E3. cbn [bind]. eexists. split; [reflexivity|]. rewrite Ha, Hq, HS.
  unfold vscale. cbn [vx vy vz]. xrs. cbn [xfun].
  apply realv_intro; apply fn_real, fn_mul; [apply fn_neg, fn_sub|exact F3|apply fn_neg, fn_add]; now apply fn_mul.
Qed.

(** The throttle is a real number or NaN. *)
Lemma throttle_fn : forall (v : Vehicle N) L m P A, fn (auto_throttle v L m P A).
Proof.
  intros v L m P A. unfold auto_throttle. destruct (veqb _ _); [right; eexists; reflexivity|].
  destruct (side_side_angle _ _ _) as [r|]; [|right; eexists; reflexivity].
  unfold clamp. generalize (r / norm (thrust_force v (n_lit 1 0) P))%num. intros x.
  destruct x as [x| | |]; xrs; [| | |now left]; unfold Rltb; repeat destruct (Rlt_dec _ _); xrs; unfold Rltb;
    repeat destruct (Rlt_dec _ _); right; eexists; reflexivity.
Qed.

Lemma real_table_accepted : forall t : Table N, real_table t -> accepted t.
Proof. intros t []; assumption. Qed.
Lemma late_input : forall air (s0 s : State N), real_input s0 ->
  real_state air (before_attitude s0 s) <->
  (real (st_time s) /\ real (st_time_since_event s) /\ realv (st_position s) /\ realv (st_position_planet s) /\
   real (st_altitude s) /\ real (st_altitude_geopotential s) /\ realv (st_velocity s) /\
   realv (st_velocity_planet s) /\ realv (st_velocity_atmosphere s) /\ realv (st_gravity_acceleration s) /\
   real (st_mass s) /\ real (st_propellant_mass s) /\ real (st_temperature s) /\ real (st_pressure s) /\
   real (st_density s) /\ (air -> real (st_mach_number s)) /\ real (st_dynamic_pressure s)).
Proof.
  intros air s0 s []. split.
  - intros []. unfold before_attitude in *. cbn [st_time st_time_since_event st_position st_position_planet st_altitude
      st_altitude_geopotential st_velocity st_velocity_planet st_velocity_atmosphere st_gravity_acceleration
      st_mass st_propellant_mass st_temperature st_pressure st_density st_mach_number st_dynamic_pressure] in *.
    tauto.
  - intros (A1 & A2 & A3 & A4 & A5 & A6 & A7 & A8 & A9 & A10 & A11 & A12 & A13 & A14 & A15 & A16 & A17).
    constructor; assumption.
Qed.

(** ** C52 *)
Lemma evaluation_equations : rot_contract rot -> forall (p : Phase N) (s0 s : State N),
  real_phase p -> real_input s0 -> ~ singular p s0 -> equations p s0 s ->
  (exists P f, st_pressure s = Fin P /\ st_aero_force_body s = finv f /\ realv (st_euler_angles s)) /\
  (n_isnan (st_throttle s) = false -> real_state (with_air p) s).
Proof.
  intros Hrot p s0 s RP RI NS Q.
  destruct (rp_planet _ RP) as (Re & Rp & mu & J2 & J3 & J4 & w & HP & PRe & PRp).
  assert (HR : radii (ph_planet p) Re Rp) by (rewrite HP; repeat split; assumption).
  destruct (ri_position _ RI) as [r Hr]. destruct (ri_velocity _ RI) as [u Hu].
  destruct (ri_mass _ RI) as [m Hm]. destruct (ri_time _ RI) as [t Ht].
  assert (Nr : r <> zeroR) by (intros ->; apply NS; left; exact Hr).
  assert (Nm : m <> 0) by (intros ->; apply NS; right; left; exact Hm).
  assert (X1 : st_time s = Fin t) by (rewrite (q_time _ _ _ Q); exact Ht).
  assert (X2 : real (st_time_since_event s)) by (rewrite (q_time_since_event _ _ _ Q); apply RI).
  assert (X3 : st_position s = finv r) by (rewrite (q_position _ _ _ Q); exact Hr).
  assert (X4 : st_velocity s = finv u) by (rewrite (q_velocity _ _ _ Q); exact Hu).
  assert (X5 : st_mass s = Fin m) by (rewrite (q_mass _ _ _ Q); exact Hm).
  assert (Hw : pl_rotation_rate (ph_planet p) = Fin w) by (rewrite HP; reflexivity).
  assert (X6 : realv (st_position_planet s)).
  { rewrite (q_position_planet _ _ _ Q), X1, X3, Hw. unfold inertial_to_planet.
    rewrite inertial_to_planet_real. cbn [n_rot XR]. rewrite (Hrot _ (Rz_rotation _)), mulv_fin. eexists; reflexivity. }
  assert (X7 : exists b, st_velocity_planet s = finv b).
  { rewrite (q_velocity_planet _ _ _ Q), X3, X4. unfold velocity_planet. rewrite Hw.
    change (V3 (@n_lit N 0 0) (n_lit 0 0) (Fin w)) with (finv (V3 0 0 w)).
    rewrite vcross_fin, vsub_fin. eexists; reflexivity. }
  assert (X8 : exists h, altitude (ph_planet p) (finv r) = Fin h) by (rewrite (altitude_fin _ Re Rp r HR Nr); eauto).
  destruct X8 as [h Hh].
  assert (X9 : real (st_altitude s)) by (rewrite (q_altitude _ _ _ Q), X3; exists h; exact Hh).
  assert (X10 : exists g, st_altitude_geopotential s = Fin g).
  { rewrite (q_altitude_geopotential _ _ _ Q), X3. eexists. apply (C06_geopotential _ Re Rp r h HR Hh).
    intros ->. apply NS. right. right. exists Re, Rp. split; [exact HR|]. rewrite Hr. exact Hh. }
  destruct X10 as [g X10].
  assert (X11 : real (st_propellant_mass s)).
  { rewrite (q_propellant_mass _ _ _ Q), X5. destruct (rp_structure _ RP) as [ms ->]. eexists; reflexivity. }
  assert (X12 : realv (st_gravity_acceleration s)).
  { rewrite (q_gravity _ _ _ Q), X3, (gravity_real _ Re Rp mu J2 J3 J4 w r HP Nr). eexists; reflexivity. }
  destruct X7 as [b X7].
  assert (X13 : exists a, st_velocity_atmosphere s = finv a).
  { rewrite (q_velocity_atmosphere _ _ _ Q), X7. destruct (rp_wind _ RP) as [wd ->]. rewrite vsub_fin. eexists; reflexivity. }
  destruct X13 as [a X13].
  assert (Y : exists T P D, st_temperature s = Fin T /\ st_pressure s = Fin P /\ st_density s = Fin D /\
                (with_air p -> real (st_mach_number s))).
  { assert (Q1 := q_temperature _ _ _ Q). assert (Q2 := q_pressure _ _ _ Q). assert (Q3 := q_density _ _ _ Q).
    assert (Q4 := q_mach_number _ _ _ Q). unfold at_temperature, at_pressure, at_density, at_mach_number, at_speed_of_sound in *.
    unfold with_air. destruct (at_model (ph_atmosphere p)) eqn:Em.
    - exists 0, 0, 0. injection Q1 as <-. injection Q2 as <-. injection Q3 as <-.
      split; [reflexivity|]. split; [reflexivity|]. split; [reflexivity|]. discriminate.
    - rewrite X10 in Q1, Q2, Q3, Q4.
      destruct (C11_atmosphere (rot := rot) g) as (T & P & D & A & E1 & E2 & E3 & E4 & _ & _ & _ & PA & _).
      exists T, P, D. rewrite E1 in Q1. rewrite E2 in Q2. rewrite E3 in Q3. rewrite E4 in Q4. cbn [bind] in Q4.
      rewrite X13, norm_fin in Q4. injection Q1 as <-. injection Q2 as <-. injection Q3 as <-.
      split; [reflexivity|]. split; [reflexivity|]. split; [reflexivity|]. intros _. injection Q4 as <-.
      exists (normR a / A). apply xdiv_fin. lra. }
  destruct Y as (T & P & D & Y1 & Y2 & Y3 & Y4).
  assert (Y5 : st_dynamic_pressure s = Fin (D * (normR a * normR a) / 2)).
  { rewrite (q_dynamic_pressure _ _ _ Q). unfold at_dynamic_pressure. rewrite Y3, X13, norm_fin. xrs.
    apply (f_equal Fin). field. }
  assert (BA : real_state (with_air p) (before_attitude s0 s)).
  { apply late_input; [exact RI|].
    split; [eexists; exact X1|]. split; [exact X2|]. split; [eexists; exact X3|]. split; [exact X6|].
    split; [exact X9|]. split; [eexists; exact X10|]. split; [eexists; exact X4|]. split; [eexists; exact X7|].
    split; [eexists; exact X13|]. split; [exact X12|]. split; [eexists; exact X5|]. split; [exact X11|].
    split; [eexists; exact Y1|]. split; [eexists; exact Y2|]. split; [eexists; exact Y3|]. split; [exact Y4|].
    eexists; exact Y5. }
  assert (AX : forall ax, real_axis ax -> In (ax_var ax) (steering_variables (ph_steering p)) ->
    exists x, to_radians (calc_coeff (get_value (ax_var ax) (before_attitude s0 s)) ax) = Fin x).
  { intros ax [[c0 E0] [c Ec]] Hin.
    destruct (get_real _ _ (ax_var ax) BA) as [y Hy].
    { intros Em. rewrite Em in Hin. now apply (rp_mach _ RP). }
    rewrite Hy, (calc_coeff_fin ax (ax_var ax) c0 c y), to_radians_fin; [eauto|]. repeat split; assumption. }
  assert (Z1 : exists e, st_euler_angles s = finv e).
  { rewrite (q_euler_angles _ _ _ Q). unfold steering_euler_angles.
    destruct (AX _ (rp_roll _ RP)) as [x1 ->]; [cbn [steering_variables In]; auto|].
    destruct (AX _ (rp_yaw _ RP)) as [x2 ->]; [cbn [steering_variables In]; auto|].
    destruct (AX _ (rp_pitch _ RP)) as [x3 ->]; [cbn [steering_variables In]; auto|].
    exists (V3 x1 x2 x3). reflexivity. }
  destruct Z1 as [e Z1]. destruct (rp_launch _ RP) as [la Hla].
  assert (Z2 : exists al, st_alpha s = Fin al).
  { rewrite (q_alpha _ _ _ Q), Hla, Z1, X13, (inertial_to_body_real Hrot), mulv_fin.
    destruct (C16_finite (rot := rot) (mulvR (mulmR (l2b (vx e) (vy e) (vz e)) (i2l (vx la) (vy la) (vz la))) a)) as (al & Hal & _).
    exists al. exact Hal. }
  destruct Z2 as [al Z2].
  assert (Z3 : realv (st_aero_force_body s)).
  { destruct (rp_area _ RP) as [S HS].
    destruct (at_model (ph_atmosphere p)) eqn:Em.
    - assert (D0 : D = 0).
      { assert (Q3 := q_density _ _ _ Q). unfold at_density in Q3. rewrite Em, Y3 in Q3.
        change (Ret (Fin 0) = Ret (Fin D)) in Q3. congruence. }
      exists zeroR. apply (vacuum_aero (ph_vehicle p) (before_aero s0 s) _ S (q_aero_force _ _ _ Q)); [|exact HS].
      change (st_dynamic_pressure s = Fin 0). rewrite Y5, D0. apply (f_equal Fin). field.
    - assert (BB : real_state (with_air p) (before_aero s0 s)).
      { destruct BA. constructor; try assumption.
        - exists al. exact Z2.
        - exists e. exact Z1. }
      destruct (table_value _ _ _ (rp_drag _ RP) BB) as (cd & E1 & F1); [intros _; exact Em|].
      destruct (table_value _ _ _ (rp_lift _ RP) BB) as (cl & E2 & F2); [intros _; exact Em|].
      destruct (table_value _ _ _ (rp_side _ RP) BB) as (cy & E3 & F3); [intros _; exact Em|].
      destruct (aero_real _ _ cd cl cy E1 E2 E3 F1 F2 F3) as (f & Ef & Hf).
      + exists al. exact Z2.
      + eexists. exact Y5.
      + exists S. exact HS.
      + rewrite (q_aero_force _ _ _ Q) in Ef. injection Ef as ->. exact Hf. }
  split; [exists P; destruct Z3 as [f Z3]; exists f; split; [exact Y2|]; split; [exact Z3|]; exists e; exact Z1|]. intros G.
  assert (Z4 : exists th, st_throttle s = Fin th).
  { assert (F := throttle_fn (ph_vehicle p) (ph_max_acceleration p) (st_mass s) (st_pressure s) (st_aero_force_body s)).
    rewrite <- (q_throttle _ _ _ Q) in F. destruct F as [F|[th F]]; [|eauto]. rewrite F in G. discriminate. }
  destruct Z4 as [th Z4]. destruct (rp_engines _ RP) as (es & He & Hi).
  assert (Z5 : realv (st_thrust_force_body s)).
  { rewrite (q_thrust _ _ _ Q), Z4, Y2, (thrust_force_fin _ es th P He). eexists; reflexivity. }
  assert (Z6 : real (st_massflow s)).
  { rewrite (q_massflow _ _ _ Q), Z4, (massflow_fin _ es th He Hi). eexists; reflexivity. }
  assert (Z7 : realv (st_vehicle_acceleration_body s)).
  { rewrite (q_vehicle_acceleration _ _ _ Q), X5. destruct Z3 as [f ->]. destruct Z5 as [f' ->].
    rewrite vadd_fin, (vdiv_fin _ m Nm). eexists; reflexivity. }
  assert (Z8 : realv (st_acceleration s)).
  { rewrite (q_acceleration _ _ _ Q), Hla, Z1, (inertial_to_body_real Hrot), transpose_fin.
    destruct Z7 as [x ->]. destruct X12 as [y ->]. rewrite mulv_fin, vadd_fin. eexists; reflexivity. }
  constructor; try assumption; eexists; eassumption.
Qed.
(** One evaluation of the equations of motion: unless it aborts, every number it yields is real. *)
Theorem C52_evaluation : rot_contract rot -> forall (p : Phase N) (s0 : State N),
  real_phase p -> real_input s0 -> ~ singular p s0 ->
  system p s0 = Panic PMaxAcceleration \/
  exists s, system p s0 = Ret s /\ real_state (with_air p) s.
Proof.
  intros Hrot p s0 RP RI NS.
  assert (L : lookups_ok p).
  { apply accepted_lookups. split; [|split]; apply real_table_accepted; apply RP. }
  destruct (system_total p s0 L) as (s & Q & E). destruct (guard p s) eqn:G; [now left|]. right.
  exists s. split; [exact E|]. apply orb_false_elim in G. destruct G as [_ G].
  apply (evaluation_equations Hrot p s0 s RP RI NS Q). exact G.
Qed.
(** Without an acceleration limit it does not abort while the mass is positive, and the engines run
    at full throttle. *)
Theorem C49_unlimited : rot_contract rot -> forall (p : Phase N) (s0 : State N) m,
  real_phase p -> real_input s0 -> ~ singular p s0 -> ph_max_acceleration p = PInf ->
  st_mass s0 = Fin m -> 0 < m ->
  exists s, system p s0 = Ret s /\ real_state (with_air p) s /\ st_throttle s = Fin 1.
Proof.
  intros Hrot p s0 m RP RI NS HL Hm Pm.
  assert (L : lookups_ok p).
  { apply accepted_lookups. split; [|split]; apply real_table_accepted; apply RP. }
  destruct (system_total p s0 L) as (s & Q & _).
  destruct (evaluation_equations Hrot p s0 s RP RI NS Q) as [(P & f & EP & Ef & _) K].
  destruct (rp_engines _ RP) as (es & He & _).
  destruct (C23_unlimited p s0 s es m P f Q He HL) as (A & B & _); try assumption.
  { rewrite (q_mass _ _ _ Q). exact Hm. }
  exists s. split; [exact A|]. split; [|exact B]. apply K. rewrite B. reflexivity.
Qed.

(** ** Steps *)
(** The five evaluations of the equations of motion in one integration step of size [h] from [s]. *)
Local Notation sm := (rk_sum v7_zero v7_add v7_scale (N := N)).
Local Notation half := (@n_lit N 5 (-1)).
Definition stages (p : Phase N) (s : State N) (h : N) (d0 d1 d2 d3 s' : State N) : Prop :=
  let f := system p in
  let y := to_primary_vec s in
  let t (c : N) := (st_time s + c * h, st_time_since_event s + c * h)%num in
  let k0 := v7_scale h (to_differentials_vector d0) in
  let k1 := v7_scale h (to_differentials_vector d1) in
  let k2 := v7_scale h (to_differentials_vector d2) in
  let k3 := v7_scale h (to_differentials_vector d3) in
  (f (from_vec (t #0) (v7_add y (sm [#0; #0; #0; #0] [v7_zero; v7_zero; v7_zero; v7_zero]))) = Ret d0
    /\ f (from_vec (t half) (v7_add y (sm [half; #0; #0; #0] [k0; v7_zero; v7_zero; v7_zero]))) = Ret d1
    /\ f (from_vec (t half) (v7_add y (sm [#0; half; #0; #0] [k0; k1; v7_zero; v7_zero]))) = Ret d2
    /\ f (from_vec (t #1) (v7_add y (sm [#0; #0; #1; #0] [k0; k1; k2; v7_zero]))) = Ret d3
    /\ f (from_vec (st_time s + h, st_time_since_event s + h)
              (v7_add y (sm [#1 / #6; #1 / #3; #1 / #3; #1 / #6] [k0; k1; k2; k3]))) = Ret s')%num.
(** An evaluation that takes place in the iteration of the phase in state [q]. *)
Definition evaluates (q : Phase N) (d : State N) : Prop := ph_ended q = false /\ exists d0 d1 d2 d3 s',
  stages q (ph_state q) (ph_stepsize q) d0 d1 d2 d3 s' /\ In d [d0; d1; d2; d3; s'].

Definition real7 (v : vec7 N) : Prop := realv (v7_pos v) /\ realv (v7_vel v) /\ real (v7_mass v).
Lemma real7_zero : real7 v7_zero.
Proof. split; [exists zeroR; reflexivity|]. split; [exists zeroR; reflexivity|]. exists 0; reflexivity. Qed.
Lemma real7_add : forall a b, real7 a -> real7 b -> real7 (v7_add a b).
Proof.
  intros a b ([x1 E1] & [x2 E2] & [x3 E3]) ([y1 F1] & [y2 F2] & [y3 F3]). unfold v7_add, real7.
  cbn [v7_pos v7_vel v7_mass]. rewrite E1, E2, E3, F1, F2, F3, !vadd_fin.
  split; [|split]; eexists; reflexivity.
Qed.
Lemma real7_scale : forall k a, real k -> real7 a -> real7 (v7_scale (N := N) k a).
Proof.
  intros k a [q ->] ([x1 E1] & [x2 E2] & [x3 E3]). unfold v7_scale, real7.
  cbn [v7_pos v7_vel v7_mass]. rewrite E1, E2, E3, !vscale_fin.
  split; [|split]; eexists; reflexivity.
Qed.
Lemma real7_sum : forall cs ks, Forall real cs -> Forall real7 ks -> real7 (sm cs ks).
Proof.
  intros cs ks Hc Hk. unfold rk_sum.
  assert (G : forall l acc, real7 acc -> Forall (fun p => real (fst p) /\ real7 (snd p)) l ->
    real7 (fold_left v7_add (map (fun p => v7_scale (N := N) (fst p) (snd p)) l) acc)).
  { induction l as [|[c k] l IH]; intros acc Ha Hl; cbn [map fold_left]; [exact Ha|].
    inversion Hl as [|? ? [A B] C]; subst. apply IH; [|exact C].
    apply real7_add; [exact Ha|]. now apply real7_scale. }
  apply G; [exact real7_zero|].
  revert ks Hk. induction Hc as [|c cs A _ IH]; intros [|k ks] Hk; cbn [combine]; constructor.
  - split; [exact A|]. now inversion Hk.
  - apply IH. now inversion Hk.
Qed.
Lemma real_lits : real (@n_lit N 0 0) /\ real half /\ real (@n_lit N 1 0) /\
  real (@n_lit N 1 0 / @n_lit N 6 0)%num /\ real (@n_lit N 1 0 / @n_lit N 3 0)%num.
Proof.
  split; [exists 0; reflexivity|]. split; [eexists; reflexivity|]. split; [exists 1; reflexivity|].
  split; eexists; apply xdiv_fin; lra.
Qed.
Lemma input_from_vec : forall t e v, real t -> real e -> real7 v -> real_input (from_vec (N := N) (t, e) v).
Proof.
  intros t e v Ht He ([x1 E1] & [x2 E2] & [x3 E3]). unfold from_vec. cbn [fst snd].
  constructor; cbn [set_mass set_velocity set_position set_time_since_event set_time default_state
    st_time st_time_since_event st_position st_velocity st_mass st_acceleration st_thrust_force_body
    st_aero_force_body st_vehicle_acceleration_body st_massflow st_alpha st_euler_angles st_throttle];
    try assumption; try (eexists; eassumption); try (exists 0; reflexivity); exists zeroR; reflexivity.
Qed.
Lemma real_differentials : forall air (s : State N), real_state air s -> real7 (to_differentials_vector s).
Proof. intros air s []. split; [|split]; assumption. Qed.
Lemma real_offset : forall t c h : xr, real t -> real c -> real h -> real (@n_add N t (@n_mul N c h)).
Proof. intros t c h [x ->] [y ->] [z ->]. eexists; reflexivity. Qed.

Lemma singular_result : forall (p : Phase N) (s0 s : State N), system p s0 = Ret s -> singular p s0 -> singular p s.
Proof.
  intros p s0 s H. apply system_eom in H. unfold singular. rewrite (e_position _ _ _ H), (e_mass _ _ _ H). auto.
Qed.
Lemma evaluation_result : rot_contract rot -> forall (p : Phase N) (s0 s : State N),
  real_phase p -> real_input s0 -> system p s0 = Ret s -> ~ singular p s -> real_state (with_air p) s.
Proof.
  intros Hrot p s0 s RP RI H NS.
  destruct (C52_evaluation Hrot p s0 RP RI) as [E|(s1 & E & R)].
  - intros S. apply NS. now apply (singular_result p s0).
  - rewrite H in E. discriminate.
  - rewrite H in E. injection E as ->. exact R.
Qed.

Ltac allreal := repeat first [assumption | apply Forall_nil | apply Forall_cons].

(** A step of real size from a real state: if none of its five evaluations takes place at a singular
    state, the new state is real. *)
Theorem C52_step_partial : rot_contract rot -> forall (p : Phase N) (s s' : State N) h,
  real_phase p -> real_state (with_air p) s -> real h -> integrator_step (system p) s h = Ret s' ->
  exists d0 d1 d2 d3, stages p s h d0 d1 d2 d3 s' /\
    ((forall d, In d [d0; d1; d2; d3; s'] -> ~ singular p d) -> real_state (with_air p) s').
Proof.
  intros Hrot p s s' h RP RS Rh H.
  destruct (integrator_step_inv _ _ _ _ H) as (d0 & d1 & d2 & d3 & F0 & F1 & F2 & F3 & F4).
  exists d0, d1, d2, d3. split; [exact (conj F0 (conj F1 (conj F2 (conj F3 F4))))|].
  intros NS. destruct real_lits as (L0 & Lh & L1 & L6 & L3).
  assert (Y : real7 (to_primary_vec s)) by (destruct RS; split; [|split]; assumption).
  assert (T := r_time _ _ RS). assert (T' := r_time_since_event _ _ RS).
  assert (Z := real7_zero).
  assert (R0 : real_state (with_air p) d0).
  { eapply evaluation_result; [exact Hrot|exact RP| |exact F0|apply NS; cbn [In]; tauto].
    apply input_from_vec; try (apply real_offset; assumption). apply real7_add; [exact Y|].
    apply real7_sum; allreal. }
  assert (K0 := real7_scale h _ Rh (real_differentials _ _ R0)).
  assert (R1 : real_state (with_air p) d1).
  { eapply evaluation_result; [exact Hrot|exact RP| |exact F1|apply NS; cbn [In]; tauto].
    apply input_from_vec; try (apply real_offset; assumption). apply real7_add; [exact Y|].
    apply real7_sum; allreal. }
  assert (K1 := real7_scale h _ Rh (real_differentials _ _ R1)).
  assert (R2 : real_state (with_air p) d2).
  { eapply evaluation_result; [exact Hrot|exact RP| |exact F2|apply NS; cbn [In]; tauto].
    apply input_from_vec; try (apply real_offset; assumption). apply real7_add; [exact Y|].
    apply real7_sum; allreal. }
  assert (K2 := real7_scale h _ Rh (real_differentials _ _ R2)).
  assert (R3 : real_state (with_air p) d3).
  { eapply evaluation_result; [exact Hrot|exact RP| |exact F3|apply NS; cbn [In]; tauto].
    apply input_from_vec; try (apply real_offset; assumption). apply real7_add; [exact Y|].
    apply real7_sum; allreal. }
  assert (K3 := real7_scale h _ Rh (real_differentials _ _ R3)).
  eapply evaluation_result; [exact Hrot|exact RP| |exact F4|apply NS; cbn [In]; tauto].
  apply input_from_vec.
  - destruct T as [a ->], Rh as [b ->]. eexists; reflexivity.
  - destruct T' as [a ->], Rh as [b ->]. eexists; reflexivity.
  - apply real7_add; [exact Y|]. apply real7_sum; allreal.
Qed.

(** ** Runs *)
(** An iteration whose candidate is beyond the target although the criterion variable has not
    changed at all: the next step size, a quotient by that change, is not a number. *)
Definition stalled (q : Phase N) : Prop := ph_ended q = false /\ exists s', candidate q = Ret s' /\ meets q s' = false /\
  overshoots q (ph_state q) s' = true /\ crit q s' = crit q (ph_state q).
Definition readable_criterion (p : Phase N) : Prop :=
  real (target p) /\ (fst (ph_end_criterion p) = MachNumber -> with_air p).

Lemma real_phase_parameters : forall p q : Phase N, same_parameters p q -> real_phase p -> real_phase q.
Proof.
  intros p q (E1 & E2 & E3 & E4 & E5 & E6 & E7 & E8) []. unfold with_air in *.
  constructor; unfold with_air; rewrite ?E1, ?E2, ?E3, ?E4, ?E5; assumption.
Qed.
Lemma with_air_parameters : forall p q : Phase N, same_parameters p q -> with_air q = with_air p.
Proof. intros p q (_ & _ & E & _). unfold with_air. now rewrite E. Qed.
Lemma readable_parameters : forall p q : Phase N, same_parameters p q -> readable_criterion p -> readable_criterion q.
Proof.
  intros p q (_ & _ & E & _ & _ & _ & _ & E8). unfold readable_criterion, target, with_air. now rewrite E, E8.
Qed.
Lemma singular_parameters : forall (p q : Phase N) s, same_parameters p q -> singular q s -> singular p s.
Proof. intros p q s (_ & _ & _ & E & _). unfold singular. now rewrite E. Qed.

Lemma iteration_real : rot_contract rot -> forall q q' : Phase N, step q = Ret q' -> real_phase q ->
  real_state (with_air q) (ph_state q) -> real (ph_stepsize q) -> readable_criterion q ->
  (real_state (with_air q) (ph_state q') /\ real (ph_stepsize q')) \/
  (exists d, evaluates q d /\ singular q d) \/ stalled q.
Proof.
  intros Hrot q q' H RP RS Rh [[tg Htg] Hcr].
  destruct (step_cases q q' H) as (En & s & Hc & C).
  destruct (C52_step_partial Hrot q (ph_state q) s (ph_stepsize q) RP RS Rh Hc) as (d0 & d1 & d2 & d3 & St & R).
  destruct (classic (exists d, evaluates q d /\ singular q d)) as [S|NS]; [right; left; exact S|].
  assert (R' : real_state (with_air q) s).
  { apply R. intros d Hd Hs. apply NS. exists d. split; [|exact Hs]. split; [exact En|]. exists d0, d1, d2, d3, s. now split. }
  destruct C as [[_ ->]|[[_ [_ ->]]|[M [O [_ ->]]]]].
  - left. split; [exact R'|exact Rh].
  - left. split; [exact R'|exact Rh].
  - destruct (get_real _ _ _ RS Hcr) as [y Hy]. destruct (get_real _ _ _ R' Hcr) as [y' Hy'].
    destruct (Req_dec y' y) as [E|E].
    + right. right. split; [exact En|]. exists s. split; [exact Hc|]. split; [exact M|]. split; [exact O|].
      unfold crit. rewrite Hy, Hy', E. reflexivity.
    + left. split; [exact RS|]. 
      change (real (time_to_go q (ph_state q) s)). unfold time_to_go. unfold target in Htg.
      rewrite Hy, Hy', Htg. destruct Rh as [h ->].
      eexists. cbn [n_sub n_neg n_mul n_div carrier XR xsub xneg xmul]. apply xdiv_fin. lra.
Qed.

(** A run from a real state: all its records are real, or one of its evaluations took place at a
    singular state, or one of its iterations stalled. *)
Theorem C52_run_partial : rot_contract rot -> forall (p : Phase N) fuel h st,
  run fuel p = (h, st) -> real_phase p -> real_input (ph_state p) -> ~ singular p (ph_state p) ->
  real (ph_stepsize p) -> readable_criterion p ->
  Forall (real_state (with_air p)) h \/
  exists s0 ps q, initial p s0 /\ chain (set_ph_state p s0) ps /\ h = map (@ph_state N) ps /\
    In q (set_ph_state p s0 :: ps) /\ ((exists d, evaluates q d /\ singular p d) \/ stalled q).
Proof.
  intros Hrot p fuel h st H RP RI NS Rh Rc.
  destruct (run_chain _ _ _ _ H) as [(e & _ & -> & _)|(s0 & ps & Hi & Hch & -> & _)]; [left; constructor|].
  assert (P0 : same_parameters p (set_ph_state p s0)) by repeat split.
  assert (R0 : real_state (with_air p) s0).
  { apply (evaluation_result Hrot p (ph_state p)); auto. intros S. apply NS.
    apply system_eom in Hi. revert S. unfold singular. rewrite (e_position _ _ _ Hi), (e_mass _ _ _ Hi). auto. }
  enough (G : forall p0 ps, chain p0 ps -> same_parameters p p0 -> real_state (with_air p) (ph_state p0) ->
    real (ph_stepsize p0) ->
    Forall (real_state (with_air p)) (map (@ph_state N) ps) \/
    exists q, In q (p0 :: ps) /\ ((exists d, evaluates q d /\ singular p d) \/ stalled q)).
  { destruct (G _ _ Hch P0 R0 Rh) as [A|(q & A & B)]; [left; exact A|]. right.
    exists s0, ps, q. split; [exact Hi|]. split; [exact Hch|]. split; [reflexivity|]. now split. }
  clear H Hch ps R0 P0 Hi s0. intros p0 ps Hch. induction Hch as [p0|p0 p1 ps He St Hch IH]; intros P0 R0 Rh0.
  - left. constructor.
  - assert (P1 : same_parameters p p1) by (eapply same_parameters_trans; [exact P0|now apply step_parameters]).
    assert (A0 := with_air_parameters _ _ P0).
    destruct (iteration_real Hrot p0 p1 St) as [[R1 Rh1]|[(d & D1 & D2)|S]].
    + now apply (real_phase_parameters p).
    + rewrite A0. exact R0.
    + exact Rh0.
    + now apply (readable_parameters p).
    + rewrite A0 in R1. destruct (IH P1 R1 Rh1) as [F|(q & Hq & T)].
      * left. cbn [map]. constructor; assumption.
      * right. exists q. split; [right; exact Hq|exact T].
    + right. exists p0. split; [now left|]. left. exists d. split; [exact D1|]. now apply (singular_parameters _ p0).
    + right. exists p0. split; [now left|]. right. exact S.
Qed.

(** A clock criterion never stalls. *)
Lemma clock_not_stalled : forall (p : Phase N) ps v T y0 h0, (v = Time \/ v = TimeSinceEvent) -> chain p ps ->
  ph_end_criterion p = (v, Fin T) -> get_value v (ph_state p) = Fin y0 -> ph_stepsize p = Fin h0 -> h0 <> 0 ->
  forall q, In q (p :: ps) -> ~ stalled q.
Proof.
  intros p ps v T y0 h0 Hv Hch Ec Ey Eh Hh.
  set (I := fun q : Phase N => ph_ended q = true \/ (ph_end_criterion q = (v, Fin T) /\
    exists y h, get_value v (ph_state q) = Fin y /\ ph_stepsize q = Fin h /\ (h = h0 \/ h = T - y))).
  assert (S : forall q, I q -> ~ stalled q).
  { intros q [E|(Ec' & y & h & Ey' & Eh' & D)] [E' (s & C & M & O & K)]; [congruence|].
    assert (V := candidate_clock q s v y h Hv C Ey' Eh'). unfold crit in K. rewrite Ec' in K. cbn [fst] in K.
    rewrite V, Ey' in K. injection K as K. assert (h = 0) by lra. destruct D as [D|D]; [lra|].
    unfold meets, crit, target in M. rewrite Ec' in M. cbn [fst snd] in M. rewrite V in M. revert M. xrs.
    replace (y + h - T) with 0 by lra. rewrite Rabs_R0, Rltb_true by lra. discriminate. }
  intros q Hq. apply S. revert q Hq.
  assert (I0 : I p) by (right; split; [exact Ec|]; exists y0, h0; auto).
  assert (St : forall q q', I q -> ph_ended q = false -> step q = Ret q' -> I q').
  { intros q q' HI E Hs. destruct HI as [E2|(Ec' & y & h & Ey' & Eh' & D)]; [congruence|].
    destruct (step_cases q q' Hs) as (_ & s & C & K).
    assert (V := candidate_clock q s v y h Hv C Ey' Eh').
    assert (Mt : h = T - y -> meets q s = true).
    { intros ->. unfold meets, crit, target. rewrite Ec'. cbn [fst snd]. rewrite V. xrs.
      replace (y + (T - y) - T) with 0 by ring. rewrite Rabs_R0, Rltb_true by lra. reflexivity. }
    destruct K as [[_ ->]|[[M [O ->]]|[M [O [_ ->]]]]].
    - left. reflexivity.
    - right. split; [exact Ec'|]. exists (y + h), h. split; [exact V|]. split; [exact Eh'|].
      destruct D as [D|D]; [left; exact D|]. rewrite (Mt D) in M. discriminate.
    - right. split; [exact Ec'|]. exists y, (T - y). split; [exact Ey'|]. split; [|right; reflexivity].
      destruct D as [D|D]; [|rewrite (Mt D) in M; discriminate].
      change (time_to_go q (ph_state q) s = Fin (T - y)). unfold time_to_go. rewrite Ec', Eh'. cbn [fst snd].
      rewrite V, Ey'. xrs. rewrite xdiv_fin by lra. apply (f_equal Fin). field. lra. }
  assert (F := chain_ind_inv I St p ps Hch I0). rewrite Forall_forall in F.
  intros q [<-|Hq]; [exact I0|now apply F].
Qed.

(** A phase with a given duration or end time, from a real state: all its records are real unless
    the equations of motion have been evaluated at a singular state. *)
Theorem C52_timed_run : rot_contract rot -> forall (p : Phase N) fuel h st v T h0,
  run fuel p = (h, st) -> real_phase p -> real_input (ph_state p) -> ~ singular p (ph_state p) ->
  ph_stepsize p = Fin h0 -> h0 <> 0 -> (v = Time \/ v = TimeSinceEvent) -> ph_end_criterion p = (v, Fin T) ->
  Forall (real_state (with_air p)) h \/
  exists s0 ps q d, initial p s0 /\ chain (set_ph_state p s0) ps /\ h = map (@ph_state N) ps /\
    In q (set_ph_state p s0 :: ps) /\ evaluates q d /\ singular p d.
Proof.
  intros Hrot p fuel h st v T h0 H RP RI NS Eh Hh Hv Ec.
  destruct (C52_run_partial Hrot p fuel h st H RP RI NS) as [F|(s0 & ps & q & Hi & Hch & Eq & Hq & D)].
  - exists h0. exact Eh.
  - split; [exists T; unfold target; rewrite Ec; reflexivity|]. rewrite Ec. cbn [fst].
    destruct Hv as [-> | ->]; discriminate.
  - left. exact F.
  - destruct D as [(d & D1 & D2)|S].
    + right. exists s0, ps, q, d. auto 10.
    + exfalso.
      assert (Ei : exists y0, get_value v s0 = Fin y0).
      { assert (E := Hi). apply system_eom in E. destruct Hv as [-> | ->]; cbn [get_value];
          [rewrite (e_time _ _ _ E)|rewrite (e_time_since_event _ _ _ E)]; apply RI. }
      destruct Ei as [y0 Ei].
      exact (clock_not_stalled (set_ph_state p s0) ps v T y0 h0 Hv Hch Ec Ei Eh Hh q Hq S).
Qed.
End Exact.
