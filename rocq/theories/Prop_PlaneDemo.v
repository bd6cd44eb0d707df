(** * C59: a mission that meets the hypotheses of [C59_simulation] *)
From Coq Require Import ZArith List Reals Lra Lia Bool.
From Verif Require Import Num Constants State Tables Config Planet Atmosphere Transformations
  Steering Vehicle RungeKutta Phase Simulation XR XRFacts SpecReal SystemFacts RKFacts RunFacts PhaseNew
  Prop_Run SystemTotal TablesFacts Prop_Tables Prop_Panics Prop_Time Prop_Planet Prop_Gravity Prop_Frames Prop_Atmosphere Prop_Interp Prop_Aero
  Prop_Throttle Prop_Mass Prop_Steering Prop_Limit Prop_Real Prop_RealSim Prop_TimeForward Prop_Coast DemoExact Prop_Longitude Prop_LongitudeDemo
  Prop_Simulation Prop_Mission Prop_Plane.
Import ListNotations.
Local Open Scope R_scope.

Section Exact.
Context {rot : mat3 xr -> mat3 xr}.
Notation N := (XR rot).
Local Notation sm := (rk_sum v7_zero v7_add v7_scale (N := N)).
Hypothesis Hrot : rot_contract rot.

(** A vehicle without engines over a spinning airless sphere of 6000 km radius with the gravity of the Earth. *)
Definition Re : R := 6000000.
Definition mu0 : R := 4 * 10 ^ 14.
Record falling (p : Phase N) : Prop := {
  fa_planet : real_planet (ph_planet p) Re Re mu0 0 0 0 (1 / 1000);
  fa_air : at_model (ph_atmosphere p) = NoAtmosphere;
  fa_engines : engines_are (ph_vehicle p) [];
  fa_limit : ph_max_acceleration p = PInf;
  fa_phase : real_phase p }.
(** Far from the centre, not falling too fast. *)
Definition high (lo v : R) (s : State N) : Prop :=
  (exists r, st_position s = finv r /\ lo <= vx r) /\ (exists u, st_velocity s = finv u /\ v <= vx u) /\ st_mass s = Fin 1000.

Lemma high_nonzero : forall r, 5000000 <= vx r -> r <> zeroR.
Proof. intros r H E. subst r. unfold zeroR in H. cbn [vx] in H. lra. Qed.
Lemma high_regular : forall p s v, falling p -> high 5000000 v s -> ~ singular p s.
Proof.
  intros p s v D ((r & Ex & Hr) & _ & Em) [S|[S|(Re' & Rp' & (E1 & E2 & P1 & P2) & S)]].
  - rewrite Ex in S. apply (high_nonzero r Hr). destruct r as [a b c].
    unfold finv, zeroR in *. cbn [vx vy vz] in S. injection S as -> -> ->. reflexivity.
  - rewrite Em in S. injection S as S. lra.
  - assert (P := fa_planet _ D). rewrite P in E1, E2. injection E1 as <-. injection E2 as <-.
    assert (HR : radii (ph_planet p) Re Re) by (rewrite P; repeat split; assumption).
    rewrite Ex, (altitude_fin _ Re Re _ HR (high_nonzero r Hr)) in S. injection S as S.
    assert (Hn := normR_pos r (high_nonzero r Hr)).
    assert (HL : level Re Re r = (normR r / Re) * (normR r / Re)).
    { unfold level. assert (Q := normR_sq r). unfold dotR in Q.
      replace (normR r / Re * (normR r / Re)) with ((normR r * normR r) / (Re * Re)) by (field; lra). rewrite Q. field. lra. }
    rewrite HL, sqrt_square in S. 2: { apply Rmult_le_pos; [lra|]. left. now apply Rinv_0_lt_compat. }
    replace (normR r / (normR r / Re)) with Re in S by (field; lra). lra.
Qed.
Lemma fall_evaluation : forall p (s0 : State N) v, falling p -> real_input s0 -> high 5000000 v s0 ->
  exists s a, system p s0 = Ret s /\ real_state (with_air p) s /\ high 5000000 v s /\
    st_acceleration s = finv a /\ - 16 <= vx a /\ st_massflow s = Fin 0.
Proof.
  intros p s0 v D RI OL. assert (NS := high_regular p s0 v D OL). destruct D as [D1 D2 D3 D4 D5].
  destruct OL as ((r & Ex & Hr) & (u & Ev & Hu) & Em).
  destruct (C49_unlimited Hrot p s0 1000 D5 RI NS D4 Em ltac:(lra)) as (s & E & RS & Th).
  assert (Q := eom_equations _ _ _ (proj1 (system_eom _ _ _) E)).
  assert (Nz := high_nonzero r Hr). assert (Hn := normR_pos r Nz).
  assert (G : st_gravity_acceleration s = finv (scaleR (- mu0 / normR r ^ 3) r)).
  { destruct (C04_spherical (ph_planet p) Re Re mu0 (1 / 1000) r D1 Nz) as (g & G1 & G2 & _).
    now rewrite (q_gravity _ _ _ Q), (q_position _ _ _ Q), Ex, G1, G2. }
  destruct (no_atmosphere_forces _ _ _ D2 Q) as [Pr Ae].
  assert (Tf : st_thrust_force_body s = finv zeroR).
  { rewrite (q_thrust _ _ _ Q), Th, Pr, (thrust_force_fin _ [] 1 0 D3). apply (f_equal finv).
    unfold full_thrust, scaleR, zeroR. cbn. f_equal; ring. }
  destruct (rp_launch _ D5) as [la Hla]. destruct (r_euler_angles _ _ RS) as [e He].
  exists s, (scaleR (- mu0 / normR r ^ 3) r). split; [exact E|]. split; [exact RS|].
  split. { split; [|split]; [exists r; rewrite (q_position _ _ _ Q); now split|exists u; rewrite (q_velocity _ _ _ Q); now split|rewrite (q_mass _ _ _ Q); exact Em]. }
  split; [|split].
  - rewrite (q_acceleration _ _ _ Q), G, (q_vehicle_acceleration _ _ _ Q), Ae, Tf, (q_mass _ _ _ Q), Em, Hla, He,
      (inertial_to_body_real Hrot), transpose_fin, vadd_fin, vdiv_fin, mulv_fin, vadd_fin by lra.
    apply (f_equal finv). unfold addR, scaleR, mulvR, dotR, zeroR. cbn [vx vy vz]. f_equal; ring.
  - assert (Sq := normR_sq r). assert (L : vx r <= normR r).
    { destruct r as [x y z]. unfold dotR in Sq. cbn [vx vy vz] in *. apply Rnot_lt_le. intros X.
      assert (normR (V3 x y z) * normR (V3 x y z) < x * x) by (apply Rmult_le_0_lt_compat; lra).
      assert (0 <= y * y) by apply Rle_0_sqr. assert (0 <= z * z) by apply Rle_0_sqr. lra. }
    unfold scaleR. cbn [vx]. 
    assert (P3 : 0 < normR r ^ 3) by now apply pow_lt.
    apply Rmult_le_reg_r with (normR r ^ 3); [exact P3|].
    replace (- mu0 / normR r ^ 3 * vx r * normR r ^ 3) with (- mu0 * vx r) by (field; lra).
    assert (A1 : mu0 * vx r <= mu0 * normR r) by (apply Rmult_le_compat_l; [unfold mu0; lra|exact L]).
    assert (A2 : 25000000000000 <= normR r * normR r).
    { replace 25000000000000 with (5000000 * 5000000) by ring. apply Rmult_le_compat; lra. }
    assert (A3 : 25000000000000 * normR r <= normR r * normR r * normR r) by (apply Rmult_le_compat_r; lra).
    assert (E3 : normR r ^ 3 = normR r * normR r * normR r) by ring. rewrite E3. unfold mu0 in *. lra.
  - rewrite (q_massflow _ _ _ Q), Th, (massflow_fin _ [] 1 D3); [|constructor]. apply (f_equal Fin). unfold full_flow. cbn. ring.
Qed.

(** Increments of one second. *)
Definition slow (u : vec7 N) : Prop := exists p q, u = V7 (N := N) (finv p) (finv q) (Fin 0) /\ - 1100 <= vx p /\ - 16 <= vx q.
Lemma slow_zero : slow v7_zero.
Proof. exists zeroR, zeroR. split; [reflexivity|]. unfold zeroR. cbn [vx]. lra. Qed.
Lemma slow_sum : forall c0 c1 c2 c3 k0 k1 k2 k3, slow k0 -> slow k1 -> slow k2 -> slow k3 ->
  0 <= c0 -> 0 <= c1 -> 0 <= c2 -> 0 <= c3 -> c0 + c1 + c2 + c3 <= 1 ->
  slow (sm [Fin c0; Fin c1; Fin c2; Fin c3] [k0; k1; k2; k3]).
Proof.
  intros c0 c1 c2 c3 k0 k1 k2 k3 (p0 & q0 & -> & A0 & B0) (p1 & q1 & -> & A1 & B1) (p2 & q2 & -> & A2 & B2) (p3 & q3 & -> & A3 & B3) H0 H1 H2 H3 H4.
  exists (addR (addR (addR (scaleR c0 p0) (scaleR c1 p1)) (scaleR c2 p2)) (scaleR c3 p3)),
    (addR (addR (addR (scaleR c0 q0) (scaleR c1 q1)) (scaleR c2 q2)) (scaleR c3 q3)). split.
  - unfold rk_sum. cbn [combine map fold_left fst snd]. unfold v7_add, v7_scale, v7_zero. cbn [v7_pos v7_vel v7_mass].
    change (vzero (N := N)) with (finv zeroR). rewrite !vscale_fin, !vadd_fin. f_equal.
    + apply (f_equal finv). unfold addR, zeroR, scaleR. cbn [vx vy vz]. f_equal; ring.
    + apply (f_equal finv). unfold addR, zeroR, scaleR. cbn [vx vy vz]. f_equal; ring.
    + cbn. apply (f_equal Fin). ring.
  - unfold addR, scaleR. cbn [vx].
    assert (M : forall c x m, 0 <= c -> m <= x -> c * m <= c * x) by (intros c x m Hc Hx; now apply Rmult_le_compat_l).
    assert (M0 := M c0 _ _ H0 A0). assert (M1 := M c1 _ _ H1 A1). assert (M2 := M c2 _ _ H2 A2). assert (M3 := M c3 _ _ H3 A3).
    assert (L0 := M c0 _ _ H0 B0). assert (L1 := M c1 _ _ H1 B1). assert (L2 := M c2 _ _ H2 B2). assert (L3 := M c3 _ _ H3 B3). lra.
Qed.

Lemma high_slow : forall lo v (s : State N) t u, high lo v s -> slow u ->
  high (lo - 1100) (v - 16) (from_vec (N := N) t (v7_add (to_primary_vec s) u)).
Proof.
  intros lo v s [t e] u ((r & Er & Hr) & (q & Eq & Hq) & Em) (a & b & -> & Ha & Hb). unfold to_primary_vec, v7_add. cbn [v7_pos v7_vel v7_mass].
  rewrite Er, Eq, Em, !vadd_fin. split; [|split].
  - exists (addR r a). split; [reflexivity|]. unfold addR. cbn [vx]. lra.
  - exists (addR q b). split; [reflexivity|]. unfold addR. cbn [vx]. lra.
  - cbn. apply (f_equal Fin). ring.
Qed.
Lemma high_weaken : forall lo v lo' v' (s : State N), high lo v s -> lo' <= lo -> v' <= v -> high lo' v' s.
Proof.
  intros lo v lo' v' s ((r & Er & Hr) & (q & Eq & Hq) & Em) H1 H2. split; [|split]; [exists r|exists q|exact Em]; split; try assumption; lra.
Qed.
Lemma slow_rates : forall v (d : State N) a, high 5000000 v d -> - 1100 <= v -> st_acceleration d = finv a -> - 16 <= vx a -> st_massflow d = Fin 0 ->
  slow (v7_scale (N := N) (Fin 1) (to_differentials_vector d)).
Proof.
  intros v d a (_ & (u & Eu & Hu) & _) Hv Ea Ha Ef. exists u, a. split; [|split; lra]. unfold to_differentials_vector, v7_scale. cbn [v7_pos v7_vel v7_mass].
  rewrite Eu, Ea, Ef, !vscale_fin. f_equal.
  - apply (f_equal finv). destruct u as [x y z]. unfold scaleR. cbn [vx vy vz]. f_equal; ring.
  - apply (f_equal finv). destruct a as [x y z]. unfold scaleR. cbn [vx vy vz]. f_equal; ring.
  - cbn. apply (f_equal Fin). ring.
Qed.
(** One step of one second. *)
Lemma fall_step : forall p (s : State N) lo v, falling p -> real_state (with_air p) s -> high lo v s -> 5001100 <= lo -> - 1000 <= v ->
  exists s', integrator_step (system p) s (Fin 1) = Ret s' /\ real_state (with_air p) s' /\ high (lo - 1100) (v - 16) s' /\
    st_time_since_event s' = xadd (st_time_since_event s) (Fin 1).
Proof.
  intros p s lo v D RS OL Hlo Hv.
  assert (L := real_lits (rot := rot)). destruct L as (L0 & Lh & L1 & L6 & L3).
  assert (T := r_time _ _ RS). assert (T' := r_time_since_event _ _ RS).
  assert (Y : real7 (to_primary_vec s)) by (destruct RS; split; [|split]; assumption).
  assert (Z := slow_zero).
  assert (Rh : real (Fin 1)) by (eexists; reflexivity).
  assert (A7 : forall u, slow u -> real7 u).
  { intros u (a & b & -> & _). split; [|split]; eexists; reflexivity. }
  assert (W : forall t e u, real t -> real e -> slow u ->
    real_input (from_vec (N := N) (t, e) (v7_add (to_primary_vec s) u)) /\ high (lo - 1100) (v - 16) (from_vec (N := N) (t, e) (v7_add (to_primary_vec s) u))).
  { intros t e u Ht He Hu. split; [|now apply high_slow]. apply input_from_vec; [exact Ht|exact He|].
    apply real7_add; [exact Y|now apply A7]. }
  assert (HW : forall x : State N, high (lo - 1100) (v - 16) x -> high 5000000 (v - 16) x) by (intros x X; apply (high_weaken _ _ _ _ _ X); lra).
  assert (V16 : - 1100 <= v - 16) by lra.
  assert (E0' : n_lit (n := N) 0 0 = Fin 0) by reflexivity.
  assert (E1' : n_lit (n := N) 1 0 = Fin 1) by reflexivity.
  assert (Eh' : n_lit (n := N) 5 (-1) = Fin (1 / 2)) by (apply (f_equal Fin); cbn; lra).
  assert (E6' : (n_div (n := N) (n_lit 1 0) (n_lit 6 0)) = Fin (1 / 6)) by (transitivity (xdiv (Fin 1) (Fin 6)); [reflexivity|rewrite xdiv_fin by lra; reflexivity]).
  assert (E3' : (n_div (n := N) (n_lit 1 0) (n_lit 3 0)) = Fin (1 / 3)) by (transitivity (xdiv (Fin 1) (Fin 3)); [reflexivity|rewrite xdiv_fin by lra; reflexivity]).
  assert (P0 : real_input (point0 s (Fin 1)) /\ high (lo - 1100) (v - 16) (point0 s (Fin 1))).
  { unfold point0. apply W; try (apply real_offset; assumption). rewrite E0'. apply slow_sum; try assumption; lra. }
  destruct (fall_evaluation p _ _ D (proj1 P0) (HW _ (proj2 P0))) as (d0 & a0 & X0 & R0 & O0 & Q0 & B0 & F0). assert (K0 := slow_rates _ _ _ O0 V16 Q0 B0 F0).
  assert (P1 : real_input (point1 s (Fin 1) d0) /\ high (lo - 1100) (v - 16) (point1 s (Fin 1) d0)).
  { unfold point1. apply W; try (apply real_offset; assumption). rewrite E0', Eh'. apply slow_sum; try assumption; lra. }
  destruct (fall_evaluation p _ _ D (proj1 P1) (HW _ (proj2 P1))) as (d1 & a1 & X1 & R1 & O1 & Q1 & B1 & F1). assert (K1 := slow_rates _ _ _ O1 V16 Q1 B1 F1).
  assert (P2 : real_input (point2 s (Fin 1) d0 d1) /\ high (lo - 1100) (v - 16) (point2 s (Fin 1) d0 d1)).
  { unfold point2. apply W; try (apply real_offset; assumption). rewrite E0', Eh'. apply slow_sum; try assumption; lra. }
  destruct (fall_evaluation p _ _ D (proj1 P2) (HW _ (proj2 P2))) as (d2 & a2 & X2 & R2 & O2 & Q2 & B2 & F2). assert (K2 := slow_rates _ _ _ O2 V16 Q2 B2 F2).
  assert (P3 : real_input (point3 s (Fin 1) d0 d1 d2) /\ high (lo - 1100) (v - 16) (point3 s (Fin 1) d0 d1 d2)).
  { unfold point3. apply W; try (apply real_offset; assumption). rewrite E0', E1'. apply slow_sum; try assumption; lra. }
  destruct (fall_evaluation p _ _ D (proj1 P3) (HW _ (proj2 P3))) as (d3 & a3 & X3 & R3 & O3 & Q3 & B3 & F3). assert (K3 := slow_rates _ _ _ O3 V16 Q3 B3 F3).
  assert (P4 : real_input (point4 s (Fin 1) d0 d1 d2 d3) /\ high (lo - 1100) (v - 16) (point4 s (Fin 1) d0 d1 d2 d3)).
  { unfold point4. apply W.
    - destruct T as [a ->]. eexists; reflexivity.
    - destruct T' as [a ->]. eexists; reflexivity.
    - rewrite E6', E3'. apply slow_sum; try assumption; lra. }
  destruct (fall_evaluation p _ _ D (proj1 P4) (HW _ (proj2 P4))) as (d4 & a4 & X4 & R4 & O4 & Q4 & B4 & F4).
  exists d4. rewrite integrator_step_points, X0. cbn [bind]. rewrite X1. cbn [bind]. rewrite X2. cbn [bind]. rewrite X3. cbn [bind].
  split; [exact X4|]. split; [exact R4|]. apply system_eom in X4. split.
  - destruct P4 as [_ ((r & Er & Hr) & (u & Eu & Hu) & Em)]. split; [|split].
    + exists r. rewrite (e_position _ _ _ X4). now split.
    + exists u. rewrite (e_velocity _ _ _ X4). now split.
    + now rewrite (e_mass _ _ _ X4).
  - rewrite (e_time_since_event _ _ _ X4). reflexivity.
Qed.
(** A phase of one second. *)
Lemma fall_second : forall (p : Phase N) lo v, falling p -> real_input (ph_state p) -> high lo v (ph_state p) -> 5001100 <= lo -> - 1000 <= v ->
  ph_stepsize p = Fin 1 -> ph_ended p = false -> ph_end_criterion p = (TimeSinceEvent, Fin 1) -> st_time_since_event (ph_state p) = Fin 0 ->
  exists s q, run 1 p = ([s], Finished q) /\ ph_state q = s /\ same_parameters p q /\ real_state (with_air p) s /\ high (lo - 1100) (v - 16) s.
Proof.
  intros p lo v D RI OL Hlo Hv Hh He Hc Ht.
  destruct (fall_evaluation p (ph_state p) v D RI) as (s0 & a & X & RS & _); [apply (high_weaken _ _ _ _ _ OL); lra|].
  assert (OL0 : high lo v s0 /\ st_time_since_event s0 = Fin 0).
  { apply system_eom in X. destruct OL as ((r & Er & Hr) & (u & Eu & Hu) & Em). split; [split; [|split]|].
    + exists r. rewrite (e_position _ _ _ X). now split.
    + exists u. rewrite (e_velocity _ _ _ X). now split.
    + now rewrite (e_mass _ _ _ X).
    + now rewrite (e_time_since_event _ _ _ X). }
  destruct OL0 as [OL0 Ht0].
  destruct (fall_step p s0 lo v D RS OL0 Hlo Hv) as (s & Y & RS' & OL' & Ht'). rewrite Ht0 in Ht'.
  exists s, (set_ph_state (set_ph_ended (set_ph_state p s0) true) s).
  split; [|split; [reflexivity|split; [repeat split|split; assumption]]].
  unfold run. rewrite X. unfold run_loop. change (ph_ended (set_ph_state p s0)) with (ph_ended p). rewrite He.
  assert (St : step (set_ph_state p s0) = Ret (set_ph_state (set_ph_ended (set_ph_state p s0) true) s)).
  { unfold step. change (ph_ended (set_ph_state p s0)) with (ph_ended p). rewrite He.
    change (ph_stepsize (set_ph_state p s0)) with (ph_stepsize p). rewrite Hh.
    change (integrator_step (fun x => system (set_ph_state p s0) x) (ph_state (set_ph_state p s0)) (Fin 1)) with (integrator_step (system p) s0 (Fin 1)).
    rewrite Y. cbn [bind]. change (ph_end_criterion (set_ph_state p s0)) with (ph_end_criterion p). rewrite Hc. cbn [fst snd get_value]. rewrite Ht'.
    match goal with |- (if ?b then _ else _) = _ => assert (Bt : b = true) end; [|rewrite Bt; reflexivity].
    xrs. cbn [n_lit XR]. unfold xlit. cbn [xltb]. apply Rltb_true. replace (0 + 1 - 1) with 0 by ring. rewrite Rabs_R0. cbn. lra. }
  rewrite St. reflexivity.
Qed.

(** The mission: dropped at the equator of the spinning sphere, with an event after one second. *)
Definition fall_for (t : R) : PhaseConfig N :=
  mkPhaseConfig (N := N) (Some (mkInitConfig (N := N) (Fin 0) (Fin 0) (Fin 90) (Fin 0)))
    (Some (mkVehicleConfig (N := N) (Some (Fin 1000)) None None None None None None)) None
    (Some (Custom (N := N) (Fin Re) (Fin Re) (Fin mu0, Fin 0, Fin 0, Fin 0) (Fin (1 / 1000))))
    None None None (Some (TimeSinceEvent, Fin t)).
Definition fall_1 : PhaseConfig N := fall_for 1.
Definition fall_2 : PhaseConfig N := mkPhaseConfig (N := N) None None None None None None None None.
Lemma fall_real_1 : forall t, real_config (fall_for t).
Proof.
  intros t. constructor; cbn [fall_for pc_init pc_vehicle pc_steering pc_planet_model pc_atmosphere pc_end_criterion opt]; try exact I.
  - exists 0, 0, 90, 0. split; [reflexivity|lra].
  - constructor; cbn [vc_structure_mass vc_propellant_mass vc_reference_area vc_drag_coeff vc_lift_coeff vc_side_force_coeff vc_engines opt];
      try exact I. eexists; reflexivity.
  - constructor; unfold Re; lra.
  - eexists; reflexivity.
Qed.
Lemma fall_real_2 : real_config fall_2.
Proof. constructor; exact I. Qed.
Definition fall_site : vec3 R := V3 Re 0 0.
Lemma fall_start : forall t, exists p : Phase N, phase_new None (fall_for t) = Ret p /\ falling (reset p) /\ sound (reset p) /\
  st_position (ph_state (reset p)) = finv fall_site /\ st_velocity (ph_state (reset p)) = finv (V3 0 6000 0) /\
  st_mass (ph_state (reset p)) = Fin 1000 /\
  ph_stepsize (reset p) = Fin 1 /\ ph_base_stepsize (reset p) = Fin 1 /\ ph_end_criterion (reset p) = (TimeSinceEvent, Fin t) /\
  ~ In MachNumber (steering_variables (ph_steering (reset p))).
Proof.
  intros t.
  set (i := mkInitConfig (N := N) (Fin 0) (Fin 0) (Fin 90) (Fin 0)).
  exists (phase_init (configured default_phase (fall_for t)) i). split; [now rewrite phase_new_configured|].
  assert (S := first_sound (fall_for t) i eq_refl (fall_real_1 t)).
  assert (HR : radii (ph_planet (configured default_phase (fall_for t))) Re Re) by (repeat split; unfold Re; lra).
  destruct (phase_init_fin (configured default_phase (fall_for t)) Re Re (1 / 1000) 0 0 90 (Fin 0) HR eq_refl ltac:(lra)) as (A1 & A2 & A3).
  fold i in A1, A2, A3.
  set (q := phase_init (configured default_phase (fall_for t)) i) in *.
  assert (D0 : deg 0 = 0) by (unfold deg; field).
  assert (Z : atan (Re / Re * (Re / Re) * (Re / Re * (Re / Re)) * tan (deg 0)) = 0) by (rewrite D0, tan_0, Rmult_0_r; apply atan_0).
  rewrite Z, D0, sin_0, cos_0 in A1, A2.
  assert (E : scaleR (Re / sqrt (1 + (Re / Re * (Re / Re) - 1) * (0 * 0))) (V3 (1 * 1) (1 * 0) 0) = fall_site).
  { replace (1 + (Re / Re * (Re / Re) - 1) * (0 * 0)) with 1 by ring. rewrite sqrt_1. unfold scaleR, fall_site. cbn [vx vy vz]. f_equal; field. }
  rewrite E in A1, A2.
  split; [|split; [exact S|split; [|split; [|split; [|split; [|split; [|split]]]]]]].
  - constructor; try reflexivity. apply sound_real_phase; [exact S|].
    intros [X|X]; [|discriminate]. cbn in X. destruct X as [X|[X|[X|[]]]]; discriminate.
  - now rewrite DemoExact.reset_position.
  - rewrite DemoExact.reset_velocity, A2. apply (f_equal finv). unfold crossR, fall_site, Re. cbn [vx vy vz]. f_equal; field.
  - change (Fin (0 + 1000) = Fin 1000). apply (f_equal Fin). ring.
  - reflexivity.
  - reflexivity.
  - reflexivity.
  - intros X. cbn in X. destruct X as [X|[X|[X|[]]]]; discriminate.
Qed.
(** A phase entered with nothing configured. *)
Lemma next_fields : forall q : Phase N, 
  ph_vehicle (configured q fall_2) = ph_vehicle q /\ ph_steering (configured q fall_2) = ph_steering q /\
  ph_atmosphere (configured q fall_2) = ph_atmosphere q /\ ph_planet (configured q fall_2) = ph_planet q /\
  ph_launch (configured q fall_2) = ph_launch q /\ ph_max_acceleration (configured q fall_2) = ph_max_acceleration q /\
  ph_base_stepsize (configured q fall_2) = ph_base_stepsize q /\ ph_end_criterion (configured q fall_2) = ph_end_criterion q /\
  st_mass (ph_state (configured q fall_2)) = st_mass (ph_state q).
Proof. intros q. repeat split. Qed.
Lemma init_variables : forall (st : Steering N) e, steering_variables (steering_init st e) = steering_variables st.
Proof. intros st e. reflexivity. Qed.
Lemma reset_fields : forall p : Phase N,
  ph_vehicle (reset p) = ph_vehicle p /\ steering_variables (ph_steering (reset p)) = steering_variables (ph_steering p) /\
  ph_atmosphere (reset p) = ph_atmosphere p /\ ph_planet (reset p) = ph_planet p /\
  ph_max_acceleration (reset p) = ph_max_acceleration p /\ ph_stepsize (reset p) = ph_base_stepsize p /\
  ph_ended (reset p) = false /\ ph_end_criterion (reset p) = ph_end_criterion p /\ st_time_since_event (ph_state (reset p)) = n_lit 0 0 /\
  st_mass (ph_state (reset p)) = st_mass (ph_state p).
Proof. intros p. repeat split. Qed.
Lemma fall_next : forall (p q : Phase N), falling p -> sound p -> same_parameters p q -> real_state (with_air p) (ph_state q) ->
  ph_end_criterion p = (TimeSinceEvent, Fin 1) -> ph_base_stepsize p = Fin 1 -> ~ In MachNumber (steering_variables (ph_steering p)) ->
  exists p2, phase_new (Some q) fall_2 = Ret p2 /\ falling (reset p2) /\ real_input (ph_state (reset p2)) /\
    st_position (ph_state (reset p2)) = st_position (ph_state q) /\ st_velocity (ph_state (reset p2)) = st_velocity (ph_state q) /\
    st_mass (ph_state (reset p2)) = st_mass (ph_state q) /\
    ph_stepsize (reset p2) = Fin 1 /\ ph_ended (reset p2) = false /\ ph_end_criterion (reset p2) = (TimeSinceEvent, Fin 1) /\
    st_time_since_event (ph_state (reset p2)) = Fin 0.
Proof.
  intros p q D (PP & L & _ & _) (E1 & E2 & E3 & E4 & E5 & E6 & E7 & E8) RS Hc Hh Hm.
  assert (Hn : phase_new (Some q) fall_2 = Ret (configured q fall_2)) by (now rewrite phase_new_configured).
  exists (configured q fall_2). split; [exact Hn|].
  destruct (new_state q fall_2 _ Hn) as [Q1 Q2].
  assert (PQ : real_params q).
  { destruct PP as [H1 H2 H3 H4 H5 H6 H7 H8 H9 H10 H11 H12].
    constructor; rewrite ?E1, ?E2, ?E3, ?E4, ?E8; assumption. }
  assert (S : sound (reset (configured q fall_2))).
  { apply sound_phase.
    + apply configured_params; [exact PQ|exact fall_real_2].
    + cbn [configured ph_launch]. rewrite E5. exact L.
    + apply configured_input; [exact PQ|exact fall_real_2|exact (real_state_input _ _ RS)|exact (r_propellant_mass _ _ RS)].
    + destruct (configured_state q fall_2) as [m ->]. exact (r_propellant_mass _ _ RS). }
  destruct (next_fields q) as (F1 & F2 & F3 & F4 & F5 & F6 & F7 & F8 & F9).
  destruct (reset_fields (configured q fall_2)) as (G1 & G2 & G3 & G4 & G5 & G6 & G7 & G8 & G9 & G10).
  destruct D as [D1 D2 D3 D4 D5].
  split; [|split; [exact (proj1 (proj2 (proj2 S)))|]].
  - constructor.
    + unfold real_planet in *. now rewrite G4, F4, E4.
    + now rewrite G3, F3, E3.
    + now rewrite G1, F1, E1.
    + now rewrite G5, F6, E6.
    + apply sound_real_phase; [exact S|]. intros [X|X].
      * exfalso. rewrite G2, F2, E2 in X. exact (Hm X).
      * exfalso. rewrite G8, F8, E8, Hc in X. discriminate.
  - split; [exact Q1|]. split; [exact Q2|]. split; [now rewrite G10, F9|]. split; [now rewrite G6, F7, E7|]. split; [exact G7|].
    split; [now rewrite G8, F8, E8|exact G9].
Qed.
Lemma two_phases : forall fuel (c1 c2 : PhaseConfig N) p1 h1 q1 p2 h2 q2, phase_new None c1 = Ret p1 -> run fuel (reset p1) = (h1, Finished q1) ->
  phase_new (Some q1) c2 = Ret p2 -> run fuel (reset p2) = (h2, Finished q2) ->
  simulate fuel [c1; c2] = (EPhase 1 :: map ERecord h1 ++ EPhase 2 :: map ERecord h2 ++ [], Finished q2).
Proof.
  intros fuel c1 c2 p1 h1 q1 p2 h2 q2 H1 R1 H2 R2. unfold simulate. cbn [sim_loop]. rewrite H1, R1, H2, R2. reflexivity.
Qed.
(** Two seconds of flight over the equator, with an event after the first: the second record is in the
    plane of the first. *)
Example C59_nonvacuous : exists s' s r' v' r v, writes [fall_1; fall_2] 2 (Some s') s /\
  engines_in_effect [fall_1; fall_2] 2 = [] /\ atmosphere_in_effect [fall_1; fall_2] 2 = false /\
  planet_data (planet_in_effect [fall_1; fall_2] 2) Re Re mu0 0 0 0 (1 / 1000) /\
  st_position s' = finv r' /\ st_velocity s' = finv v' /\ st_position s = finv r /\ st_velocity s = finv v /\
  dotR (crossR r' v') r' = 0 /\ dotR (crossR r' v') v' = 0 /\ r' <> zeroR /\ r <> zeroR.
Proof.
  destruct (fall_start 1) as (p1 & Hn & D1 & S1 & P1 & V1 & M1 & T1 & B1 & C1 & N1).
  assert (O1 : high 6000000 0 (ph_state (reset p1))).
  { split; [|split]; [exists fall_site; split; [exact P1|]|exists (V3 0 6000 0); split; [exact V1|]|exact M1]; unfold fall_site, Re; cbn [vx]; lra. }
  destruct (fall_second (reset p1) 6000000 0 D1 (proj1 (proj2 (proj2 S1))) O1 ltac:(lra) ltac:(lra) T1 eq_refl C1 eq_refl) as (s1 & q1 & R1 & Q1 & K1 & RS1 & H1).
  rewrite <- Q1 in RS1.
  destruct (fall_next (reset p1) q1 D1 S1 K1 RS1 C1 B1 N1) as (p2 & Hn2 & D2 & I2 & P2 & V2 & M2 & T2 & E2 & C2 & Z2).
  assert (O2 : high (6000000 - 1100) (0 - 16) (ph_state (reset p2))).
  { unfold high. rewrite P2, V2, M2, Q1. exact H1. }
  destruct (fall_second (reset p2) (6000000 - 1100) (0 - 16) D2 I2 O2 ltac:(lra) ltac:(lra) T2 E2 C2 Z2) as (s2 & q2 & R2 & Q2 & K2 & RS2 & H2).
  assert (Sm := two_phases 1 fall_1 fall_2 p1 [s1] q1 p2 [s2] q2 Hn R1 Hn2 R2).
  destruct H1 as ((r' & Er' & Hr') & (v' & Ev' & _) & _), H2 as ((r & Er & Hr) & (v & Ev & _) & _).
  exists s1, s2, r', v', r, v. split; [|split; [reflexivity|split; [reflexivity|split; [apply data_custom|]]]].
  - exists 1%nat. eexists. eexists. exists [EPhase 1; ERecord s1], [s2], []. split; [exact Sm|]. split; [|split; [now left|exists [EPhase 1]; reflexivity]].
    split; [reflexivity|now left].
  - split; [exact Er'|]. split; [exact Ev'|]. split; [exact Er|]. split; [exact Ev|].
    split; [|split; [|split; apply high_nonzero; lra]].
    + destruct r' as [a b c], v' as [a' b' c']. unfold dotR, crossR. cbn [vx vy vz]. ring.
    + destruct r' as [a b c], v' as [a' b' c']. unfold dotR, crossR. cbn [vx vy vz]. ring.
Qed.
End Exact.
