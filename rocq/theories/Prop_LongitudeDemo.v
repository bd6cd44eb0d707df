(** * C56: a mission that meets the hypotheses of [C56_longitude] *)
From Coq Require Import ZArith List Reals Lra Lia Bool.
From Verif Require Import Num Constants State Tables Config Planet Atmosphere Transformations
  Steering Vehicle RungeKutta Phase Simulation XR XRFacts SpecReal SystemFacts RKFacts RunFacts PhaseNew
  Prop_Run SystemTotal TablesFacts Prop_Tables Prop_Panics Prop_Time Prop_Planet Prop_Gravity Prop_Frames Prop_Atmosphere Prop_Interp Prop_Aero
  Prop_Throttle Prop_Steering Prop_Limit Prop_Real Prop_RealSim Prop_TimeForward Prop_Coast DemoExact Prop_Longitude.
Import ListNotations.
Local Open Scope R_scope.

Section Exact.
Context {rot : mat3 xr -> mat3 xr}.
Notation N := (XR rot).
Local Notation sm := (rk_sum v7_zero v7_add v7_scale (N := N)).

(** A vehicle without engines in the vacuum around a spinning sphere without gravity drifts on the
    tangent of its launch site. *)
Section Drift.
Variables (r0 v : vec3 R) (Re w m : R).
Hypothesis HRe : 0 < Re.
Hypothesis Hm : 0 < m.
Hypothesis Hr0 : 0 < dotR r0 r0.
Hypothesis Hv : dotR r0 v = 0.
Hypothesis Hrot : rot_contract rot.

Record drifting (p : Phase N) : Prop := {
  dr_planet : real_planet (ph_planet p) Re Re 0 0 0 0 w;
  dr_air : at_model (ph_atmosphere p) = NoAtmosphere;
  dr_engines : engines_are (ph_vehicle p) [];
  dr_limit : ph_max_acceleration p = PInf;
  dr_phase : real_phase p;
  dr_criterion : ph_end_criterion p = (TimeSinceEvent, Fin (5 / 2)) }.
Definition on_line (s : State N) : Prop :=
  (exists x, st_position s = finv (addR r0 (scaleR x v))) /\ st_velocity s = finv v /\ st_mass s = Fin m.

Lemma line_nonzero : forall x, addR r0 (scaleR x v) <> zeroR.
Proof.
  intros x E. assert (D : dotR (addR r0 (scaleR x v)) r0 = 0) by (rewrite E; unfold dotR, zeroR; cbn [vx vy vz]; ring).
  destruct r0 as [a b c], v as [d e f]. unfold dotR, addR, scaleR in *. cbn [vx vy vz] in *.
  assert (X : x * (a * d + b * e + c * f) = 0) by (rewrite Hv; ring). lra.
Qed.
Lemma line_regular : forall p s, drifting p -> on_line s -> ~ singular p s.
Proof.
  intros p s D ((x & Ex) & _ & Em) [S|[S|(Re' & Rp' & (E1 & E2 & P1 & P2) & S)]].
  - rewrite Ex in S. apply (line_nonzero x). destruct (addR r0 (scaleR x v)) as [a b c].
    unfold finv, zeroR in *. cbn [vx vy vz] in S. injection S as -> -> ->. reflexivity.
  - rewrite Em in S. injection S as S. lra.
  - assert (P := dr_planet _ D). rewrite P in E1, E2. injection E1 as <-. injection E2 as <-.
    assert (HR : radii (ph_planet p) Re Re) by (rewrite P; repeat split; assumption).
    rewrite Ex, (altitude_fin _ Re Re _ HR (line_nonzero x)) in S. injection S as S.
    set (r := addR r0 (scaleR x v)) in *. assert (Hn := normR_pos r (line_nonzero x)).
    assert (HL : level Re Re r = (normR r / Re) * (normR r / Re)).
    { unfold level. assert (Q := normR_sq r). unfold dotR in Q.
      replace (normR r / Re * (normR r / Re)) with ((normR r * normR r) / (Re * Re)) by (field; lra). rewrite Q. field. lra. }
    rewrite HL, sqrt_square in S. 2: { apply Rmult_le_pos; [lra|]. left. now apply Rinv_0_lt_compat. }
    replace (normR r / (normR r / Re)) with Re in S by (field; lra). lra.
Qed.
Lemma drift_evaluation : forall p s0, drifting p -> real_input s0 -> on_line s0 ->
  exists s, system p s0 = Ret s /\ real_state (with_air p) s /\ on_line s /\
    st_acceleration s = finv zeroR /\ st_massflow s = Fin 0.
Proof.
  intros p s0 D RI OL. assert (NS := line_regular p s0 D OL). destruct D as [D1 D2 D3 D4 D5 D6].
  destruct OL as ((x & Ex) & Ev & Em).
  destruct (C49_unlimited Hrot p s0 m D5 RI NS D4 Em Hm) as (s & E & RS & Th).
  exists s. split; [exact E|]. split; [exact RS|]. assert (Q := eom_equations _ _ _ (proj1 (system_eom _ _ _) E)).
  split. { split; [|split]; [exists x; rewrite (q_position _ _ _ Q); exact Ex|rewrite (q_velocity _ _ _ Q); exact Ev|rewrite (q_mass _ _ _ Q); exact Em]. }
  split.
  - assert (G : st_gravity_acceleration s = finv zeroR).
    { rewrite (q_gravity _ _ _ Q), (q_position _ _ _ Q), Ex, (gravity_real _ _ _ _ _ _ _ _ _ D1 (line_nonzero x)).
      apply (f_equal finv). assert (Hn := normR_pos _ (line_nonzero x)). unfold grav, pot_r, pot_z, zeroR. f_equal; field; lra. }
    assert (Pr : st_pressure s = Fin 0).
    { assert (B := q_pressure _ _ _ Q). unfold at_pressure in B. rewrite D2 in B. injection B as <-. reflexivity. }
    assert (De : st_density s = Fin 0).
    { assert (B := q_density _ _ _ Q). unfold at_density in B. rewrite D2 in B. injection B as <-. reflexivity. }
    assert (Ae : st_aero_force_body s = finv zeroR).
    { destruct (rp_area _ D5) as [S HS].
      apply (vacuum_aero (ph_vehicle p) (before_aero s0 s) _ S (q_aero_force _ _ _ Q)); [|exact HS].
      change (st_dynamic_pressure s = Fin 0). rewrite (q_dynamic_pressure _ _ _ Q). unfold at_dynamic_pressure. rewrite De.
      destruct (r_velocity_atmosphere _ _ RS) as [b ->]. rewrite norm_fin. xrs. apply (f_equal Fin). ring. }
    assert (Tf : st_thrust_force_body s = finv zeroR).
    { rewrite (q_thrust _ _ _ Q), Th, Pr, (thrust_force_fin _ [] 1 0 D3). apply (f_equal finv).
      unfold full_thrust, scaleR, zeroR. cbn. f_equal; ring. }
    destruct (rp_launch _ D5) as [la Hla]. destruct (r_euler_angles _ _ RS) as [e He].
    rewrite (q_acceleration _ _ _ Q), G, (q_vehicle_acceleration _ _ _ Q), Ae, Tf, (q_mass _ _ _ Q), Em, Hla, He,
      (inertial_to_body_real Hrot), transpose_fin, vadd_fin, vdiv_fin, mulv_fin, vadd_fin by lra.
    apply (f_equal finv). unfold addR, scaleR, mulvR, dotR, zeroR. cbn [vx vy vz]. f_equal; ring.
  - rewrite (q_massflow _ _ _ Q), Th, (massflow_fin _ [] 1 D3); [|constructor]. apply (f_equal Fin). unfold full_flow. cbn. ring.
Qed.

Definition along (u : vec7 N) : Prop := exists y, u = V7 (N := N) (finv (scaleR y v)) (finv zeroR) (Fin 0).
Lemma along_zero : along v7_zero.
Proof. exists 0. unfold v7_zero. f_equal. change (finv zeroR = finv (scaleR 0 v)). apply (f_equal finv). unfold scaleR, zeroR. f_equal; ring. Qed.
Lemma along_add : forall a b, along a -> along b -> along (v7_add a b).
Proof.
  intros a b [y ->] [z ->]. exists (y + z). unfold v7_add. cbn [v7_pos v7_vel v7_mass]. rewrite !vadd_fin. f_equal.
  - apply (f_equal finv). unfold addR, scaleR. cbn [vx vy vz]. f_equal; ring.
  - apply (f_equal finv). unfold addR, zeroR. cbn [vx vy vz]. f_equal; ring.
  - xrs. apply (f_equal Fin). ring.
Qed.
Lemma along_scale : forall k a, real k -> along a -> along (v7_scale (N := N) k a).
Proof.
  intros k a [q ->] [y ->]. exists (q * y). unfold v7_scale. cbn [v7_pos v7_vel v7_mass]. rewrite !vscale_fin. f_equal.
  - apply (f_equal finv). unfold scaleR. cbn [vx vy vz]. f_equal; ring.
  - apply (f_equal finv). unfold scaleR, zeroR. cbn [vx vy vz]. f_equal; ring.
  - xrs. apply (f_equal Fin). ring.
Qed.
Lemma along_sum : forall cs ks, Forall real cs -> Forall along ks -> along (sm cs ks).
Proof.
  intros cs ks Hc Hk. unfold rk_sum. generalize along_zero. generalize (@v7_zero N) as z. revert ks Hk.
  induction Hc as [|c cs A _ IH]; intros ks Hk z Hz; [exact Hz|].
  destruct Hk as [|k ks B Hk]; [exact Hz|]. cbn [combine map fold_left fst snd].
  apply IH; [exact Hk|]. apply along_add; [exact Hz|]. now apply along_scale.
Qed.
Lemma line_along : forall (s : State N) t u, on_line s -> along u -> on_line (from_vec (N := N) t (v7_add (to_primary_vec s) u)).
Proof.
  intros s [t e] u ((x & Ex) & Ev & Em) [y ->]. unfold to_primary_vec, v7_add. cbn [v7_pos v7_vel v7_mass].
  rewrite Ex, Ev, Em, !vadd_fin. split; [|split].
  - exists (x + y). cbn [from_vec fst snd]. cbn [set_mass set_velocity set_position set_time_since_event set_time st_position v7_pos].
    apply (f_equal finv). unfold addR, scaleR. cbn [vx vy vz]. f_equal; ring.
  - cbn [from_vec fst snd]. cbn [set_mass set_velocity set_position set_time_since_event set_time st_velocity v7_vel].
    apply (f_equal finv). unfold addR, zeroR. destruct v as [va vb vc]. cbn [vx vy vz]. f_equal; ring.
  - cbn [from_vec fst snd]. cbn [set_mass set_velocity set_position set_time_since_event set_time st_mass v7_mass].
    xrs. apply (f_equal Fin). ring.
Qed.
Ltac all_ := repeat first [assumption | apply Forall_nil | apply Forall_cons].

(** All points of a step lie on the line. *)
Lemma drift_visits : forall p (s : State N) (h : N), drifting p -> real_state (with_air p) s -> on_line s -> real h ->
  (forall x, visits (system p) s h x -> real_input x /\ on_line x) /\
  (forall s', integrator_step (system p) s h = Ret s' -> real_state (with_air p) s' /\ on_line s').
Proof.
  intros p s h D RS OL Rh.
  assert (L := real_lits (rot := rot)). destruct L as (L0 & Lh & L1 & L6 & L3).
  assert (T := r_time _ _ RS). assert (T' := r_time_since_event _ _ RS).
  assert (Y : real7 (to_primary_vec s)) by (destruct RS; split; [|split]; assumption).
  assert (Z := along_zero).
  assert (K : forall d, on_line d -> st_acceleration d = finv zeroR -> st_massflow d = Fin 0 ->
    along (v7_scale (N := N) h (to_differentials_vector d))).
  { intros d (_ & Ev & _) Ea Ef. apply along_scale; [exact Rh|]. exists 1. unfold to_differentials_vector. rewrite Ev, Ea, Ef. f_equal.
    apply (f_equal finv). unfold scaleR. destruct v as [va vb vc]. cbn [vx vy vz]. f_equal; ring. }
  assert (A7 : forall u, along u -> real7 u).
  { intros u [y ->]. split; [|split]; eexists; reflexivity. }
  assert (W : forall t e u, real t -> real e -> along u -> 
    real_input (from_vec (N := N) (t, e) (v7_add (to_primary_vec s) u)) /\ on_line (from_vec (N := N) (t, e) (v7_add (to_primary_vec s) u))).
  { intros t e u Ht He Hu. split; [|now apply line_along]. apply input_from_vec; [exact Ht|exact He|].
    apply real7_add; [exact Y|now apply A7]. }
  assert (P0 : real_input (point0 s h) /\ on_line (point0 s h)).
  { unfold point0. apply W; try (apply real_offset; assumption). apply along_sum; all_. }
  destruct (drift_evaluation p (point0 s h) D (proj1 P0) (proj2 P0)) as (d0 & E0 & R0 & O0 & Q0 & F0). assert (K0 := K _ O0 Q0 F0).
  assert (P1 : real_input (point1 s h d0) /\ on_line (point1 s h d0)).
  { unfold point1. apply W; try (apply real_offset; assumption). apply along_sum; all_. }
  destruct (drift_evaluation p (point1 s h d0) D (proj1 P1) (proj2 P1)) as (d1 & E1 & R1 & O1 & Q1 & F1). assert (K1 := K _ O1 Q1 F1).
  assert (P2 : real_input (point2 s h d0 d1) /\ on_line (point2 s h d0 d1)).
  { unfold point2. apply W; try (apply real_offset; assumption). apply along_sum; all_. }
  destruct (drift_evaluation p (point2 s h d0 d1) D (proj1 P2) (proj2 P2)) as (d2 & E2 & R2 & O2 & Q2 & F2). assert (K2 := K _ O2 Q2 F2).
  assert (P3 : real_input (point3 s h d0 d1 d2) /\ on_line (point3 s h d0 d1 d2)).
  { unfold point3. apply W; try (apply real_offset; assumption). apply along_sum; all_. }
  destruct (drift_evaluation p (point3 s h d0 d1 d2) D (proj1 P3) (proj2 P3)) as (d3 & E3 & R3 & O3 & Q3 & F3). assert (K3 := K _ O3 Q3 F3).
  assert (P4 : real_input (point4 s h d0 d1 d2 d3) /\ on_line (point4 s h d0 d1 d2 d3)).
  { unfold point4. apply W.
    - destruct T as [a ->], Rh as [b ->]. eexists; reflexivity.
    - destruct T' as [a ->], Rh as [b ->]. eexists; reflexivity.
    - apply along_sum; all_. }
  split.
  - unfold visits. rewrite E0. intros x [->|(x0 & X0 & C)]; [exact P0|]. injection X0 as <-. rewrite E1 in C.
    destruct C as [->|(x1 & X1 & C)]; [exact P1|]. injection X1 as <-. rewrite E2 in C.
    destruct C as [->|(x2 & X2 & C)]; [exact P2|]. injection X2 as <-. rewrite E3 in C.
    destruct C as [->|(x3 & X3 & ->)]; [exact P3|]. injection X3 as <-. exact P4.
  - intros s'. rewrite integrator_step_points, E0. cbn [bind]. rewrite E1. cbn [bind]. rewrite E2. cbn [bind]. rewrite E3. cbn [bind].
    destruct (drift_evaluation p (point4 s h d0 d1 d2 d3) D (proj1 P4) (proj2 P4)) as (d4 & E4 & R4 & O4 & _).
    rewrite E4. intros X. injection X as <-. split; assumption.
Qed.
Lemma drifting_parameters : forall p q : Phase N, same_parameters p q -> drifting p -> drifting q.
Proof.
  intros p q S [D1 D2 D3 D4 D5 D6]. assert (R := real_phase_parameters p q S D5).
  destruct S as (E1 & E2 & E3 & E4 & E5 & E6 & E7 & E8).
  unfold engines_are in *. constructor; rewrite ?E1, ?E3, ?E4, ?E6, ?E8; assumption.
Qed.
Lemma drift_regular : forall p, drifting p -> real_input (ph_state p) -> on_line (ph_state p) -> ph_stepsize p = Fin 1 -> regular p.
Proof.
  intros p D RI OL Eh. split; [|split].
  - split; [exact RI|]. now apply line_regular.
  - intros s0 ps q x Hi Hch Hq En Hx.
    destruct (drift_evaluation p _ D RI OL) as (s & E & RS & O & _). unfold initial in Hi. rewrite E in Hi. injection Hi as <-.
    set (p0 := set_ph_state p s) in *.
    assert (P0 : same_parameters p p0) by repeat split.
    assert (D0 : drifting p0) by now apply (drifting_parameters p).
    destruct (r_time_since_event _ _ RS) as [y0 Ey].
    assert (NSt := clock_not_stalled p0 ps TimeSinceEvent (5 / 2) y0 1 (or_intror eq_refl) Hch (dr_criterion _ D0) Ey Eh).
    specialize (NSt ltac:(lra)).
    assert (G : forall pa l, chain pa l -> drifting pa -> real_state (with_air pa) (ph_state pa) -> on_line (ph_state pa) ->
      real (ph_stepsize pa) -> (forall q, In q (pa :: l) -> ~ stalled q) ->
      forall q, In q (pa :: l) -> ph_ended q = false -> forall x, visits (system q) (ph_state q) (ph_stepsize q) x ->
      real_input x /\ ~ singular q x).
    { clear - HRe Hm Hr0 Hv Hrot. intros pa l Hc. induction Hc as [pa|pa pb l He Hs Hc IH]; intros D RS OL Rh NS q Hq En x Hx.
      - destruct Hq as [<-|[]]. destruct (drift_visits pa _ _ D RS OL Rh) as [V _]. destruct (V x Hx). split; [assumption|].
        now apply line_regular.
      - destruct (drift_visits pa _ _ D RS OL Rh) as [V VS].
        destruct Hq as [<-|Hq].
        + destruct (V x Hx). split; [assumption|]. now apply line_regular.
        + assert (SP := step_parameters _ _ Hs). assert (D' := drifting_parameters _ _ SP D).
          revert Hq. intros Hq. 
          assert (K : real_state (with_air pb) (ph_state pb) /\ on_line (ph_state pb) /\ real (ph_stepsize pb)).
          { rewrite (with_air_parameters _ _ SP).
            destruct (step_cases _ _ Hs) as (_ & s & C & Cs). destruct (VS s C) as [Rs Os].
            destruct Cs as [[_ ->]|[[_ [_ ->]]|[M [O [_ ->]]]]]; [now split|now split|].
            split; [exact RS|]. split; [exact OL|].
            assert (NSa : ~ stalled pa) by (apply NS; now left).
            assert (Ec := dr_criterion _ D).
            destruct (r_time_since_event _ _ RS) as [y Hy]. destruct (r_time_since_event _ _ Rs) as [y' Hy'].
            destruct (Req_dec y' y) as [E|E].
            - exfalso. apply NSa. split; [exact He|]. exists s. split; [exact C|]. split; [exact M|]. split; [exact O|].
              unfold crit. rewrite Ec. cbn [fst get_value]. rewrite Hy, Hy', E. reflexivity.
            - change (real (time_to_go pa (ph_state pa) s)). unfold time_to_go. rewrite Ec. cbn [fst snd get_value].
              rewrite Hy, Hy'. destruct Rh as [h ->].
              eexists. cbn [n_sub n_neg n_mul n_div carrier XR xsub xneg xmul]. apply xdiv_fin. lra. }
          destruct K as (K1 & K2 & K3).
          apply (IH D' K1 K2 K3) with (q := q); try assumption. intros q1 Hq1. apply NS. now right. }
    apply (G p0 ps Hch D0) with (q := q); try assumption.
    exists 1. exact Eh.
  - intros H. exact (rp_mach _ (dr_phase _ D) H).
Qed.
End Drift.

(** The mission: launched at 28 N, 10 E from a sphere of 6000 km radius that spins at 1/1000 rad/s. *)
Definition drift_config : PhaseConfig N :=
  mkPhaseConfig (N := N) (Some (mkInitConfig (N := N) (Fin 28) (Fin 10) (Fin 90) (Fin 0)))
    (Some (mkVehicleConfig (N := N) (Some (Fin 1000)) None None None None None None)) None
    (Some (Custom (N := N) (Fin 6000000) (Fin 6000000) (Fin 0, Fin 0, Fin 0, Fin 0) (Fin (1 / 1000))))
    None None None (Some (TimeSinceEvent, Fin (5 / 2))).
Lemma drift_real : real_config drift_config.
Proof.
  constructor; cbn [drift_config pc_init pc_vehicle pc_steering pc_planet_model pc_atmosphere pc_end_criterion opt]; try exact I.
  - exists 28, 10, 90, 0. split; [reflexivity|lra].
  - constructor; cbn [vc_structure_mass vc_propellant_mass vc_reference_area vc_drag_coeff vc_lift_coeff vc_side_force_coeff vc_engines opt];
      try exact I. eexists; reflexivity.
  - constructor; lra.
  - eexists; reflexivity.
Qed.
Lemma drift_axial : no_longitude drift_config.
Proof. constructor; cbn [drift_config pc_init pc_vehicle pc_steering pc_planet_model pc_atmosphere pc_end_criterion opt]; try exact I.
  - split; [|split]; exact I.
  - reflexivity.
Qed.
Lemma drift_begins_regular : rot_contract rot -> forall p, begins [drift_config] p -> regular p.
Proof.
  intros Hrot p B. destruct (begins_single _ _ B) as [i [Ei ->]]. injection Ei as <-.
  set (i := mkInitConfig (N := N) (Fin 28) (Fin 10) (Fin 90) (Fin 0)) in *.
  assert (S := first_sound drift_config i eq_refl drift_real).
  assert (HR : radii (ph_planet (configured default_phase drift_config)) 6000000 6000000) by (repeat split; lra).
  destruct (phase_init_fin (configured default_phase drift_config) 6000000 6000000 (1 / 1000) 28 10 90 (Fin 0) HR eq_refl ltac:(lra)) as (A1 & A2 & A3).
  fold i in A1, A2, A3.
  set (g := atan _) in *. set (dd := _ / sqrt _) in *. set (r0 := scaleR dd _) in *.
  destruct (site_level 6000000 6000000 g (deg 10) ltac:(lra) ltac:(lra)) as (_ & Hd & HL).
  fold dd in Hd, HL. change (level 6000000 6000000 r0 = 1) in HL.
  assert (P0 : 0 < dotR r0 r0).
  { unfold level in HL. unfold dotR. destruct r0 as [a b c]. cbn [vx vy vz] in *.
    assert (E : a * a + b * b + c * c = 36000000000000).
    { match type of HL with ?l = 1 => replace (a * a + b * b + c * c) with (36000000000000 * l) by field end. rewrite HL. ring. }
    lra. }
  set (q := phase_init (configured default_phase drift_config) i) in *.
  assert (RP : real_phase (reset q)).
  { apply sound_real_phase; [exact S|]. intros [X|X]; [|discriminate]. cbn in X. destruct X as [X|[X|[X|[]]]]; discriminate. }
  destruct S as (_ & _ & RI & _).
  apply (drift_regular r0 (crossR (V3 0 0 (1 / 1000)) r0) 6000000 (1 / 1000) 1000); try assumption; try lra.
  - destruct r0 as [a b c]. unfold dotR, crossR. cbn [vx vy vz]. ring.
  - constructor; try assumption; reflexivity.
  - split; [|split].
    + exists 0. rewrite DemoExact.reset_position, A1. apply (f_equal finv).
      destruct r0 as [a b c]. unfold addR, scaleR. cbn [vx vy vz]. f_equal; ring.
    + rewrite DemoExact.reset_velocity. exact A2.
    + change (Fin (0 + 1000) = Fin 1000). apply (f_equal Fin). ring.
  - reflexivity.
Qed.
(** The mission, and the same mission launched at 100 E. *)
Example ex_longitude : rot_contract rot ->
  exists ev q t ev' q', simulate 5 [drift_config] = (ev, Finished q) /\ st_time (ph_state q) = Fin t /\ Rabs (t - 5 / 2) <= 1 / 1000 /\
    simulate 5 [moved_east 90 drift_config] = (ev', Finished q') /\
    Forall2 (turned_event (deg 90)) ev ev' /\ turned (deg 90) (ph_state q) (ph_state q').
Proof.
  intros Hrot. destruct (simulate 5 [drift_config]) as [ev st] eqn:H.
  destruct (C34_coast 5 drift_config [] ev st 3) as (q & t & -> & Et & Bt); try exact H.
  - constructor; [|constructor]. split; [|split].
    + intros v t E. injection E as <-. cbn. intros [X|[X|X]]; discriminate.
    + intros v es E. injection E as <-. discriminate.
    + discriminate.
  - constructor; [|constructor]. intros v T E.
    injection E as <- <-. split; [reflexivity|]. exists (5 / 2). split; [reflexivity|lra].
  - discriminate.
  - cbn [durations drift_config pc_end_criterion]. repeat constructor; cbn; lra.
  - lia.
  - destruct (C56_longitude Hrot 90 5 drift_config [] ev (Finished q)) as (ev' & st' & H' & A & B); try assumption.
    + constructor; [apply drift_real|constructor].
    + constructor; [apply drift_axial|constructor].
    + intros cs1 cs2 p E Bg. destruct cs1 as [|c1 cs1]; [inversion Bg; destruct cs; discriminate|].
      injection E as <- E. destruct cs1; [|discriminate]. now apply drift_begins_regular.
    + destruct st' as [q'|e|q']; try contradiction.
      exists ev, q, t, ev', q'. split; [reflexivity|]. split; [exact Et|]. split.
      { revert Bt. cbn [durations drift_config pc_end_criterion total fold_right length INR]. rewrite Rplus_0_r. intros Bt. exact Bt. }
      split; [exact H'|]. split; assumption.
Qed.
End Exact.
