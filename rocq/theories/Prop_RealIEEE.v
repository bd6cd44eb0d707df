(** * C52 is refuted in IEEE arithmetic: a flight whose records are not numbers

    A phase without engines and atmosphere whose end criterion is a mass below the current one:
    the first step is discarded because the mass is "beyond" the target, the step size becomes
    minus infinity (a quotient by the change of the mass, which is zero), and from then on the
    program prints records at time minus infinity with the mass NaN, without end. *)
From Coq Require Import ZArith List Reals Lra Lia Bool.
From Flocq Require Import Core BinarySingleNaN.
From Verif Require Import Prop_Steering Num Constants State Tables Config Planet Atmosphere Transformations
  Steering Vehicle RungeKutta Phase Simulation B64 B64Facts SystemFacts RKFacts RunFacts PhaseNew
  Prop_Run SystemTotal Prop_Tables Prop_Panics Prop_IEEE Refute Prop_TimeIEEE.
Import ListNotations.
Local Open Scope R_scope.

(** The secant step of a variable that has not changed. *)
Lemma secant_stall : forall y : b64, is_finite y = true -> 1 <= B2R y <= 4398046511104 ->
  Bdiv mode_NE (Bmult mode_NE (Bopp y) (b64_lit 1 0)) (Bminus mode_NE y y) = B754_infinity true.
Proof.
  intros y F P. destruct lit_1 as (E1 & F1 & _). revert E1 F1. generalize (b64_lit 1 0). intros o E1 F1.
  assert (D : Bminus mode_NE y y = B754_zero false).
  { assert (H := Bminus_correct 53 1024 _ _ mode_NE y y F F).
    replace (B2R y - B2R y) with 0 in H by ring. rewrite round_0 in H by typeclasses eauto.
    rewrite Rabs_R0, Rlt_bool_true in H by (apply bpow_gt_0). destruct H as (H1 & H2 & H3).
    rewrite Rcompare_Eq in H3 by reflexivity.
    destruct (finite_zero _ H2 H1) as [s H4]. rewrite H4 in H3 |- *. cbn [Bsign] in H3. f_equal. rewrite H3.
    destruct (Bsign y); reflexivity. }
  rewrite D.
  assert (E42 : bpow radix2 42 = 4398046511104) by (cbn; lra).
  destruct (mult_rnd 42 (Bopp y) o ltac:(lia)) as [G E]; [now rewrite is_finite_Bopp|exact F1| |].
  { rewrite E1, B2R_Bopp, Rmult_1_r, E42. apply Rabs_le. lra. }
  rewrite E1, B2R_Bopp, Rmult_1_r in E.
  rewrite round_generic in E; [|typeclasses eauto|apply generic_format_opp, generic_format_B2R].
  revert G E. generalize (Bmult mode_NE (Bopp y) o). intros z G E.
  destruct z as [s|s| |s m e B]; try discriminate; [cbn in E; lra|].
  destruct s; [reflexivity|]. exfalso. assert (K : 0 < B2R (B754_finite false m e B)).
  { apply F2R_gt_0. reflexivity. }
  unfold b64 in *. lra.
Qed.

Section IEEE.
Context {lm : libm}.
Notation N := (B64 lm).
Local Notation zero := (B754_zero false : b64).
Local Notation minf := (B754_infinity true : b64).
Local Notation nan := (B754_nan : b64).

(** A coasting phase: no atmosphere, no engines, no acceleration limit. *)
Record coasting (p : Phase N) : Prop := {
  co_air : at_model (ph_atmosphere p) = NoAtmosphere;
  co_engines : ve_engines (ph_vehicle p) = [];
  co_limit : ph_max_acceleration p = (B754_infinity false : b64);
  co_tables : tables_accepted (ph_vehicle p) }.

Lemma zn_plus : forall x y, zero_or_nan x -> zero_or_nan y -> zero_or_nan (Bplus mode_NE x y).
Proof.
  intros x y [[s ->]| ->] [[s' ->]| ->]; try (right; reflexivity).
  left. destruct s, s'; eexists; reflexivity.
Qed.
Lemma zn_div : forall x y, zero_or_nan x -> zero_or_nan (Bdiv mode_NE x y).
Proof.
  intros x y [[s ->]| ->].
  - destruct y as [s'|s'| |s' m e B]; cbn; unfold zero_or_nan, is_zero; eauto.
  - right. destruct y; reflexivity.
Qed.
Lemma zn_sqrt : forall x, zero_or_nan x -> zero_or_nan (Bsqrt mode_NE x).
Proof. intros x [[s ->]| ->]; [left; exists s|right]; reflexivity. Qed.

(** The equations of motion never abort, and the mass does not change. *)
Lemma coasting_system : forall (p : Phase N) (x : State N), coasting p ->
  exists s, system p x = Ret s /\ (st_massflow s : b64) = zero.
Proof.
  intros p x [Ha He Hl Ht].
  destruct (system_total p x (accepted_lookups p Ht)) as (s & Q & E).
  assert (Eth : (st_throttle s : b64) = b64_lit 1 0).
  { rewrite (q_throttle _ _ _ Q). unfold auto_throttle, thrust_force. rewrite He. cbn [map].
    replace (veqb _ _) with true; [reflexivity|]. vm_compute. reflexivity. }
  exists s. split.
  - rewrite E. replace (guard p s) with false; [reflexivity|]. symmetry. unfold guard. apply orb_false_intro.
    + assert (A : is_zero (vx (st_aero_force_body s)) /\ is_zero (vy (st_aero_force_body s)) /\ is_zero (vz (st_aero_force_body s))).
      { apply (aero_force_zero lm (ph_vehicle p) (before_aero x s)); [|apply (q_aero_force _ _ _ Q)]. left.
        change (zero_or_nan (st_dynamic_pressure s)). rewrite (q_dynamic_pressure _ _ _ Q). unfold at_dynamic_pressure.
        assert (D := q_density _ _ _ Q). unfold at_density in D. rewrite Ha in D. injection D as D. rewrite <- D.
        cbn [n_mul B64]. apply zn_mult_l, zn_mult_r. left. exists false. exact lit_0. }
      assert (Th : st_thrust_force_body s = V3 zero zero zero).
      { rewrite (q_thrust _ _ _ Q), Eth. unfold thrust_force. rewrite He. cbn [map]. vm_compute. reflexivity. }
      assert (V : zero_or_nan (norm (N := N) (st_vehicle_acceleration_body s))).
      { rewrite (q_vehicle_acceleration _ _ _ Q), Th. unfold norm, norm_squared, vdot, vdiv, vadd.
        cbn [vx vy vz n_add n_mul n_div n_sqrt B64].
        assert (Z : zero_or_nan zero) by (left; exists false; reflexivity).
        destruct A as (A1 & A2 & A3).
        assert (L0 : zero_or_nan (n_lit (n := N) 0 0)) by (left; exists false; exact lit_0).
        apply zn_sqrt, zn_plus; [exact L0|]. 
        apply zn_plus; [apply zn_plus|]; apply zn_mult_l, zn_div, zn_plus; try exact Z; left; assumption. }
      cbn [n_ltb n_mul B64]. rewrite Hl.
      replace (Bmult mode_NE (B754_infinity false) (n_lit (n := N) 1001 (-3))) with (B754_infinity false : b64)
        by (vm_compute; reflexivity).
      destruct V as [[sg V]|V]; change (@Bltb 53 1024 (B754_infinity false) (norm (N := N) (st_vehicle_acceleration_body s)) = false);
        change (norm (N := N) (st_vehicle_acceleration_body s) = B754_zero sg) in V || idtac;
        rewrite V; reflexivity.
    + cbn [n_isnan B64]. change (is_nan (st_throttle s : b64) = false). rewrite Eth. vm_compute. reflexivity.
  - rewrite (q_massflow _ _ _ Q), Eth. unfold massflow. rewrite He. cbn [map]. vm_compute. reflexivity.
Qed.

(** The mass change of a step of size [h]: the Runge-Kutta sum of [h * 0]. *)
Definition drift (h : b64) : b64 :=
  let k := Bmult mode_NE h zero in
  let w := Bdiv mode_NE (b64_lit 1 0) (b64_lit 6 0) in
  let w' := Bdiv mode_NE (b64_lit 1 0) (b64_lit 3 0) in
  Bplus mode_NE (Bplus mode_NE (Bplus mode_NE (Bplus mode_NE (b64_lit 0 0) (Bmult mode_NE w k))
    (Bmult mode_NE w' k)) (Bmult mode_NE w' k)) (Bmult mode_NE w k).

Lemma coasting_candidate : forall q : Phase N, coasting q -> exists s, candidate q = Ret s /\
  (st_mass s : b64) = Bplus mode_NE (st_mass (ph_state q)) (drift (ph_stepsize q)) /\
  (st_time s : b64) = Bplus mode_NE (st_time (ph_state q)) (ph_stepsize q).
Proof.
  intros q Hq.
  destruct (candidate q) as [s|e] eqn:C.
  - exists s. split; [reflexivity|]. split; [|apply (candidate_clock q s Time); auto].
    destruct (integrator_step_inv _ _ _ _ C) as (d0 & d1 & d2 & d3 & F0 & F1 & F2 & F3 & F4).
    assert (M : forall x d, system q x = Ret d -> (st_massflow d : b64) = zero).
    { intros x d E. destruct (coasting_system q x Hq) as (d' & E' & M'). rewrite E in E'. injection E' as ->. exact M'. }
    apply system_eom in F4. rewrite (e_mass _ _ _ F4). apply M in F0, F1, F2, F3.
    unfold from_vec, to_primary_vec, to_differentials_vector, rk_sum, v7_zero, v7_add, v7_scale.
    cbn [combine map fold_left fst snd v7_mass v7_pos v7_vel set_mass st_mass].
    change (n_mul (n := N)) with (Bmult mode_NE : b64 -> b64 -> b64).
    rewrite F0, F1, F2, F3. reflexivity.
  - exfalso. destruct (integrator_panic _ _ _ _ C) as [s' E].
    destruct (coasting_system q s' Hq) as (d & E' & _). congruence.
Qed.

Lemma drift_one : drift (b64_lit 1 0) = zero.
Proof. vm_compute. reflexivity. Qed.
Lemma drift_minf : drift minf = nan.
Proof. vm_compute. reflexivity. Qed.
Lemma plus_zero : forall m : b64, is_finite m = true -> B2R m <> 0 -> Bplus mode_NE m zero = m.
Proof. intros [s|s| |s m e B] F H; try discriminate; [cbn in H; lra|reflexivity]. Qed.
Lemma minf_plus : forall t : b64, is_finite t = true \/ t = minf -> Bplus mode_NE t minf = minf.
Proof. intros [s|s| |s m e B] [F|F]; try discriminate; try reflexivity. injection F as ->. reflexivity. Qed.
Lemma nan_plus : forall x : b64, Bplus mode_NE x nan = nan.
Proof. intros [s|s| |s m e B]; reflexivity. Qed.

(** A record without meaning. *)
Definition nonsense (s : State N) : Prop := (st_time s : b64) = minf /\ (st_mass s : b64) = nan.

Lemma nonsense_loop : forall T fuel (q : Phase N), coasting q -> ph_ended q = false ->
  ph_end_criterion q = (Mass, T) -> (ph_stepsize q : b64) = minf ->
  is_finite (st_time (ph_state q) : b64) = true \/ (st_time (ph_state q) : b64) = minf ->
  exists h q', run_loop fuel q = (h, Running q') /\ length h = fuel /\ Forall nonsense h.
Proof.
  intros T fuel. induction fuel as [|fuel IH]; intros q Hq En Ec Eh Ht.
  - exists [], q. cbn [run_loop]. rewrite En. split; [reflexivity|]. split; [reflexivity|constructor].
  - destruct (coasting_candidate q Hq) as (s & C & M & Tm). rewrite Eh, drift_minf, nan_plus in M.
    rewrite Eh, (minf_plus _ Ht) in Tm.
    cbn [run_loop]. rewrite En, (step_at q s Mass T En C Ec).
    assert (G : (get_value Mass s : b64) = nan) by exact M. rewrite G.
    replace (Bltb (Babs (Bminus mode_NE nan T)) (b64_lit 1 (-3))) with false
      by (destruct T; reflexivity).
    assert (EA : event_is_active q (ph_state q) s = false).
    { unfold event_is_active. rewrite Ec. cbn [fst snd n_ltb B64]. rewrite G, Bltb_nan_l. apply Bltb_nan_r. }
    rewrite EA.
    destruct (IH (set_ph_state q s)) as (h & q' & R & L & F); try assumption.
    { destruct Hq. constructor; assumption. }
    { right. exact Tm. }
    exists (s :: h), q'. rewrite R. split; [reflexivity|]. split; [cbn; lia|]. constructor; [split; assumption|exact F].
Qed.

(** Whatever the rest of the configuration: the first record repeats the initial state, and all
    following ones, of which there is no end, are at time minus infinity with mass NaN. *)
Theorem C52_refuted : forall (cs : list (PhaseConfig N)) (p : Phase N) s0 (m T : b64) fuel,
  begins cs p -> coasting p -> ph_end_criterion p = (Mass, T) -> initial p s0 ->
  (st_mass s0 : b64) = m -> is_finite (st_time s0 : b64) = true -> is_finite m = true -> is_finite T = true ->
  0 <= B2R T -> B2R T + 1 <= B2R m <= 2199023255552 ->
  exists h q, run (S fuel) p = (s0 :: h, Running q) /\ length h = fuel /\ Forall nonsense h.
Proof.
  intros cs p s0 m T fuel Hb Hp Ec Hi Em Ft Fm FT HT Hm.
  destruct (C29_stepsize_is_one cs p Hb) as [H1 _].
  destruct (C32_counter_starts_at_zero cs p s0 Hb) as [H3 H4].
  unfold run. unfold initial in Hi. rewrite Hi.
  set (q := set_ph_state p s0) in *.
  assert (Hq : coasting q) by (destruct Hp; constructor; assumption).
  destruct (coasting_candidate q Hq) as (s & C & M & _).
  change (ph_stepsize q) with (ph_stepsize p) in M. rewrite H1 in M.
  change (st_mass (ph_state q)) with (st_mass s0) in M. rewrite Em in M.
  change (@n_lit N 1 0) with (b64_lit 1 0) in M. rewrite drift_one, (plus_zero m Fm) in M by lra.
  cbn [run_loop]. rewrite H4, (step_at q s Mass T H4 C Ec).
  assert (G : (get_value Mass s : b64) = m) by exact M.
  assert (G0 : (get_value Mass (ph_state q) : b64) = m) by exact Em. rewrite G.
  destruct (Bltb (Babs (Bminus mode_NE m T)) (b64_lit 1 (-3))) eqn:W.
  { exfalso. apply (not_within m T Fm FT) in W; [apply Rabs_def2 in W; lra| |]; apply Rabs_le; lra. }
  assert (EA : event_is_active q (ph_state q) s = true).
  { unfold event_is_active. change (ph_end_criterion q) with (ph_end_criterion p). rewrite Ec.
    cbn [fst snd n_ltb B64]. rewrite G, G0.
    rewrite (Bltb_correct 53 1024 m m Fm Fm), Rlt_bool_false by lra.
    rewrite (Bltb_correct 53 1024 T m FT Fm). apply Rlt_bool_true. lra. }
  rewrite EA. change (ph_end_criterion_tries q) with (ph_end_criterion_tries p) in *. rewrite H3. cbn [Nat.ltb Nat.leb Nat.add].
  assert (TG : (time_to_go q (ph_state q) s : b64) = minf).
  { unfold time_to_go. change (ph_end_criterion q) with (ph_end_criterion p). change (ph_stepsize q) with (ph_stepsize p).
    rewrite Ec, H1. cbn [fst snd n_sub n_neg n_mul n_div B64]. rewrite G, G0.
    assert (E42 : bpow radix2 42 = 4398046511104) by (cbn; lra).
    destruct (minus_rnd 42 m T ltac:(lia) Fm FT) as [F E].
    { rewrite E42. apply Rabs_le. lra. }
    change (@n_lit N 1 0) with (b64_lit 1 0). apply secant_stall; [exact F|]. rewrite E. split.
    - change 1 with (bpow radix2 0). apply round_ge_generic; [typeclasses eauto|typeclasses eauto| |cbn; lra].
      apply generic_format_bpow. cbn. lia.
    - eapply Rle_trans; [apply Rle_abs|]. rewrite <- E42. apply rnd_le_bpow; [lia|]. rewrite E42. apply Rabs_le. lra. }
  rewrite TG.
  destruct (nonsense_loop T fuel (set_ph_end_criterion_tries (set_ph_stepsize q minf) 1)) as (h & q' & R & L & F).
  - destruct Hq. constructor; assumption.
  - exact H4.
  - exact Ec.
  - reflexivity.
  - left. exact Ft.
  - exists h, q'. change (ph_stepsize q) with (ph_stepsize p). rewrite R. split; [reflexivity|]. split; [exact L|exact F].
Qed.
End IEEE.

(** ** Non-vacuity: a vehicle of 100 kg in a phase that should end at 50 kg *)
Lemma first_coast : forall (lm : libm) (c : PhaseConfig (B64 lm)) e m, pc_end_criterion c = Some e ->
  pc_vehicle c = Some (mkVehicleConfig (N := B64 lm) (Some m) None None None None None None) ->
  pc_atmosphere c = None -> pc_max_acceleration c = None -> first_state_ok c = true ->
  exists p s0, begins [c] p /\ coasting p /\ ph_end_criterion p = e /\ initial p s0 /\
    st_mass s0 = Bplus mode_NE (b64_lit 0 0) m /\ st_time s0 = b64_lit 0 0.
Proof.
  intros lm c e m He Hv Ha Hmx H. unfold first_state_ok in H. destruct (phase_new None c) as [p|] eqn:P; [|discriminate].
  destruct (system (reset p) (ph_state (reset p))) as [s0|] eqn:S; [|discriminate].
  exists (reset p), s0. split; [exact (begins_first c _ P)|].
  rewrite phase_new_configured in P. destruct (pc_init c) as [i|]; [|discriminate]. injection P as <-.
  assert (E := S). apply system_eom in E.
  split; [|split; [|split; [exact S|]]].
  - constructor.
    + change (at_model (match pc_atmosphere c with
        | Some a => atmosphere_update_with_config (ph_atmosphere (default_phase (N := B64 lm))) a
        | None => ph_atmosphere (default_phase (N := B64 lm)) end) = NoAtmosphere). rewrite Ha. reflexivity.
    + change (ve_engines (match pc_vehicle c with
      | Some v => vehicle_update_with_config (ph_vehicle (default_phase (N := B64 lm))) v
      | None => ph_vehicle (default_phase (N := B64 lm)) end) = []). rewrite Hv. reflexivity.
    + change (inherit (option_map (fun m => if n_eqb m (n_neg (n_lit 1 0)) then n_inf else m) (pc_max_acceleration c))
        (ph_max_acceleration (default_phase (N := B64 lm))) = (B754_infinity false : b64)). rewrite Hmx. reflexivity.
    + change (tables_accepted (match pc_vehicle c with
      | Some v => vehicle_update_with_config (ph_vehicle (default_phase (N := B64 lm))) v
      | None => ph_vehicle (default_phase (N := B64 lm)) end)). rewrite Hv.
      repeat split; apply C18_default_table_accepted.
  - change (inherit (pc_end_criterion c) (ph_end_criterion (default_phase (N := B64 lm))) = e). rewrite He. reflexivity.
  - rewrite (e_mass _ _ _ E), (e_time _ _ _ E).
    destruct (phase_init_state (configured default_phase c) i) as (r & w & E1).
    rewrite reset_state, E1. split.
    + unfold configured. rewrite Hv. change (mass_of default_phase c = Bplus mode_NE (b64_lit 0 0) m). unfold mass_of. rewrite Hv. reflexivity.
    + destruct (configured_state default_phase c) as [m' E2]. rewrite E2. reflexivity.
Qed.
Definition coast_config (lm : libm) : PhaseConfig (B64 (zlm lm)) :=
  mkPhaseConfig (N := B64 (zlm lm)) (site lm)
    (Some (mkVehicleConfig (N := B64 (zlm lm)) (Some (b64_lit 100 0)) None None None None None None))
    None (still_planet lm) None None None (Some (Mass, b64_lit 50 0)).
Example C52_refuted_nonvacuous : forall lm, standard_at_zero lm ->
  exists (c : PhaseConfig (B64 lm)) p s0 (m T : b64), begins [c] p /\ coasting p /\
    ph_end_criterion p = (Mass, T) /\ initial p s0 /\ (st_mass s0 : b64) = m /\
    is_finite (st_time s0 : b64) = true /\ is_finite m = true /\ is_finite T = true /\ B2R T = 50 /\ B2R m = 100.
Proof.
  intros lm H. rewrite <- (zlm_eq lm H).
  destruct (first_coast _ (coast_config lm) _ _ eq_refl eq_refl eq_refl eq_refl) as (p & s0 & A & B & C & D & E & F).
  { vm_compute. reflexivity. }
  exists (coast_config lm), p, s0, (st_mass s0), (b64_lit 50 0). repeat (split; [assumption|]).
  split; [reflexivity|]. rewrite E, F.
  destruct (B2R_lit 50 0 false 7036874417766400 (-47)) as [X [Y _]]; [vm_compute; reflexivity|].
  split; [vm_compute; reflexivity|].
  assert (S : B2SF (Bplus mode_NE (b64_lit 0 0) (b64_lit 100 0)) = SpecFloat.S754_finite false 7036874417766400 (-46)) by (vm_compute; reflexivity).
  revert S. generalize (Bplus mode_NE (b64_lit 0 0) (b64_lit 100 0)). intros z S.
  destruct z as [s|s| |s k e Z]; cbn in S; try discriminate. injection S as -> -> ->.
  split; [reflexivity|]. split; [exact Y|]. split; [rewrite X; unfold F2R; cbn; lra|]. unfold B2R, F2R. cbn. lra.
Qed.
