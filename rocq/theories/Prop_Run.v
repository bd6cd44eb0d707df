(** * C26, C28, C29, C30, C31, C32, C36, C37, C45: phases, events and runs

    Theorems for every arithmetic [N] (so in particular for IEEE binary64 with any
    mathematical library). *)
From Coq Require Import ZArith List Bool Lia.
From Verif Require Import Num Constants State Tables Config Planet Atmosphere Transformations
  Steering Vehicle RungeKutta Phase Simulation SystemFacts RunFacts PhaseNew.
Import ListNotations.

Section WithNum.
Context {N : Num}.
Local Open Scope num_scope.

(** What a finished, aborted or unfinished call of [Phase::run] went through: the
    equations of motion at the initial state, then a chain of iterations. *)
Lemma run_chain : forall fuel (p : Phase N) h st, run fuel p = (h, st) ->
  (exists e, system p (ph_state p) = Panic e /\ h = [] /\ st = Aborted e) \/
  exists s0 ps, let p0 := set_ph_state p s0 in
    system p (ph_state p) = Ret s0 /\ chain p0 ps /\ h = map (@ph_state N) ps /\
    match st with
    | Finished q => q = final p0 ps /\ ph_ended q = true
    | Running q => q = final p0 ps /\ ph_ended q = false /\ length ps = fuel
    | Aborted e => step (final p0 ps) = Panic e
    end.
Proof.
  intros fuel p h st H. unfold run in H. destruct (system p (ph_state p)) as [s0|e] eqn:E.
  - right. exists s0. destruct (run_loop_chain _ _ _ _ H) as [ps [A [B [_ C]]]].
    exists ps. repeat split; auto.
  - left. exists e. injection H as <- <-. auto.
Qed.

(** The phases with which [Phase::run] is entered when a list of configurations is
    simulated. *)
Inductive begins : list (PhaseConfig N) -> Phase N -> Prop :=
| begins_first : forall c p, phase_new None c = Ret p -> begins [c] (reset p)
| begins_next : forall cs p fuel h q c p',
    begins cs p -> run fuel p = (h, Finished q) -> phase_new (Some q) c = Ret p' ->
    begins (cs ++ [c]) (reset p').

(** ** C28: inheritance *)
(** The specification of inheritance for the phase [q] made from [old] by [c]. *)
Record inherits (old : Phase N) (c : PhaseConfig N) (q : Phase N) : Prop := {
  i_planet : ph_planet q = inherit (option_map planet_of (pc_planet_model c)) (ph_planet old);
  i_atmosphere_model : at_model (ph_atmosphere q)
    = inherit2 (pc_atmosphere c)
        (fun a => option_map (fun b : bool => if b then StandardAtmosphere1962 else NoAtmosphere)
                    (ac_enabled a)) (at_model (ph_atmosphere old));
  i_wind : at_wind (ph_atmosphere q)
    = inherit2 (pc_atmosphere c) (@ac_wind N) (at_wind (ph_atmosphere old));
  i_structure_mass : ve_structure_mass (ph_vehicle q)
    = inherit2 (pc_vehicle c) (@vc_structure_mass N) (ve_structure_mass (ph_vehicle old));
  i_propellant_mass : ve_initial_propellant_mass (ph_vehicle q)
    = inherit2 (pc_vehicle c) (@vc_propellant_mass N) (ve_initial_propellant_mass (ph_vehicle old));
  i_reference_area : ve_reference_area (ph_vehicle q)
    = inherit2 (pc_vehicle c) (@vc_reference_area N) (ve_reference_area (ph_vehicle old));
  i_drag_coeff : ve_drag_coeff (ph_vehicle q)
    = inherit2 (pc_vehicle c) (@vc_drag_coeff N) (ve_drag_coeff (ph_vehicle old));
  i_lift_coeff : ve_lift_coeff (ph_vehicle q)
    = inherit2 (pc_vehicle c) (@vc_lift_coeff N) (ve_lift_coeff (ph_vehicle old));
  i_side_force_coeff : ve_side_force_coeff (ph_vehicle q)
    = inherit2 (pc_vehicle c) (@vc_side_force_coeff N) (ve_side_force_coeff (ph_vehicle old));
  i_engines : ve_engines (ph_vehicle q)
    = inherit2 (pc_vehicle c) (@vc_engines N) (ve_engines (ph_vehicle old));
  i_max_acceleration : ph_max_acceleration q
    = inherit (option_map (fun m => if m =? - #1 then n_inf else m) (pc_max_acceleration c))
        (ph_max_acceleration old);
  i_roll : (ax_var (sg_roll (ph_steering q)), ax_c (sg_roll (ph_steering q)))
    = inherit2 (pc_steering c) (@sc_roll N)
        (ax_var (sg_roll (ph_steering old)), ax_c (sg_roll (ph_steering old)));
  i_yaw : (ax_var (sg_yaw (ph_steering q)), ax_c (sg_yaw (ph_steering q)))
    = inherit2 (pc_steering c) (@sc_yaw N)
        (ax_var (sg_yaw (ph_steering old)), ax_c (sg_yaw (ph_steering old)));
  i_pitch : (ax_var (sg_pitch (ph_steering q)), ax_c (sg_pitch (ph_steering q)))
    = inherit2 (pc_steering c) (@sc_pitch N)
        (ax_var (sg_pitch (ph_steering old)), ax_c (sg_pitch (ph_steering old)));
  i_end_criterion : ph_end_criterion q = inherit (pc_end_criterion c) (ph_end_criterion old) }.


(** The phase a configuration is applied to. *)
Definition previous (prev : option (Phase N)) : Phase N :=
  match prev with Some p => p | None => default_phase end.

Lemma configured_inherits : forall (old : Phase N) (c : PhaseConfig N), inherits old c (configured old c).
Proof.
  intros old c. destruct c as [i v st pl a ma ss ec]. unfold configured.
  constructor;
    cbn [pc_init pc_vehicle pc_steering pc_planet_model pc_atmosphere pc_max_acceleration
      pc_stepsize pc_end_criterion ph_planet ph_atmosphere ph_vehicle ph_max_acceleration
      ph_steering ph_end_criterion]; try reflexivity;
    try (destruct v as [v|]; reflexivity).
  - destruct a as [ [ [b| ] [w| ] ] | ]; try destruct b; reflexivity.
  - destruct a as [ [ [b| ] [w| ] ] | ]; try destruct b; reflexivity.
  - destruct st as [[r y z]|]; [|reflexivity]. destruct r as [[? ?]|]; reflexivity.
  - destruct st as [[r y z]|]; [|reflexivity]. destruct y as [[? ?]|]; reflexivity.
  - destruct st as [[r y z]|]; [|reflexivity]. destruct z as [[? ?]|]; reflexivity.
Qed.
Lemma inherits_ext : forall (old : Phase N) (c : PhaseConfig N) q q', inherits old c q ->
  ph_planet q' = ph_planet q -> ph_atmosphere q' = ph_atmosphere q ->
  ph_vehicle q' = ph_vehicle q -> ph_max_acceleration q' = ph_max_acceleration q ->
  ph_end_criterion q' = ph_end_criterion q ->
  (forall ax : Steering N -> axis N, ax = @sg_roll N \/ ax = @sg_yaw N \/ ax = @sg_pitch N ->
     ax_var (ax (ph_steering q')) = ax_var (ax (ph_steering q)) /\
     ax_c (ax (ph_steering q')) = ax_c (ax (ph_steering q))) ->
  inherits old c q'.
Proof.
  intros old c q q' H E1 E2 E3 E4 E5 E6.
  destruct (E6 (@sg_roll N)) as [A1 A2]; [auto|].
  destruct (E6 (@sg_yaw N)) as [B1 B2]; [auto|].
  destruct (E6 (@sg_pitch N)) as [C1 C2]; [auto|].
  destruct H. constructor; rewrite ?E1, ?E2, ?E3, ?E4, ?E5, ?A1, ?A2, ?B1, ?B2, ?C1, ?C2; assumption.
Qed.

(** Creating a phase (and preparing it for its run) takes every configured parameter
    from the configuration and every other one from the previous phase, the first
    phase from the default. *)
Theorem C28_inheritance : forall prev (c : PhaseConfig N) q, phase_new prev c = Ret q ->
  inherits (previous prev) c q /\ inherits (previous prev) c (reset q).
Proof.
  intros prev c q H. rewrite phase_new_configured in H.
  assert (G : inherits (previous prev) c q).
  { destruct prev as [p|].
    - injection H as <-. apply configured_inherits.
    - destruct (pc_init c) as [i|]; [|discriminate]. injection H as <-.
      apply inherits_ext with (configured default_phase c); try reflexivity.
      + apply configured_inherits.
      + intros ax Hax. split; reflexivity. }
  split; [exact G|].
  apply inherits_ext with q; try reflexivity; [exact G|].
  intros ax [-> | [-> | ->]]; split; reflexivity.
Qed.

(** The launch site and, apart from the mass (C26), the state are inherited, too. *)
Theorem C28_state : forall (old : Phase N) (c : PhaseConfig N) q, phase_new (Some old) c = Ret q ->
  ph_launch q = ph_launch old /\ ph_launch (reset q) = ph_launch old /\
  ph_state q = set_mass (ph_state old) (st_mass (ph_state q)) /\
  ph_state (reset q) = set_time_since_event (N := N) (ph_state q) #0.
Proof.
  intros old c q H. rewrite phase_new_configured in H. injection H as <-.
  split; [reflexivity|]. split; [reflexivity|]. split; [|reflexivity].
  unfold configured. cbn [ph_state].
  destruct (pc_vehicle c) as [[[m|] [k|] ra dc lc sf en]|];
    cbn [vc_structure_mass vc_propellant_mass]; destruct (ph_state old); reflexivity.
Qed.

(** The documented defaults of the first phase. *)
Theorem C28_default : forall (p : Phase N), p = previous None ->
  ph_planet p = EARTH_SPHERICAL /\
  at_model (ph_atmosphere p) = NoAtmosphere /\ at_wind (ph_atmosphere p) = V3 #0 #0 #0 /\
  ph_vehicle p = mkVehicle #0 #0 #0 default_table default_table default_table [] /\
  ph_max_acceleration p = n_inf /\
  (forall ax : Steering N -> axis N, ax = @sg_roll N \/ ax = @sg_yaw N \/ ax = @sg_pitch N ->
     ax (ph_steering p) = mkAxis Time #0 (V3 #0 #0 #0)) /\
  ph_end_criterion p = (TimeSinceEvent, #0) /\ ph_state p = default_state.
Proof.
  intros p ->. repeat split. intros ax [-> | [-> | ->]]; reflexivity.
Qed.

(** Integrating a phase never changes a parameter. *)
Theorem C28_run_keeps_parameters : forall fuel (p : Phase N) h q,
  (run fuel p = (h, Finished q) \/ run fuel p = (h, Running q)) -> same_parameters p q.
Proof.
  intros fuel p h q H.
  assert (G : exists st, run fuel p = (h, st) /\ (st = Finished q \/ st = Running q))
    by (destruct H; eauto).
  destruct G as [st [G Hst]].
  destruct (run_chain _ _ _ _ G) as [[e [_ [_ E]]]|[s0 [ps [_ [Hc [_ E]]]]]];
    [destruct Hst; subst; discriminate|].
  assert (Eq : q = final (set_ph_state p s0) ps).
  { destruct Hst; subst st; [destruct E as [E _]|destruct E as [E _]]; exact E. }
  subst q. eapply same_parameters_trans; [|apply chain_final_parameters; exact Hc].
  repeat split.
Qed.

(** ** States of a run *)
(** The state reported by the equations of motion at the beginning of the phase. *)
Definition initial (p : Phase N) (s0 : State N) : Prop := system p (ph_state p) = Ret s0.

(** Only the primary variables; everything else zero. *)
Definition primary_only (s : State N) : State N :=
  mkState (st_time s) (st_time_since_event s) (st_position s) vzero #0 #0 (st_velocity s) vzero vzero
    vzero vzero vzero vzero vzero (st_mass s) #0 #0 #0 #0 #0 #0 #0 #0 vzero #0.
Lemma from_vec_primary : forall s,
  from_vec (st_time s, st_time_since_event s) (to_primary_vec s) = primary_only s.
Proof. intros s. reflexivity. Qed.

Lemma eom_primary : forall (p : Phase N) t y s, eom p (from_vec t y) s -> eom p (primary_only s) s.
Proof.
  intros p t y s E.
  assert (A : from_vec t y = primary_only s).
  { rewrite <- from_vec_primary. destruct E. unfold from_vec in *.
    cbn [set_mass set_velocity set_position set_time_since_event set_time default_state
         st_time st_time_since_event st_position st_velocity st_mass] in *.
    destruct t as [t1 t2], y as [y1 y2 y3]. cbn [fst snd v7_pos v7_vel v7_mass] in *.
    unfold to_primary_vec. cbn [v7_pos v7_vel v7_mass]. congruence. }
  now rewrite <- A.
Qed.

(** Every state of a run is the initial one or satisfies the equations of motion at
    its own primary variables. *)
Lemma chain_states : forall (p : Phase N) ps, chain p ps ->
  Forall (fun q => ph_state q = ph_state p \/ eom p (primary_only (ph_state q)) (ph_state q)) ps.
Proof.
  intros p ps H.
  apply Forall_impl with (P := fun q => same_parameters p q /\
    (ph_state q = ph_state p \/ eom p (primary_only (ph_state q)) (ph_state q))); [tauto|].
  apply (chain_ind_inv (fun q => same_parameters p q /\
    (ph_state q = ph_state p \/ eom p (primary_only (ph_state q)) (ph_state q)))) with p; auto.
  - intros q q' [Hq Hs] _ St. split.
    + eapply same_parameters_trans; [exact Hq|]. now apply step_parameters.
    + destruct (step_cases _ _ St) as [_ [s [Hc C]]].
      destruct (candidate_eom _ _ Hc) as [y Hy]. apply eom_primary in Hy.
      apply (eom_parameters q p) in Hy; [|now apply same_parameters_sym].
      destruct C as [[_ ->]|[[_ [_ ->]]|[_ [_ [_ ->]]]]]; [right; exact Hy|right; exact Hy|exact Hs].
  - split; [apply same_parameters_refl|auto].
Qed.

(** ** C37 *)
(** Every reported state of a run is obtained from its own time, position, velocity
    and mass by the equations of motion. *)
Theorem C37_self_consistent : forall fuel (p : Phase N) h st s, run fuel p = (h, st) -> In s h ->
  initial p s \/ system p (primary_only s) = Ret s.
Proof.
  intros fuel p h st s H Hin.
  destruct (run_chain _ _ _ _ H) as [[e [_ [-> _]]]|[s0 [ps [Hi [Hc [-> _]]]]]]; [destruct Hin|].
  apply in_map_iff in Hin. destruct Hin as [q [<- Hq]].
  pose proof (chain_states _ _ Hc) as F. rewrite Forall_forall in F.
  destruct (F _ Hq) as [E|E].
  - left. unfold initial. rewrite E. exact Hi.
  - right. apply (eom_parameters _ p) in E; [|repeat split]. now apply system_eom.
Qed.
(** The initial state is obtained in the same way from the state the phase starts
    with, whose time, position, velocity and mass it keeps. *)
Theorem C37_initial : forall (p : Phase N) s, initial p s ->
  st_time s = st_time (ph_state p) /\ st_time_since_event s = st_time_since_event (ph_state p) /\
  st_position s = st_position (ph_state p) /\ st_velocity s = st_velocity (ph_state p) /\
  st_mass s = st_mass (ph_state p).
Proof. intros p s H. apply system_eom in H. destruct H. auto. Qed.
(** The primary variables of a candidate state are what the Runge-Kutta step
    produces. *)
Theorem C37_primary_from_integrator : forall (p : Phase N) s', candidate p = Ret s' ->
  let s := ph_state p in
  rk_step t_add_scalar v7_zero v7_add v7_scale RK4
    (fun t y => let* x := system p (from_vec t y) in
                Ret (V7 (st_velocity x) (st_acceleration x) (st_massflow x)))
    (st_time s, st_time_since_event s) (V7 (st_position s) (st_velocity s) (st_mass s))
    (ph_stepsize p)
  = Ret ((st_time s', st_time_since_event s'), V7 (st_position s') (st_velocity s') (st_mass s')).
Proof.
  intros p s' H s. unfold candidate, integrator_step in H.
  apply bind_Ret in H. destruct H as [[t y] [H1 H2]].
  match type of H1 with ?l = _ => match goal with |- ?l' = _ => change l' with l end end.
  rewrite H1. apply system_eom in H2.
  rewrite (e_time _ _ _ H2), (e_time_since_event _ _ _ H2), (e_position _ _ _ H2),
    (e_velocity _ _ _ H2), (e_mass _ _ _ H2).
  destruct t, y as [y1 y2 y3]. reflexivity.
Qed.

(** ** C26 *)
Theorem C26_reported : forall fuel (p : Phase N) h st s, run fuel p = (h, st) -> In s h ->
  st_propellant_mass s = st_mass s - ve_structure_mass (ph_vehicle p).
Proof.
  intros fuel p h st s H Hin.
  destruct (C37_self_consistent _ _ _ _ _ H Hin) as [E|E]; apply system_eom in E; now destruct E.
Qed.
Lemma finished_last : forall fuel (p : Phase N) h q, run fuel p = (h, Finished q) -> ph_ended p = false ->
  exists h', h = h' ++ [ph_state q].
Proof.
  intros fuel p h q H He.
  destruct (run_chain _ _ _ _ H) as [[e [_ [_ E]]]|[s0 [ps [_ [Hc [-> [-> E]]]]]]]; [discriminate|].
  destruct ps as [|p1 ps] using rev_ind.
  - cbn in E. congruence.
  - clear IHps. exists (map (@ph_state N) ps). rewrite map_app. cbn. unfold final. now rewrite last_last.
Qed.
(** Total mass at the start of a phase following the finished phase [q]. *)
Theorem C26_start : forall fuel (p : Phase N) h q (c : PhaseConfig N) p',
  ph_ended p = false -> run fuel p = (h, Finished q) -> phase_new (Some q) c = Ret p' ->
  let left := st_mass (ph_state q) - ve_structure_mass (ph_vehicle q) in
  st_mass (ph_state (reset p')) =
    match inherit2 (pc_vehicle c) (fun v => option_map Some (vc_structure_mass v)) None,
          inherit2 (pc_vehicle c) (fun v => option_map Some (vc_propellant_mass v)) None with
    | None, None => st_mass (ph_state q)
    | Some m, None => left + m
    | None, Some k => ve_structure_mass (ph_vehicle q) + k
    | Some m, Some k => m + k
    end.
Proof.
  intros fuel p h q c p' He H Hn left.
  destruct (finished_last _ _ _ _ H He) as [h' ->].
  assert (Hp := C26_reported _ _ _ _ (ph_state q) H (in_elt _ _ _)).
  assert (P := C28_run_keeps_parameters _ _ _ _ (or_introl H)).
  destruct P as [P _]. rewrite <- P in Hp.
  rewrite phase_new_configured in Hn. injection Hn as <-.
  unfold reset. cbn [set_ph_state set_ph_stepsize set_ph_steering set_ph_ended
    set_ph_end_criterion_tries ph_state set_time_since_event st_mass].
  unfold configured, mass_of. cbn [ph_state].
  destruct (pc_vehicle c) as [v|]; [|reflexivity]. unfold inherit2, inherit.
  destruct (vc_structure_mass v) as [m|], (vc_propellant_mass v) as [k|]; cbn [option_map];
    try reflexivity.
  cbn [set_mass st_mass]. rewrite Hp. reflexivity.
Qed.
(** The first phase. *)
Theorem C26_first : forall (c : PhaseConfig N) p', phase_new None c = Ret p' ->
  st_mass (ph_state (reset p')) =
    match inherit2 (pc_vehicle c) (fun v => option_map Some (vc_structure_mass v)) None,
          inherit2 (pc_vehicle c) (fun v => option_map Some (vc_propellant_mass v)) None with
    | None, None => #0
    | Some m, None => #0 + m
    | None, Some k => #0 + k
    | Some m, Some k => m + k
    end.
Proof.
  intros c p' H. rewrite phase_new_configured in H.
  destruct (pc_init c) as [i|]; [|discriminate]. injection H as <-.
  unfold reset, phase_init. cbn [set_ph_state set_ph_stepsize set_ph_steering set_ph_ended
    set_ph_end_criterion_tries ph_state set_time_since_event st_mass set_velocity set_position
    set_ph_launch].
  unfold configured, mass_of. cbn [ph_state].
  destruct (pc_vehicle c) as [v|]; [|reflexivity]. unfold inherit2, inherit.
  destruct (vc_structure_mass v) as [m|], (vc_propellant_mass v) as [k|]; cbn [option_map];
    reflexivity.
Qed.

(** ** C29 *)
(** Every phase of every simulation starts with step size 1, whatever the configuration. *)
Theorem C29_stepsize_is_one : forall (cs : list (PhaseConfig N)) (p : Phase N), begins cs p ->
  ph_stepsize p = #1 /\ ph_base_stepsize p = #1.
Proof.
  intros cs p H. induction H as [c p H|cs p fuel h q c p' Hb IH Hr Hn].
  - rewrite phase_new_configured in H. destruct (pc_init c); [|discriminate]. injection H as <-.
    split; reflexivity.
  - assert (P := C28_run_keeps_parameters _ _ _ _ (or_introl Hr)).
    destruct P as [_ [_ [_ [_ [_ [_ [P _]]]]]]].
    rewrite phase_new_configured in Hn. injection Hn as <-. destruct IH as [_ IH].
    unfold reset. cbn [set_ph_state set_ph_stepsize set_ph_steering set_ph_ended
    set_ph_end_criterion_tries ph_stepsize ph_base_stepsize configured]. rewrite P, IH. auto.
Qed.

(** ** C31, C32 *)
Theorem C31_finished : forall fuel (p : Phase N) h q, ph_ended p = false -> run fuel p = (h, Finished q) ->
  let (v, tgt) := ph_end_criterion p in
  let met s := n_abs (get_value v s - tgt) <? n_lit 1 (-3) in
  exists h', h = h' ++ [ph_state q] /\ met (ph_state q) = true /\
    forall s, In s h' -> initial p s \/ met s = false.
Proof.
  intros fuel p h q He H. destruct (ph_end_criterion p) as [v tgt] eqn:Ecr. intros met.
  destruct (run_chain _ _ _ _ H) as [[e [_ [_ E]]]|[s0 [ps [Hi [Hc [-> [-> E]]]]]]]; [discriminate|].
  set (p0 := set_ph_state p s0) in *.
  assert (Hm : forall q s, same_parameters p0 q -> meets q s = met s).
  { intros r s P. rewrite (meets_parameters p0 r) by exact P. unfold meets, crit, target.
    cbn [p0 set_ph_state ph_end_criterion]. now rewrite Ecr. }
  destruct ps as [|p1 ps _] using rev_ind; [cbn in E; congruence|].
  exists (map (@ph_state N) ps). rewrite map_app. unfold final in E |- *. rewrite last_last in E |- *.
  split; [reflexivity|].
  apply chain_split in Hc. destruct Hc as [Hc1 Hc2].
  inversion Hc2 as [|? ? ? Hn St _ E1 E2]. subst p2 p' l.
  assert (P := chain_final_parameters _ _ Hc1).
  split.
  - destruct (step_cases _ _ St) as [_ [s [_ [[M ->]|[[_ [_ ->]]|[_ [_ [_ ->]]]]]]]].
    + rewrite Hm in M by exact P. exact M.
    + cbn in E. congruence.
    + cbn in E. congruence.
  - intros s Hs. apply in_map_iff in Hs. destruct Hs as [r [<- Hr]].
    assert (F : Forall (fun r => ph_state r = s0 \/ met (ph_state r) = false \/ ph_ended r = true) ps).
    { apply Forall_impl with (P := fun r => same_parameters p0 r /\
        (ph_state r = s0 \/ met (ph_state r) = false \/ ph_ended r = true)); [tauto|].
      apply (chain_ind_inv (fun r => same_parameters p0 r /\
        (ph_state r = s0 \/ met (ph_state r) = false \/ ph_ended r = true))) with p0; auto.
      - intros r1 r2 [P1 I1] Ne S1. split.
        + eapply same_parameters_trans; [exact P1|]. now apply step_parameters.
        + destruct (step_cases _ _ S1) as [_ [s [_ [[M ->]|[[M [_ ->]]|[_ [_ [_ ->]]]]]]]].
          * right. right. reflexivity.
          * right. left. cbn [set_ph_state ph_state]. now rewrite <- (Hm r1).
          * cbn [set_ph_stepsize set_ph_end_criterion_tries ph_state ph_ended]. exact I1.
      - split; [apply same_parameters_refl|]. left. reflexivity. }
    assert (Ended : ph_ended r = false).
    { clear - Hc1 Hc2 Hr Hn. revert Hr Hn. generalize p0 Hc1. clear.
      induction ps as [|a ps IH]; intros p0 Hc1 Hr Hn; [destruct Hr|].
      inversion Hc1; subst. rewrite final_cons in Hn. destruct Hr as [<-|Hr]; [|eauto].
      destruct ps as [|b ps]; [exact Hn|]. inversion H4; subst. assumption. }
    rewrite Forall_forall in F. destruct (F _ Hr) as [F1|[F1|F1]]; [|auto|congruence].
    left. unfold initial. rewrite F1. exact Hi.
Qed.

(** The tries counter is what an iteration leaves alone unless it discards. *)
Definition attempt_overshoots (p : Phase N) : bool :=
  match candidate p with
  | Ret s => negb (meets p s) && overshoots p (ph_state p) s
  | Panic _ => false
  end.

(** An iteration either takes over the candidate state or, exactly when that overshoots
    the target without meeting it, discards it and changes nothing but the step size
    and the counter. *)
Theorem C32_iteration : forall (p : Phase N) p', step p = Ret p' ->
  exists s, candidate p = Ret s /\ same_parameters p p' /\
  if attempt_overshoots p
  then ph_state p' = ph_state p /\ ph_ended p' = false /\
       ph_stepsize p' = time_to_go p (ph_state p) s /\
       ph_end_criterion_tries p' = S (ph_end_criterion_tries p)
  else ph_state p' = s /\ ph_ended p' = meets p s /\ ph_stepsize p' = ph_stepsize p /\
       ph_end_criterion_tries p' = ph_end_criterion_tries p.
Proof.
  intros p p' H. assert (P := step_parameters _ _ H).
  destruct (step_cases _ _ H) as [En [s [Hc C]]]. exists s. split; [exact Hc|]. split; [exact P|].
  unfold attempt_overshoots. rewrite Hc.
  destruct C as [[M ->]|[[M [O ->]]|[M [O [T ->]]]]]; rewrite M; rewrite ?O; cbn [negb andb]; auto.
Qed.
(** An iteration that does not take over or discard aborts: in the equations of
    motion, or because too many retries were needed. *)
Theorem C32_abort : forall (p : Phase N) e, ph_ended p = false -> step p = Panic e ->
  candidate p = Panic e \/
  (attempt_overshoots p = true /\ (20 < ph_end_criterion_tries p)%nat /\ e = PNoZeroCrossing).
Proof.
  intros p e En H. unfold step in H. rewrite En in H. unfold attempt_overshoots, candidate.
  destruct (integrator_step _ _ _) as [s|e'] eqn:I; cbn [bind] in H; [|left; congruence].
  right. unfold meets, crit, target, overshoots, crit, target. unfold event_is_active in H.
  destruct (n_abs _ <? _); [discriminate|].
  destruct (if (_ <? _) then (_ <? _) else _) eqn:O; [|discriminate].
  destruct (20 <? ph_end_criterion_tries p)%nat eqn:T; [|discriminate].
  apply Nat.ltb_lt in T. injection H as <-. cbn [negb andb]. auto.
Qed.
Lemma retry_count : forall (p : Phase N) ps, chain p ps ->
  length (filter attempt_overshoots (removelast (p :: ps)))
  = (ph_end_criterion_tries (final p ps) - ph_end_criterion_tries p)%nat /\
  (ph_end_criterion_tries p <= ph_end_criterion_tries (final p ps))%nat.
Proof.
  intros p ps H. induction H as [p|p p' l Hn Hs Hc [IH1 IH2]].
  - cbn. split; lia.
  - rewrite final_cons.
    change (removelast (p :: p' :: l)) with (p :: removelast (p' :: l)). cbn [filter].
    destruct (C32_iteration _ _ Hs) as [s [_ [_ C]]].
    destruct (attempt_overshoots p); destruct C as [_ [_ [_ C]]]; cbn [length]; lia.
Qed.
Lemma tries_bound : forall (p : Phase N) ps, chain p ps -> (ph_end_criterion_tries p <= 21)%nat ->
  (ph_end_criterion_tries (final p ps) <= 21)%nat.
Proof.
  intros p ps H. apply (chain_final_inv (fun q => (ph_end_criterion_tries q <= 21)%nat)); auto.
  intros q q' Hq _ St.
  destruct (step_cases _ _ St) as [_ [s [_ [[_ ->]|[[_ [_ ->]]|[_ [_ [T ->]]]]]]]]; cbn; lia.
Qed.
(** At most 21 iterations of a phase are discarded ([removelast (p :: ps)] are the
    phases in which iterations are attempted) ... *)
Theorem C32_retries : forall (p : Phase N) ps, chain p ps -> ph_end_criterion_tries p = 0%nat ->
  (length (filter attempt_overshoots (removelast (p :: ps))) <= 21)%nat.
Proof.
  intros p ps H T. destruct (retry_count _ _ H) as [E _]. rewrite E.
  assert (B := tries_bound _ _ H). lia.
Qed.
(** ... and after 21 of them another overshoot aborts. *)
Theorem C32_give_up : forall (p : Phase N) ps, chain p ps -> ph_end_criterion_tries p = 0%nat ->
  ph_ended (final p ps) = false ->
  length (filter attempt_overshoots (removelast (p :: ps))) = 21%nat ->
  attempt_overshoots (final p ps) = true -> step (final p ps) = Panic PNoZeroCrossing.
Proof.
  intros p ps H T En L A. destruct (retry_count _ _ H) as [E _]. rewrite T, L in E.
  destruct (step (final p ps)) as [p'|e] eqn:S.
  - exfalso. destruct (step_cases _ _ S) as [_ [s [C [[M _]|[[M [O _]]|[_ [_ [B _]]]]]]]];
      unfold attempt_overshoots in A; rewrite ?C, ?M, ?O in A; cbn in A; try discriminate. lia.
  - destruct (C32_abort _ _ En S) as [C|[_ [_ ->]]]; [|reflexivity].
    unfold attempt_overshoots in A. rewrite C in A. discriminate.
Qed.
Theorem C32_counter_starts_at_zero : forall (cs : list (PhaseConfig N)) (p : Phase N) s, begins cs p ->
  ph_end_criterion_tries (set_ph_state p s) = 0%nat /\ ph_ended (set_ph_state p s) = false.
Proof. intros cs p s H. destruct H; split; reflexivity. Qed.

(** ** C36 *)
Theorem C36_step : forall (p : Phase N) p' , step p = Ret p' ->
  if attempt_overshoots p
  then st_time (ph_state p') = st_time (ph_state p) /\
       st_time_since_event (ph_state p') = st_time_since_event (ph_state p)
  else st_time (ph_state p') = st_time (ph_state p) + ph_stepsize p /\
       st_time_since_event (ph_state p') = st_time_since_event (ph_state p) + ph_stepsize p.
Proof.
  intros p p' H. destruct (C32_iteration _ _ H) as [s [Hc [_ C]]].
  destruct (attempt_overshoots p).
  - destruct C as [-> _]. auto.
  - destruct C as [-> _]. destruct (candidate_eom _ _ Hc) as [y E].
    rewrite (e_time _ _ _ E), (e_time_since_event _ _ _ E). split; reflexivity.
Qed.
Theorem C36_start : forall (cs : list (PhaseConfig N)) (p : Phase N), begins cs p -> st_time_since_event (ph_state p) = #0 /\
  forall s0, initial p s0 -> st_time_since_event s0 = #0 /\ st_time s0 = st_time (ph_state p).
Proof.
  intros cs p H.
  assert (A : st_time_since_event (ph_state p) = #0) by (destruct H; reflexivity).
  split; [exact A|]. intros s0 Hi. destruct (C37_initial _ _ Hi) as [T1 [T2 _]]. split; congruence.
Qed.

(** ** C30, C45 *)
Theorem C30_empty : forall fuel, simulate fuel [] = ([], Finished (default_phase (N := N))).
Proof. reflexivity. Qed.
Theorem C30_init_required : forall fuel (c : PhaseConfig N) (cs : list (PhaseConfig N)), pc_init c = None ->
  simulate fuel (c :: cs) = ([EPhase 1], Aborted PNoInit).
Proof.
  intros fuel c cs H. unfold simulate. cbn [sim_loop]. rewrite phase_new_configured, H. reflexivity.
Qed.
(** [c] without its [init] section. *)
Definition without_init (c : PhaseConfig N) : PhaseConfig N :=
  mkPhaseConfig None (pc_vehicle c) (pc_steering c) (pc_planet_model c) (pc_atmosphere c)
    (pc_max_acceleration c) (pc_stepsize c) (pc_end_criterion c).
Lemma sim_loop_init_ignored : forall fuel (cs : list (PhaseConfig N)) i q (p : Phase N),
  sim_loop fuel i (Some q) p (map without_init cs) = sim_loop fuel i (Some q) p cs.
Proof.
  intros fuel cs. induction cs as [|c cs IH]; intros i q p; [reflexivity|].
  cbn [map sim_loop]. rewrite !phase_new_configured.
  change (configured q (without_init c)) with (configured q c).
  destruct (run fuel (reset (configured q c))) as [h [p'| |]]; [rewrite IH| |]; reflexivity.
Qed.
Theorem C30_init_ignored_later : forall fuel (c : PhaseConfig N) (cs : list (PhaseConfig N)),
  simulate fuel (c :: map without_init cs) = simulate fuel (c :: cs).
Proof.
  intros fuel c cs. unfold simulate. cbn [sim_loop].
  destruct (phase_new None c) as [p|e]; [|reflexivity].
  destruct (run fuel (reset p)) as [h [p'| |]]; [rewrite sim_loop_init_ignored| |]; reflexivity.
Qed.

(** Phase headers of an output. *)
Definition headers (ev : list (event N)) : list nat :=
  flat_map (fun e => match e with EPhase i => [i] | ERecord _ => [] end) ev.
Lemma headers_records : forall h, headers (map ERecord h) = [].
Proof. induction h; auto. Qed.
Lemma headers_app : forall a b, headers (a ++ b) = headers a ++ headers b.
Proof. intros a b. unfold headers. apply flat_map_app. Qed.
Lemma sim_loop_headers : forall fuel (cs : list (PhaseConfig N)) i prev (p : Phase N) ev st, sim_loop fuel i prev p cs = (ev, st) ->
  exists k, headers ev = seq i k /\ (k <= length cs)%nat /\
  (forall q, st = Finished q -> k = length cs).
Proof.
  intros fuel cs. induction cs as [|c cs IH]; intros i prev p ev st H; cbn [sim_loop] in H.
  - injection H as <- <-. exists 0%nat. cbn. auto.
  - destruct (phase_new prev c) as [p1|e].
    2:{ injection H as <- <-. exists 1%nat. cbn. split; [reflexivity|]. split; [lia|]. intros q E; discriminate. }
    destruct (run fuel (reset p1)) as [h [p2|e|p2]].
    + destruct (sim_loop fuel (S i) (Some p2) p2 cs) as [ev1 st1] eqn:L. injection H as <- <-.
      destruct (IH _ _ _ _ _ L) as [k [A [B C]]]. exists (S k).
      change (EPhase i :: map ERecord h ++ ev1) with ([EPhase i] ++ map ERecord h ++ ev1).
      rewrite !headers_app, headers_records, A. cbn. split; [reflexivity|]. split; [lia|].
      intros q E. rewrite (C q E). reflexivity.
    + injection H as <- <-. exists 1%nat.
      change (EPhase i :: map ERecord h) with ([EPhase i] ++ map ERecord h).
      rewrite headers_app, headers_records. cbn. split; [reflexivity|]. split; [lia|].
      intros q E; discriminate.
    + injection H as <- <-. exists 1%nat.
      change (EPhase i :: map ERecord h) with ([EPhase i] ++ map ERecord h).
      rewrite headers_app, headers_records. cbn. split; [reflexivity|]. split; [lia|].
      intros q E; discriminate.
Qed.
(** Phases are announced in order, each exactly once, and all of them when the
    simulation finishes. *)
Theorem C30_order : forall fuel (cs : list (PhaseConfig N)) ev st, simulate fuel cs = (ev, st) ->
  exists k, headers ev = seq 1 k /\ (k <= length cs)%nat /\
  (forall q, st = Finished q -> k = length cs).
Proof. intros fuel cs ev st H. eapply sim_loop_headers. exact H. Qed.

Lemma sim_loop_app : forall fuel cs1 cs2 i prev (p : Phase N), 
  (cs1 <> [] \/ exists q, prev = Some q /\ p = q) ->
  sim_loop fuel i prev p (cs1 ++ cs2) =
  let (ev1, st1) := sim_loop fuel i prev p cs1 in
  match st1 with
  | Finished q => let (ev2, st2) := sim_loop fuel (i + length cs1) (Some q) q cs2 in (ev1 ++ ev2, st2)
  | _ => (ev1, st1)
  end.
Proof.
  intros fuel cs1 cs2. induction cs1 as [|c cs1 IH]; intros i prev p H.
  - destruct H as [H|[q [-> ->]]]; [congruence|]. cbn [app sim_loop length]. rewrite Nat.add_0_r.
    destruct (sim_loop fuel i (Some q) q cs2). reflexivity.
  - cbn [app sim_loop length]. destruct (phase_new prev c) as [p1|e]; [|reflexivity].
    destruct (run fuel (reset p1)) as [h [p2|e|p2]]; [|reflexivity|reflexivity].
    rewrite IH by (right; eauto).
    replace (i + S (length cs1))%nat with (S i + length cs1)%nat by lia.
    destruct (sim_loop fuel (S i) (Some p2) p2 cs1) as [ev1 [q|e|q]]; [|reflexivity|reflexivity].
    destruct (sim_loop fuel (S i + length cs1) (Some q) q cs2) as [ev2 st2].
    cbn. now rewrite <- app_assoc.
Qed.
(** Simulating a concatenation is simulating the first part and, if it finishes in
    phase [q], continuing with the second part from [q]. *)
Theorem C30_concat : forall fuel (cs1 cs2 : list (PhaseConfig N)), cs1 <> [] ->
  simulate fuel (cs1 ++ cs2) =
  let (ev1, st1) := simulate fuel cs1 in
  match st1 with
  | Finished q =>
      let (ev2, st2) := sim_loop fuel (1 + length cs1) (Some q) q cs2 in (ev1 ++ ev2, st2)
  | _ => (ev1, st1)
  end.
Proof. intros fuel cs1 cs2 H. unfold simulate. apply sim_loop_app. auto. Qed.

(** Output of one phase: its header, then one record per iteration of its run, then
    the output of the following phases. *)
Theorem C45_phase_output : forall fuel i prev (p0 : Phase N) (c : PhaseConfig N) cs ev st p,
  sim_loop fuel i prev p0 (c :: cs) = (ev, st) -> phase_new prev c = Ret p ->
  exists h st1 rest, run fuel (reset p) = (h, st1) /\ ev = EPhase i :: map ERecord h ++ rest /\
  match st1 with
  | Finished q => sim_loop fuel (S i) (Some q) q cs = (rest, st)
  | _ => rest = [] /\ st = st1
  end.
Proof.
  intros fuel i prev p0 c cs ev st p H Hn. cbn [sim_loop] in H. rewrite Hn in H.
  destruct (run fuel (reset p)) as [h st1]. exists h, st1.
  destruct st1 as [q|e|q].
  - destruct (sim_loop fuel (S i) (Some q) q cs) as [ev1 st2]. injection H as <- <-. exists ev1.
    split; [reflexivity|]. split; reflexivity.
  - injection H as <- <-. exists []. rewrite app_nil_r.
    split; [reflexivity|]. split; [reflexivity|]. split; reflexivity.
  - injection H as <- <-. exists []. rewrite app_nil_r.
    split; [reflexivity|]. split; [reflexivity|]. split; reflexivity.
Qed.
(** One record per iteration: the states of the records are those of the phases
    [ps] the loop goes through; an iteration that overshoots repeats the previous state,
    every other one shows the state it computed. *)
Theorem C45_records : forall fuel (p : Phase N) h st s0, run fuel p = (h, st) -> initial p s0 ->
  exists ps, chain (set_ph_state p s0) ps /\ h = map (@ph_state N) ps /\
    forall i a b, nth_error (set_ph_state p s0 :: ps) i = Some a -> nth_error ps i = Some b ->
      if attempt_overshoots a then ph_state b = ph_state a else candidate a = Ret (ph_state b).
Proof.
  intros fuel p h st s0 H Hi.
  destruct (run_chain _ _ _ _ H) as [[e [E _]]|[s1 [ps [E [Hc [Hh _]]]]]];
    unfold initial in Hi; [congruence|].
  assert (s1 = s0) by congruence. subst s1. exists ps. split; [exact Hc|]. split; [exact Hh|].
  clear - Hc. revert Hc. generalize (set_ph_state p s0). clear. intros p Hc.
  induction Hc as [p|p p' l Hn Hs Hc IH]; intros i a b Ha Hb.
  - destruct i; discriminate.
  - destruct i as [|i].
    + injection Ha as <-. injection Hb as <-.
      destruct (C32_iteration _ _ Hs) as [s [A [_ B]]].
      destruct (attempt_overshoots p); destruct B as [B _]; congruence.
    + apply (IH i); assumption.
Qed.
(** The last record of a finished simulation is the returned state. *)
Lemma sim_loop_last : forall fuel (cs : list (PhaseConfig N)) i prev (p : Phase N) ev q, cs <> [] ->
  sim_loop fuel i prev p cs = (ev, Finished q) -> exists ev', ev = ev' ++ [ERecord (ph_state q)].
Proof.
  intros fuel cs. induction cs as [|c cs IH]; intros i prev p ev q Hne H; [congruence|].
  cbn [sim_loop] in H. destruct (phase_new prev c) as [p1|e]; [|discriminate].
  destruct (run fuel (reset p1)) as [h [p2|e|p2]] eqn:R; [|discriminate|discriminate].
  destruct (sim_loop fuel (S i) (Some p2) p2 cs) as [ev1 st1] eqn:L. injection H as <- ->.
  destruct cs as [|c' cs].
  - cbn in L. injection L as <- <-. destruct (finished_last _ _ _ _ R eq_refl) as [h' ->].
    exists (EPhase i :: map ERecord h'). rewrite map_app, app_nil_r. reflexivity.
  - destruct (IH (S i) (Some p2) p2 ev1 q) as [ev' ->]; [discriminate|exact L|].
    exists (EPhase i :: map ERecord h ++ ev'). cbn. now rewrite app_assoc.
Qed.
Theorem C45_last_record : forall fuel (cs : list (PhaseConfig N)) ev q, cs <> [] -> simulate fuel cs = (ev, Finished q) ->
  exists ev', ev = ev' ++ [ERecord (ph_state q)].
Proof. intros fuel cs ev q Hne H. eapply sim_loop_last; eauto. Qed.

(** The phases of [begins] are the ones a simulation runs. *)
Theorem begins_simulate : forall (cs : list (PhaseConfig N)) (p : Phase N), begins cs p ->
  forall cs0 c, cs = cs0 ++ [c] ->
  (cs0 = [] /\ exists p', phase_new None c = Ret p' /\ p = reset p') \/
  (exists p1 fuel h q p', begins cs0 p1 /\ run fuel p1 = (h, Finished q) /\
     phase_new (Some q) c = Ret p' /\ p = reset p').
Proof.
  intros cs p H cs0 c E. destruct H as [c1 p H|cs p fuel h q c1 p' Hb Hr Hn].
  - left. destruct cs0 as [|x [|y cs0]]; try discriminate. injection E as ->. eauto.
  - right. apply app_inj_tail in E. destruct E as [-> ->]. exists p, fuel, h, q, p'. auto.
Qed.

(** More fuel does not change the outcome of a run that has stopped. *)
Lemma run_loop_fuel : forall fuel (p : Phase N) h st k, run_loop fuel p = (h, st) ->
  (forall q, st <> Running q) -> run_loop (fuel + k) p = (h, st).
Proof.
  induction fuel as [|fuel IH]; intros p h st k H Hst.
  - cbn in H. destruct (ph_ended p) eqn:E; [|injection H as <- <-; exfalso; eapply Hst; eauto].
    injection H as <- <-. destruct k; cbn; rewrite E; reflexivity.
  - cbn in H |- *. destruct (ph_ended p); [exact H|]. destruct (step p) as [p'|e]; [|exact H].
    destruct (run_loop fuel p') as [h' st'] eqn:R. injection H as <- <-.
    rewrite (IH p' h' st' k R Hst). reflexivity.
Qed.
Lemma run_fuel : forall fuel (p : Phase N) h st k, run fuel p = (h, st) ->
  (forall q, st <> Running q) -> run (fuel + k) p = (h, st).
Proof.
  intros fuel p h st k H Hst. unfold run in H |- *. destruct (system p (ph_state p)); [|exact H].
  now apply run_loop_fuel.
Qed.
Lemma sim_loop_fuel : forall fuel k (cs : list (PhaseConfig N)) i prev p ev st,
  sim_loop fuel i prev p cs = (ev, st) -> (forall q, st <> Running q) ->
  sim_loop (fuel + k) i prev p cs = (ev, st).
Proof.
  intros fuel k cs. induction cs as [|c cs IH]; intros i prev p ev st H Hst; [exact H|].
  cbn [sim_loop] in H |- *. destruct (phase_new prev c) as [p1|e]; [|exact H].
  destruct (run fuel (reset p1)) as [h st1] eqn:R.
  apply run_fuel with (k := k) in R.
  - rewrite R. destruct st1 as [q|e|q]; [|exact H|exact H].
    destruct (sim_loop fuel (S i) (Some q) q cs) as [ev1 st2] eqn:L.
    assert (E : st2 = st) by congruence. subst st2.
    rewrite (IH _ _ _ _ _ L Hst). exact H.
  - intros q E. subst st1. apply (Hst q). congruence.
Qed.
Theorem C30_outcome_independent_of_fuel : forall fuel k (cs : list (PhaseConfig N)) ev st,
  simulate fuel cs = (ev, st) -> (forall q, st <> Running q) -> simulate (fuel + k) cs = (ev, st).
Proof. intros fuel k cs ev st H Hst. apply sim_loop_fuel; assumption. Qed.


(** ** Reported states *)
Lemma sim_loop_records : forall fuel (cs : list (PhaseConfig N)) i prev (p : Phase N) ev st done s,
  match prev with
  | None => done = []
  | Some q => exists p1 h, begins done p1 /\ run fuel p1 = (h, Finished q)
  end ->
  sim_loop fuel i prev p cs = (ev, st) -> In (ERecord s) ev ->
  exists cs1 cs2 (p1 : Phase N) h st1, done ++ cs = cs1 ++ cs2 /\ begins cs1 p1 /\
    run fuel p1 = (h, st1) /\ In s h.
Proof.
  intros fuel cs. induction cs as [|c cs IH]; intros i prev p ev st done s Hp H Hin.
  - cbn in H. injection H as <- <-. destruct Hin.
  - cbn [sim_loop] in H. destruct (phase_new prev c) as [p1|e] eqn:Hn.
    2:{ injection H as <- <-. destruct Hin as [Hin|[]]. discriminate. }
    assert (B : begins (done ++ [c]) (reset p1)).
    { destruct prev as [q|].
      - destruct Hp as [p0 [h [B R]]]. eapply begins_next; eauto.
      - subst done. apply begins_first. exact Hn. }
    destruct (run fuel (reset p1)) as [h st1] eqn:R.
    assert (Here : In (ERecord s) (map ERecord h) ->
      exists cs1 cs2 (p2 : Phase N) h1 st2, done ++ c :: cs = cs1 ++ cs2 /\ begins cs1 p2 /\
        run fuel p2 = (h1, st2) /\ In s h1).
    { intros Hm. apply in_map_iff in Hm. destruct Hm as [s' [E Hs]]. injection E as ->.
      exists (done ++ [c]), cs, (reset p1), h, st1. rewrite <- app_assoc. auto. }
    destruct st1 as [q|e|q].
    + destruct (sim_loop fuel (S i) (Some q) q cs) as [ev1 st2] eqn:L. injection H as <- <-.
      destruct Hin as [Hin|Hin]; [discriminate|]. apply in_app_or in Hin. destruct Hin as [Hin|Hin].
      * now apply Here.
      * destruct (IH (S i) (Some q) q ev1 st2 (done ++ [c]) s) as (cs1 & cs2 & E); auto.
        { exists (reset p1), h. auto. }
        exists cs1, cs2. rewrite <- app_assoc in E. exact E.
    + injection H as <- <-. destruct Hin as [Hin|Hin]; [discriminate|]. now apply Here.
    + injection H as <- <-. destruct Hin as [Hin|Hin]; [discriminate|]. now apply Here.
Qed.

(** [s] is printed when [cs] is simulated, in the phase entered as [p]. *)
Definition reported (cs : list (PhaseConfig N)) (p : Phase N) (s : State N) : Prop :=
  exists cs1 cs2 fuel h st, cs = cs1 ++ cs2 /\ begins cs1 p /\ run fuel p = (h, st) /\ In s h.

Theorem C45_reported : forall fuel (cs : list (PhaseConfig N)) ev st s,
  simulate fuel cs = (ev, st) -> In (ERecord s) ev -> exists p : Phase N, reported cs p s.
Proof.
  intros fuel cs ev st s H Hin.
  destruct (sim_loop_records fuel cs 1 None default_phase ev st [] s eq_refl H Hin)
    as (cs1 & cs2 & p & h & st1 & E & B & R & Hs).
  exists p, cs1, cs2, fuel, h, st1. auto.
Qed.
(** Reported states are results of the equations of motion with the parameters of
    their phase. *)
Theorem C37_reported : forall (cs : list (PhaseConfig N)) (p : Phase N) s, reported cs p s ->
  exists s0, eom p s0 s.
Proof.
  intros cs p s (cs1 & cs2 & fuel & h & st & _ & _ & R & Hs).
  destruct (C37_self_consistent _ _ _ _ _ R Hs) as [E|E]; apply system_eom in E; eauto.
Qed.

(** ** Effective parameters: the last configured value, or the default *)
Definition last_configured {A} (f : PhaseConfig N -> option A) (cs : list (PhaseConfig N)) (default : A) : A :=
  fold_left (fun acc c => inherit (f c) acc) cs default.
(** A parameter in an optional section. *)
Definition within {C A} (section : PhaseConfig N -> option C) (f : C -> option A) (c : PhaseConfig N)
    : option A := match section c with Some x => f x | None => None end.
Lemma inherit_within : forall {C A} (section : PhaseConfig N -> option C) (f : C -> option A) c (d : A),
  inherit (within section f c) d = inherit2 (section c) f d.
Proof. intros C A section f c d. unfold inherit, within, inherit2. destruct (section c); reflexivity. Qed.

Record effective (cs : list (PhaseConfig N)) (p : Phase N) : Prop := {
  f_planet : ph_planet p
    = last_configured (fun c => option_map planet_of (pc_planet_model c)) cs EARTH_SPHERICAL;
  f_atmosphere_model : at_model (ph_atmosphere p)
    = last_configured (within (@pc_atmosphere N)
        (fun a => option_map (fun b : bool => if b then StandardAtmosphere1962 else NoAtmosphere)
                    (ac_enabled a))) cs NoAtmosphere;
  f_wind : at_wind (ph_atmosphere p)
    = last_configured (within (@pc_atmosphere N) (@ac_wind N)) cs (V3 #0 #0 #0);
  f_structure_mass : ve_structure_mass (ph_vehicle p)
    = last_configured (within (@pc_vehicle N) (@vc_structure_mass N)) cs #0;
  f_reference_area : ve_reference_area (ph_vehicle p)
    = last_configured (within (@pc_vehicle N) (@vc_reference_area N)) cs #0;
  f_drag_coeff : ve_drag_coeff (ph_vehicle p)
    = last_configured (within (@pc_vehicle N) (@vc_drag_coeff N)) cs default_table;
  f_lift_coeff : ve_lift_coeff (ph_vehicle p)
    = last_configured (within (@pc_vehicle N) (@vc_lift_coeff N)) cs default_table;
  f_side_force_coeff : ve_side_force_coeff (ph_vehicle p)
    = last_configured (within (@pc_vehicle N) (@vc_side_force_coeff N)) cs default_table;
  f_engines : ve_engines (ph_vehicle p)
    = last_configured (within (@pc_vehicle N) (@vc_engines N)) cs [];
  f_max_acceleration : ph_max_acceleration p
    = last_configured (fun c => option_map (fun m => if m =? - #1 then n_inf else m)
                                  (pc_max_acceleration c)) cs n_inf;
  f_roll : (ax_var (sg_roll (ph_steering p)), ax_c (sg_roll (ph_steering p)))
    = last_configured (within (@pc_steering N) (@sc_roll N)) cs (Time, V3 #0 #0 #0);
  f_yaw : (ax_var (sg_yaw (ph_steering p)), ax_c (sg_yaw (ph_steering p)))
    = last_configured (within (@pc_steering N) (@sc_yaw N)) cs (Time, V3 #0 #0 #0);
  f_pitch : (ax_var (sg_pitch (ph_steering p)), ax_c (sg_pitch (ph_steering p)))
    = last_configured (within (@pc_steering N) (@sc_pitch N)) cs (Time, V3 #0 #0 #0);
  f_end_criterion : ph_end_criterion p
    = last_configured (@pc_end_criterion N) cs (TimeSinceEvent, #0) }.

Theorem C28_effective : forall (cs : list (PhaseConfig N)) (p : Phase N), begins cs p -> effective cs p.
Proof.
  intros cs p H. induction H as [c p H|cs p fuel h q c p' Hb IH Hr Hn].
  - destruct (C28_inheritance _ _ _ H) as [_ I]. destruct I.
    constructor; unfold last_configured; cbn [fold_left]; rewrite ?inherit_within; assumption.
  - destruct (C28_inheritance _ _ _ Hn) as [_ I]. cbn [previous] in I.
    destruct (C28_run_keeps_parameters _ _ _ _ (or_introl Hr)) as (E1 & E2 & E3 & E4 & E5 & E6 & E7 & E8).
    destruct I, IH.
    constructor; unfold last_configured in *; rewrite fold_left_app; cbn [fold_left];
      rewrite ?inherit_within; congruence.
Qed.

(** A finished simulation of two phases went through both. *)
Lemma sim_cons : forall fuel i prev (p : Phase N) (c : PhaseConfig N) cs ev q,
  sim_loop fuel i prev p (c :: cs) = (ev, Finished q) ->
  exists p1 h q1 ev1, phase_new prev c = Ret p1 /\ run fuel (reset p1) = (h, Finished q1) /\
    sim_loop fuel (S i) (Some q1) q1 cs = (ev1, Finished q).
Proof.
  intros fuel i prev p c cs ev q H. cbn [sim_loop] in H.
  destruct (phase_new prev c) as [p1|e]; [|discriminate].
  destruct (run fuel (reset p1)) as [h [p2|e|p2]] eqn:R; [|discriminate|discriminate].
  destruct (sim_loop fuel (S i) (Some p2) p2 cs) as [ev1 st1] eqn:L. injection H as _ ->.
  exists p1, h, p2, ev1. auto.
Qed.
Lemma two_phases : forall fuel (c1 c2 : PhaseConfig N) ev q,
  simulate fuel [c1; c2] = (ev, Finished q) ->
  exists p h q1 p', begins [c1] p /\ ph_ended p = false /\ run fuel p = (h, Finished q1) /\
    phase_new (Some q1) c2 = Ret p' /\ begins [c1; c2] (reset p').
Proof.
  intros fuel c1 c2 ev q H.
  destruct (sim_cons _ _ _ _ _ _ _ _ H) as (p1 & h & q1 & ev1 & Hn & R & C).
  destruct (sim_cons _ _ _ _ _ _ _ _ C) as (p2 & h2 & q2 & ev2 & Hn2 & R2 & _).
  assert (B := begins_first _ _ Hn).
  exists (reset p1), h, q1, p2. split; [exact B|]. split; [reflexivity|]. split; [exact R|].
  split; [exact Hn2|].
  exact (begins_next _ _ _ _ _ _ _ B R Hn2).
Qed.

End WithNum.
