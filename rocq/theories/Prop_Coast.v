(** * C34, C49: simulations without engines and without acceleration limit *)
From Coq Require Import ZArith List Reals Lra Lia Bool.
From Flocq Require Import Core BinarySingleNaN.
From Verif Require Import Num Constants State Tables Config Planet Atmosphere Transformations
  Steering Vehicle RungeKutta Phase Simulation XR XRFacts SpecReal B64 B64Facts SystemFacts SystemTotal RKFacts RunFacts
  PhaseNew Prop_Run Prop_Tables Prop_Panics Prop_Time Prop_TimeForward.
Import ListNotations.

Section Generic.
Context {N : Num}.
Local Open Scope num_scope.
(** Facts about infinity, zero and one that hold in exact and in IEEE arithmetic. *)
Definition infinity_is_top : Prop :=
  (forall x : N, n_ltb (n_inf * n_lit 1001 (-3)) x = false) /\
  veqb (N := N) (vscale #1 (vsum [])) vzero = true /\ n_isnan (n := N) #1 = false.
(** No engines and no limit. *)
Definition glides (p : Phase N) : Prop :=
  tables_accepted (ph_vehicle p) /\ ve_engines (ph_vehicle p) = [] /\ ph_max_acceleration p = n_inf.
(** A configuration that adds no engines and no limit. *)
Definition coasting (c : PhaseConfig N) : Prop :=
  configured_tables_accepted c /\
  (forall v es, pc_vehicle c = Some v -> vc_engines v = Some es -> es = []) /\
  (forall m, pc_max_acceleration c = Some m -> (m =? - #1) = true).

Lemma glider_system : infinity_is_top -> forall (p : Phase N) s0, glides p -> exists s, system p s0 = Ret s.
Proof.
  intros (I1 & I2 & I3) p s0 (T & E & L).
  destruct (system_total p s0 (accepted_lookups p T)) as (s & Q & S). exists s. rewrite S.
  replace (guard p s) with false; [reflexivity|]. symmetry. unfold guard. rewrite L, I1, (q_throttle _ _ _ Q).
  unfold auto_throttle, thrust_force. rewrite E. cbn [map]. rewrite I2. cbn [orb]. exact I3.
Qed.
Lemma glider_run : infinity_is_top -> forall fuel (p : Phase N) h e, glides p -> run fuel p = (h, Aborted e) ->
  e = PNoZeroCrossing.
Proof.
  intros I fuel p h e G R.
  destruct (C49_run fuel p h e (proj1 G) R) as [-> | ->]; [|reflexivity].
  destruct (run_chain _ _ _ _ R) as [[e' [E [_ X]]]|[s0 [ps [Hi [Hc [_ Hst]]]]]].
  - destruct (glider_system I p (ph_state p) G) as [s S]. congruence.
  - assert (F : glides (final (set_ph_state p s0) ps)).
    { apply (chain_final_inv glides) with (p := set_ph_state p s0); [|exact Hc|exact G].
      intros q q' (A & B & C) _ St. destruct (C32_iteration _ _ St) as [s1 [_ [P _]]].
      destruct P as (Pv & _ & _ & _ & _ & Pl & _). unfold glides. rewrite Pv, Pl. auto. }
    set (q := final (set_ph_state p s0) ps) in *. clearbody q.
    assert (En : ph_ended q = false).
    { destruct (ph_ended q) eqn:En; [|reflexivity]. unfold step in Hst. rewrite En in Hst. discriminate. }
    destruct (C32_abort _ _ En Hst) as [X|(_ & _ & X)]; [|exact X]. exfalso.
    destruct (integrator_panic _ _ _ _ X) as [s' E']. destruct (glider_system I q s' F) as [s S]. congruence.
Qed.
Lemma coasting_glides : forall prev (c : PhaseConfig N) (p : Phase N), coasting c -> phase_new prev c = Ret p ->
  (forall q, prev = Some q -> glides q) -> glides (reset p).
Proof.
  intros prev c p (C1 & C2 & C3) Hn G.
  assert (T := phase_new_tables _ _ _ Hn (fun q Hq => proj1 (G q Hq)) C1).
  split; [exact T|]. assert (J := proj2 (C28_inheritance _ _ _ Hn)).
  assert (G' : ve_engines (ph_vehicle (previous prev)) = [] /\ ph_max_acceleration (previous prev) = n_inf).
  { destruct prev as [q|]; [destruct (G q eq_refl) as (_ & A & B); auto|split; reflexivity]. }
  destruct G' as [GE GL].
  split.
  - rewrite (i_engines _ _ _ J). unfold inherit2, inherit. destruct (pc_vehicle c) as [v|] eqn:V; [|exact GE].
    destruct (vc_engines v) as [es|] eqn:E; [|exact GE]. exact (C2 v es eq_refl E).
  - rewrite (i_max_acceleration _ _ _ J). destruct (pc_max_acceleration c) as [m|] eqn:M; [|exact GL].
    cbn [option_map inherit]. now rewrite (C3 m eq_refl).
Qed.
Lemma coasting_loop : infinity_is_top -> forall fuel (cs : list (PhaseConfig N)) i prev (p : Phase N) ev e,
  Forall coasting cs -> (forall q, prev = Some q -> glides q) ->
  sim_loop fuel i prev p cs = (ev, Aborted e) -> e = PNoZeroCrossing \/ e = PNoInit.
Proof.
  intros I fuel cs. induction cs as [|c cs IH]; intros i prev p ev e Hc G H; [discriminate|].
  inversion Hc as [|? ? Hc1 Hc2]; subst. cbn [sim_loop] in H.
  destruct (phase_new prev c) as [p1|e1] eqn:Hn.
  - assert (GR := coasting_glides prev c p1 Hc1 Hn G).
    destruct (run fuel (reset p1)) as [h [p2|e2|p2]] eqn:R; [| |discriminate].
    + destruct (sim_loop fuel (S i) (Some p2) p2 cs) as [ev' st'] eqn:L. injection H as <- ->.
      eapply (IH _ (Some p2)); [exact Hc2| |exact L]. intros q Hq. injection Hq as <-.
      destruct (C28_run_keeps_parameters _ _ _ _ (or_introl R)) as (Pv & _ & _ & _ & _ & Pl & _).
      unfold glides. rewrite Pv, Pl. exact GR.
    + injection H as <- <-. left. exact (glider_run I _ _ _ _ GR R).
  - injection H as <- <-. right. rewrite phase_new_configured in Hn. destruct prev; [discriminate|].
    destruct (pc_init c); [discriminate|]. now injection Hn as <-.
Qed.
Lemma coasting_simulation : infinity_is_top -> forall fuel (cs : list (PhaseConfig N)) ev e,
  Forall coasting cs -> simulate fuel cs = (ev, Aborted e) ->
  e = PNoZeroCrossing \/ (e = PNoInit /\ exists c rest, cs = c :: rest /\ pc_init c = None).
Proof.
  intros I fuel cs ev e Hc H.
  assert (T : Forall configured_tables_accepted cs) by (revert Hc; apply Forall_impl; intros c (A & _); exact A).
  destruct (coasting_loop I fuel cs 1 None default_phase ev e Hc) as [X|X]; [discriminate|exact H|auto|].
  subst e. destruct (C49_simulation fuel cs ev _ T H) as [X|[X|X]]; [discriminate|discriminate|auto].
Qed.
End Generic.

(** ** In exact arithmetic *)
Section Exact.
Context {rot : mat3 xr -> mat3 xr}.
Notation N := (XR rot).
Local Open Scope R_scope.
Lemma exact_infinity_is_top : infinity_is_top (N := N).
Proof.
  split; [|split].
  - intros x. xrs. unfold inf_sign. rewrite Rltb_true by lra. destruct x; reflexivity.
  - unfold veqb, vscale, vsum, vzero. cbn. xrs. rewrite !Reqb_true by ring. reflexivity.
  - reflexivity.
Qed.
(** A simulation without engines and limits, whose phases all have durations, always arrives: after
    the given time (up to a millisecond per phase), with at most [K + 2] records per phase of at most
    [K] seconds. *)
Theorem C34_coast : forall fuel (c : PhaseConfig N) rest ev st K,
  Forall coasting (c :: rest) -> Forall has_duration (c :: rest) -> pc_init c <> None ->
  Forall (fun T => T <= INR K) (durations 0 (c :: rest)) -> (K + 2 <= fuel)%nat ->
  simulate fuel (c :: rest) = (ev, st) ->
  exists q t, st = Finished q /\ st_time (ph_state q) = Fin t /\
     Rabs (t - total (durations 0 (c :: rest))) <= INR (length (c :: rest)) / 1000.
Proof.
  intros fuel c rest ev st K Hc Hd Hi HK Hf H.
  assert (T : Forall configured_tables_accepted (c :: rest)) by (revert Hc; apply Forall_impl; intros x (A & _); exact A).
  destruct (C34_mission fuel (c :: rest) ev st K Hd T HK Hf H) as [X|[-> |[-> (c' & r & E & X)]]].
  - exact X.
  - destruct (coasting_simulation exact_infinity_is_top fuel (c :: rest) ev _ Hc H) as [X|[X _]]; discriminate.
  - injection E as <- <-. contradiction.
Qed.
End Exact.

(** ** In IEEE arithmetic *)
Section IEEE.
Variable lm : libm.
Notation N := (B64 lm).
Lemma ieee_infinity_is_top : infinity_is_top (N := N).
Proof.
  split; [|split].
  - intros x. change (Bltb (Bmult mode_NE (B754_infinity false) (b64_lit 1001 (-3))) (x : b64) = false).
    replace (Bmult mode_NE (B754_infinity false) (b64_lit 1001 (-3))) with (B754_infinity false : b64)
      by (vm_compute; reflexivity).
    destruct (x : b64) as [[]|[]| |[]]; reflexivity.
  - vm_compute. reflexivity.
  - vm_compute. reflexivity.
Qed.
End IEEE.
(** Without engines and limits a simulation is never aborted because of the acceleration: in exact
    arithmetic, and in IEEE binary64 with any mathematical library. *)
Theorem C49_coasting : forall (rot : mat3 xr -> mat3 xr) fuel (cs : list (PhaseConfig (XR rot))) ev e,
  Forall coasting cs -> simulate fuel cs = (ev, Aborted e) ->
  e = PNoZeroCrossing \/ (e = PNoInit /\ exists c rest, cs = c :: rest /\ pc_init c = None).
Proof. intros rot. apply coasting_simulation, exact_infinity_is_top. Qed.
Theorem C49_coasting_ieee : forall (lm : libm) fuel (cs : list (PhaseConfig (B64 lm))) ev e,
  Forall coasting cs -> simulate fuel cs = (ev, Aborted e) ->
  e = PNoZeroCrossing \/ (e = PNoInit /\ exists c rest, cs = c :: rest /\ pc_init c = None).
Proof. intros lm. apply coasting_simulation, ieee_infinity_is_top. Qed.

(** ** Non-vacuity *)
Section Example.
Context {rot : mat3 xr -> mat3 xr}.
Notation N := (XR rot).
Local Open Scope R_scope.
Definition coast_1 : PhaseConfig N :=
  mkPhaseConfig (N := N) (Some (mkInitConfig (N := N) (Fin 28) (Fin 10) (Fin 90) (Fin 0)))
    (Some (mkVehicleConfig (N := N) (Some (Fin 1000)) None (Some (Fin 1)) None None None None))
    None None (Some (mkAtmosphereConfig (N := N) (Some true) None)) None None (Some (TimeSinceEvent, Fin (5 / 2))).
Definition coast_2 : PhaseConfig N :=
  mkPhaseConfig (N := N) None None None None None (Some (Fin (- 1))) None None.
Example ex_coast : Forall coasting [coast_1; coast_2] /\ Forall has_duration [coast_1; coast_2] /\
  exists ev q t, simulate 5 [coast_1; coast_2] = (ev, Finished q) /\ st_time (ph_state q) = Fin t /\
    Rabs (t - 5) <= 2 / 1000.
Proof.
  assert (C : Forall coasting [coast_1; coast_2]).
  { constructor; [|constructor; [|constructor]]; (split; [|split]).
    - intros v t E. injection E as <-. cbn. intros [X|[X|X]]; discriminate.
    - intros v es E. injection E as <-. discriminate.
    - discriminate.
    - intros v t E. discriminate.
    - intros v es E. discriminate.
    - intros m E. injection E as <-. xrs. apply Reqb_true. lra. }
  assert (D : Forall has_duration [coast_1; coast_2]).
  { constructor; [|constructor; [|constructor]]; intros v T E; [|discriminate].
    injection E as <- <-. split; [reflexivity|]. exists (5 / 2). split; [reflexivity|lra]. }
  split; [exact C|]. split; [exact D|].
  destruct (simulate 5 [coast_1; coast_2]) as [ev st] eqn:H.
  destruct (C34_coast 5 coast_1 [coast_2] ev st 3 C D) as (q & t & -> & Et & Bt); try exact H.
  - discriminate.
  - cbn [durations coast_1 coast_2 pc_end_criterion]. repeat constructor; cbn; lra.
  - lia.
  - exists ev, q, t. split; [reflexivity|]. split; [exact Et|].
    revert Bt. cbn [durations coast_1 coast_2 pc_end_criterion total fold_right length].
    replace (5 / 2 + (5 / 2 + 0)) with 5 by field. cbn [INR]. lra.
Qed.
End Example.
