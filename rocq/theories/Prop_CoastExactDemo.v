(** * C63, exact arithmetic: a mission that meets the hypotheses

    Two seconds of fall over the equator of a spinning sphere. *)
From Coq Require Import ZArith List Reals Lra Lia Bool.
From Coquelicot Require Import Coquelicot.
From Coq Require Import List.
From Verif Require Import Num Constants State Tables Config Planet Atmosphere Transformations
  Steering Vehicle RungeKutta Phase Simulation XR XRFacts SpecReal SystemFacts RKFacts RunFacts PhaseNew
  Prop_Run SystemTotal Prop_Gravity Prop_Frames Prop_Steering Prop_Real Prop_RealSim DemoExact Prop_Longitude Prop_LongitudeDemo
  Prop_Simulation Prop_Mission Prop_Plane Prop_PlaneDemo FieldBounds RK4Error Prop_CoastExact.
Import ListNotations.
Local Open Scope R_scope.

Section Exact.
Context {rot : mat3 xr -> mat3 xr}.
Notation N := (XR rot).
Hypothesis Hrot : rot_contract rot.

Lemma fall_two : forall (p : Phase N), falling p -> real_input (ph_state p) -> high 6000000 0 (ph_state p) ->
  ph_stepsize p = Fin 1 -> ph_ended p = false -> ph_end_criterion p = (TimeSinceEvent, Fin 2) -> st_time_since_event (ph_state p) = Fin 0 ->
  exists s1 s2 st v1 r1 v2, run 2 p = ([s1; s2], st) /\ st_time_since_event s1 = Fin (INR 0 + 1) /\ st_time_since_event s2 = Fin (INR 1 + 1) /\
    st_position s1 = finv r1 /\ st_velocity s1 = finv v1 /\ st_velocity s2 = finv v2.
Proof.
  intros p D RI OL Hh He Hc Ht.
  destruct (fall_evaluation Hrot p (ph_state p) 0 D RI) as (s0 & a & X & RS & _); [apply (high_weaken _ _ _ _ _ OL); lra|].
  assert (OL0 : high 6000000 0 s0 /\ st_time_since_event s0 = Fin 0).
  { apply system_eom in X. destruct OL as ((r & Er & Hr) & (u & Eu & Hu) & Em). split; [split; [|split]|].
    + exists r. rewrite (e_position _ _ _ X). now split.
    + exists u. rewrite (e_velocity _ _ _ X). now split.
    + now rewrite (e_mass _ _ _ X).
    + now rewrite (e_time_since_event _ _ _ X). }
  destruct OL0 as [OL0 Ht0].
  destruct (fall_step Hrot p s0 6000000 0 D RS OL0 ltac:(lra) ltac:(lra)) as (s1 & Y1 & RS1 & OL1 & T1). rewrite Ht0 in T1.
  destruct (fall_step Hrot p s1 _ _ D RS1 OL1 ltac:(lra) ltac:(lra)) as (s2 & Y2 & RS2 & OL2 & T2). rewrite T1 in T2.
  assert (St1 : step (set_ph_state p s0) = Ret (set_ph_state (set_ph_state p s0) s1)).
  { unfold step. change (ph_ended (set_ph_state p s0)) with (ph_ended p). rewrite He.
    change (ph_stepsize (set_ph_state p s0)) with (ph_stepsize p). rewrite Hh.
    change (integrator_step (fun x => system (set_ph_state p s0) x) (ph_state (set_ph_state p s0)) (Fin 1)) with (integrator_step (system p) s0 (Fin 1)).
    rewrite Y1. cbn [bind]. change (ph_end_criterion (set_ph_state p s0)) with (ph_end_criterion p). rewrite Hc. cbn [fst snd get_value].
    match goal with |- (if ?b then _ else _) = _ => assert (B : b = false) end.
    { rewrite T1. xrs. cbn [n_lit XR]. unfold xlit. cbn [xltb]. apply Rltb_false. replace (0 + 1 - 2) with (-1) by ring. rewrite Rabs_left by lra. cbn. lra. }
    rewrite B. clear B. unfold event_is_active. change (ph_end_criterion (set_ph_state p s0)) with (ph_end_criterion p). rewrite Hc. cbn [fst snd get_value].
    change (ph_state (set_ph_state p s0)) with s0. rewrite T1, Ht0.
    match goal with |- (if (if ?b then ?c else ?d) then _ else _) = _ => assert (B : b = false); [|assert (C : d = false)] end.
    { cbn [xadd n_ltb XR xltb]. apply Rltb_false. lra. }
    { cbn [xadd n_ltb XR xltb]. apply Rltb_false. lra. }
    rewrite B, C. reflexivity. }
  set (p1 := set_ph_state (set_ph_state p s0) s1) in *.
  assert (St2 : step p1 = Ret (set_ph_state (set_ph_ended p1 true) s2)).
  { unfold step. change (ph_ended p1) with (ph_ended p). rewrite He.
    change (ph_stepsize p1) with (ph_stepsize p). rewrite Hh.
    change (integrator_step (fun x => system p1 x) (ph_state p1) (Fin 1)) with (integrator_step (system p) s1 (Fin 1)).
    rewrite Y2. cbn [bind]. change (ph_end_criterion p1) with (ph_end_criterion p). rewrite Hc. cbn [fst snd get_value]. rewrite T2.
    match goal with |- (if ?b then _ else _) = _ => assert (B : b = true) end; [|rewrite B; reflexivity].
    xrs. cbn [n_lit XR]. unfold xlit. cbn [xltb]. apply Rltb_true. replace (0 + 1 + 1 - 2) with 0 by ring. rewrite Rabs_R0. cbn. lra. }
  destruct OL1 as ((r1 & Er1 & _) & (v1 & Ev1 & _) & _), OL2 as (_ & (v2 & Ev2 & _) & _).
  exists s1, s2, (Finished (set_ph_state (set_ph_ended p1 true) s2)), v1, r1, v2.
  split; [|split; [rewrite T1; reflexivity|split; [rewrite T2; apply (f_equal Fin); cbn [INR]; ring|auto]]].
  unfold run. rewrite X. cbn [run_loop]. change (ph_ended (set_ph_state p s0)) with (ph_ended p). rewrite He, St1.
  change (ph_ended p1) with (ph_ended p). rewrite He, St2. reflexivity.
Qed.
Lemma one_phase : forall fuel (c : PhaseConfig N) p1 h1 st1, phase_new None c = Ret p1 -> run fuel (reset p1) = (h1, st1) ->
  exists st, simulate fuel [c] = (EPhase 1 :: map ERecord h1 ++ [], st).
Proof.
  intros fuel c p1 h1 st1 H1 R1. unfold simulate. cbn [sim_loop]. rewrite H1, R1. destruct st1; eexists; rewrite ?app_nil_r; reflexivity.
Qed.
Definition fall2 : PhaseConfig N := fall_for (rot := rot) 2.
(** The second record is the exact step from the first. *)
Example C63_exact_nonvacuous : exists ev st s1 s2 r1 v1 g, simulate 2 [fall2] = (ev, st) /\ block ev [] 1 [s1; s2] [] /\
  st_position s1 = finv r1 /\ st_velocity s1 = finv v1 /\ (forall x, x <> zeroR -> gradient (potential mu0 0 0 0 Re) x (g x)) /\
  st_position s2 = finv (fst (rk4_second g (r1, v1))) /\ st_velocity s2 = finv (snd (rk4_second g (r1, v1))).
Proof.
  destruct (fall_start (rot := rot) 2) as (p1 & Hn & D1 & S1 & P1 & V1 & M1 & T1 & B1 & C1 & N1).
  assert (O1 : high 6000000 0 (ph_state (reset p1))).
  { split; [|split]; [exists fall_site; split; [exact P1|]|exists (V3 0 6000 0); split; [exact V1|]|exact M1]; unfold fall_site, Re; cbn [vx]; lra. }
  destruct (fall_two (reset p1) D1 (proj1 (proj2 (proj2 S1))) O1 T1 eq_refl C1 eq_refl) as (s1 & s2 & st & v1 & r1 & v2 & R & A1 & A2 & Er & Ev & Ev2).
  destruct (one_phase 2 fall2 p1 _ st Hn R) as (st' & S). cbn [map app] in S.
  exists [EPhase 1; ERecord s1; ERecord s2], st', s1, s2, r1, v1, (grav mu0 0 0 0 Re).
  assert (B : block [EPhase 1; ERecord s1; ERecord s2] [] 1 [s1; s2] []) by (split; [reflexivity|now left]).
  assert (Hg : forall x, x <> zeroR -> gradient (potential mu0 0 0 0 Re) x (grav mu0 0 0 0 Re x)) by (intros x Hx; now apply grav_gradient).
  split; [exact S|]. split; [exact B|]. split; [exact Er|]. split; [exact Ev|]. split; [exact Hg|].
  assert (HR : forall k s, (k <= 1)%nat -> nth_error [s1; s2] k = Some s -> st_time_since_event s = Fin (INR k + 1) /\ exists v, st_velocity s = finv v).
  { intros k s Hk H. destruct k as [|[|k]]; [| |lia]; cbn [nth_error] in H; injection H as <-; split; eauto. }
  exact (C63_exact 2 [fall2] _ _ [] 1 [s1; s2] [] 1 Re Re mu0 0 0 0 (1 / 1000) _ s1 r1 v1 S B eq_refl eq_refl (data_custom _ _ _ _ _ _ _) Hg HR eq_refl Er Ev 1%nat s2 (le_n 1) eq_refl).
Qed.
End Exact.
