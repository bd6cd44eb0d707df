(** * C33 - C36: step size, time and events in exact arithmetic *)
From Coq Require Import ZArith List Reals Lra Lia Bool Sorted.
From Verif Require Import Num Constants State Tables Config Planet Atmosphere Transformations
  Steering Vehicle RungeKutta Phase Simulation XR XRFacts SpecReal SystemFacts RKFacts RunFacts PhaseNew
  Prop_Run SystemTotal Prop_Panics.
Import ListNotations.
Local Open Scope R_scope.

Section Exact.
Context {rot : mat3 xr -> mat3 xr}.
Notation N := (XR rot).

(** ** C33 *)
Theorem C33_secant : forall (p : Phase N) (s0 s1 : State N) v T y0 y1 h,
  ph_end_criterion p = (v, Fin T) -> ph_stepsize p = Fin h ->
  get_value v s0 = Fin y0 -> get_value v s1 = Fin y1 -> y0 <> y1 ->
  exists h', time_to_go p s0 s1 = Fin h' /\
    (* the straight line through (0, y0) and (h, y1) has the value T at h' *)
    (h <> 0 -> y0 + (y1 - y0) / h * h' = T) /\
    (* if the target lies between the two values, the new step is shorter *)
    (0 < h -> (y0 < T < y1 \/ y1 < T < y0) -> 0 < h' < h).
Proof.
  intros p s0 s1 v T y0 y1 h Ec Eh E0 E1 Hne.
  exists (- (y0 - T) * h / ((y1 - T) - (y0 - T))). split; [|split].
  - unfold time_to_go. rewrite Ec, Eh. cbn [fst snd]. rewrite E0, E1. xrs. rewrite xdiv_fin by lra. reflexivity.
  - intros Hh. field. lra.
  - intros Hh B. replace ((y1 - T) - (y0 - T)) with (y1 - y0) by ring.
    replace (- (y0 - T) * h / (y1 - y0)) with (h * ((T - y0) / (y1 - y0))) by (field; lra).
    assert (Q : 0 < (T - y0) / (y1 - y0) < 1).
    { destruct B as [B|B].
      - split; [apply Rdiv_lt_0_compat; lra|]. apply Rmult_lt_reg_r with (y1 - y0); [lra|].
        unfold Rdiv. rewrite Rmult_assoc, Rinv_l by lra. lra.
      - replace ((T - y0) / (y1 - y0)) with ((y0 - T) / (y0 - y1)) by (field; lra).
        split; [apply Rdiv_lt_0_compat; lra|]. apply Rmult_lt_reg_r with (y0 - y1); [lra|].
        unfold Rdiv. rewrite Rmult_assoc, Rinv_l by lra. lra. }
    split; nra.
Qed.

(** A discarded step is retried with that step size; if the criterion variable is a linear
    function of time between the two attempts, the retry ends the phase exactly at the
    target. *)
Theorem C33_retry : forall (p p' : Phase N) v T y0 y1 h s1,
  ph_end_criterion p = (v, Fin T) -> ph_stepsize p = Fin h -> h <> 0 ->
  get_value v (ph_state p) = Fin y0 -> candidate p = Ret s1 -> get_value v s1 = Fin y1 -> y0 <> y1 ->
  step p = Ret p' -> ph_state p' = ph_state p ->
  attempt_overshoots p = true ->
  exists h', ph_stepsize p' = Fin h' /\
    forall s2, candidate p' = Ret s2 -> get_value v s2 = Fin (y0 + (y1 - y0) / h * h') ->
      get_value v s2 = Fin T /\ step p' = Ret (set_ph_state (set_ph_ended p' true) s2).
Proof.
  intros p p' v T y0 y1 h s1 Ec Eh Hh E0 C E1 Hne S Es O.
  destruct (C32_iteration _ _ S) as [s [C' [P I]]]. rewrite O in I. destruct I as (_ & En & Est & _).
  assert (s = s1) by congruence. subst s.
  destruct (C33_secant p (ph_state p) s1 v T y0 y1 h Ec Eh E0 E1 Hne) as (h' & F & L & _).
  exists h'. split; [congruence|]. intros s2 C2 V2. rewrite (L Hh) in V2. split; [exact V2|].
  unfold step. rewrite En.
  destruct P as (_ & _ & _ & _ & _ & _ & _ & Pc). rewrite Pc, Ec. cbn [fst snd].
  change (integrator_step (fun s => system p' s) (ph_state p') (ph_stepsize p')) with (candidate p').
  rewrite C2. cbn [bind]. rewrite V2. xrs.
  replace (T - T) with 0 by ring. rewrite Rabs_R0. rewrite Rltb_true by lra. reflexivity.
Qed.

(** ** C34 *)
Lemma candidate_clock : forall (q : Phase N) s v y h, (v = Time \/ v = TimeSinceEvent) ->
  candidate q = Ret s -> get_value v (ph_state q) = Fin y -> ph_stepsize q = Fin h ->
  get_value v s = Fin (y + h).
Proof.
  intros q s v y h Hv C E Eh. destruct (candidate_eom _ _ C) as [z X].
  destruct Hv as [-> | ->]; cbn [get_value] in E |- *.
  - rewrite (e_time _ _ _ X). cbn [from_vec st_time fst snd]. rewrite E, Eh. reflexivity.
  - rewrite (e_time_since_event _ _ _ X). cbn [from_vec st_time_since_event fst snd]. rewrite E, Eh. reflexivity.
Qed.

Lemma step_at : forall (q : Phase N) s v T y, ph_ended q = false -> candidate q = Ret s ->
  ph_end_criterion q = (v, Fin T) -> get_value v s = Fin y ->
  step q = if Rltb (Rabs (y - T)) (1 / 1000) then Ret (set_ph_state (set_ph_ended q true) s)
    else if event_is_active q (ph_state q) s then
      if (20 <? ph_end_criterion_tries q)%nat then Panic PNoZeroCrossing
      else Ret (set_ph_end_criterion_tries (set_ph_stepsize q (time_to_go q (ph_state q) s))
                  (ph_end_criterion_tries q + 1))
    else Ret (set_ph_state q s).
Proof.
  intros q s v T y En C Ec V. unfold step. rewrite En.
  change (integrator_step (fun s => system q s) (ph_state q) (ph_stepsize q)) with (candidate q).
  rewrite C, Ec. cbn [bind fst snd]. rewrite V. xrs. reflexivity.
Qed.
Lemma step_panic_candidate : forall (q : Phase N) e, ph_ended q = false -> candidate q = Panic e -> step q = Panic e.
Proof.
  intros q e En C. unfold step. rewrite En.
  change (integrator_step (fun s => system q s) (ph_state q) (ph_stepsize q)) with (candidate q).
  rewrite C. reflexivity.
Qed.

Definition ended_at (v : StateVariable) (T : R) (st : status (Phase N)) : Prop :=
  (exists q t, st = Finished q /\ get_value v (ph_state q) = Fin t /\ Rabs (t - T) < 1 / 1000)
  \/ st = Aborted PMaxAcceleration.

Lemma run_loop_ended : forall fuel (q : Phase N), ph_ended q = true -> run_loop fuel q = ([], Finished q).
Proof. intros [|fuel] q H; cbn [run_loop]; now rewrite H. Qed.
Lemma candidate_panic : forall (q : Phase N) e, tables_accepted (ph_vehicle q) -> candidate q = Panic e ->
  e = PMaxAcceleration.
Proof.
  intros q e H C. destruct (integrator_panic _ _ _ _ C) as [s' E].
  destruct (C49_system q s' H) as [[s2 G]|G]; congruence.
Qed.

Lemma clock_loop : forall v T, (v = Time \/ v = TimeSinceEvent) ->
  forall K fuel (q : Phase N) y, (K + 2 <= fuel)%nat -> tables_accepted (ph_vehicle q) -> ph_ended q = false ->
  ph_stepsize q = Fin 1 -> ph_end_criterion_tries q = 0%nat -> ph_end_criterion q = (v, Fin T) ->
  get_value v (ph_state q) = Fin y -> y <= T <= y + INR K ->
  exists h st, run_loop fuel q = (h, st) /\ (length h <= K + 2)%nat /\ ended_at v T st /\
    Forall (fun s : State N => exists t, get_value v s = Fin t /\ y <= t < T + 1 / 1000) h.
Proof.
  intros v T Hv. induction K as [|K IH]; intros fuel q y HK HT En Eh Et Ec Ey Hy.
  all: destruct fuel as [|fuel]; [lia|]; cbn [run_loop]; rewrite En;
    (destruct (candidate q) as [s|e] eqn:C;
     [|rewrite (step_panic_candidate q e En C), (candidate_panic q e HT C);
       exists [], (Aborted PMaxAcceleration);
       (split; [reflexivity|split; [cbn; lia|split; [right; reflexivity|constructor]]])]).
  all: assert (V := candidate_clock q s v y 1 Hv C Ey Eh); rewrite (step_at q s v T (y + 1) En C Ec V).
  all: destruct (Rltb (Rabs (y + 1 - T)) (1 / 1000)) eqn:M;
    [rewrite run_loop_ended by reflexivity; cbn [set_ph_state set_ph_ended ph_state];
     apply Rltb_iff in M;
     exists [s], (Finished (set_ph_state (set_ph_ended q true) s));
     (split; [reflexivity|split; [cbn; lia|split]]);
     [left; eexists; exists (y + 1); split; [reflexivity|]; split; [exact V|exact M]
     |constructor; [|constructor]; exists (y + 1); split; [exact V|]; apply Rabs_def2 in M; lra]|].
  all: apply Rltb_iff_false in M.
  all: assert (EA : event_is_active q (ph_state q) s = Rltb T (y + 1)) by
    (unfold event_is_active; rewrite Ec; cbn [fst snd]; rewrite V, Ey; xrs;
     rewrite (Rltb_false (y + 1) y) by lra; reflexivity).
  all: rewrite EA; destruct (Rltb T (y + 1)) eqn:B; [apply Rltb_iff in B|apply Rltb_iff_false in B].
  (* overshoot: the retry hits the target *)
  1, 3: rewrite Et; cbn [Nat.ltb Nat.leb Nat.add];
    assert (EG : time_to_go q (ph_state q) s = Fin (T - y)) by
      (unfold time_to_go; rewrite Ec, Eh; cbn [fst snd]; rewrite V, Ey; xrs; rewrite xdiv_fin by lra;
       f_equal; field; lra);
    rewrite EG; set (q' := set_ph_end_criterion_tries (set_ph_stepsize q (Fin (T - y))) 1);
    (destruct fuel as [|fuel]; [lia|]); cbn [run_loop];
    (replace (ph_ended q') with false by (symmetry; exact En));
    (destruct (candidate q') as [s'|e] eqn:C';
     [|rewrite (step_panic_candidate q' e En C'), (candidate_panic q' e HT C');
       exists [ph_state q'], (Aborted PMaxAcceleration);
       (split; [reflexivity|split; [cbn; lia|split; [right; reflexivity|]]]);
       constructor; [exists y; split; [exact Ey|lra]|constructor]]);
    assert (V' := candidate_clock q' s' v y (T - y) Hv C' Ey eq_refl);
    rewrite (step_at q' s' v T (y + (T - y)) En C' Ec V');
    (replace (y + (T - y) - T) with 0 by ring); rewrite Rabs_R0, Rltb_true by lra;
    rewrite run_loop_ended by reflexivity;
    exists [ph_state q'; s'], (Finished (set_ph_state (set_ph_ended q' true) s'));
    (split; [reflexivity|split; [cbn; lia|split]]);
    [left; eexists; exists (y + (T - y)); split; [reflexivity|]; split; [exact V'|];
     replace (y + (T - y) - T) with 0 by ring; rewrite Rabs_R0; lra
    |constructor; [exists y; split; [exact Ey|lra]|];
     constructor; [exists (y + (T - y)); split; [exact V'|lra]|constructor]].
  - (* K = 0 *) exfalso. cbn in Hy. lra.
  - (* an accepted step *)
    destruct (IH fuel (set_ph_state q s) (y + 1)) as (h & st & R & L & A & F); try assumption; try lia.
    + rewrite S_INR in Hy. lra.
    + rewrite R. exists (s :: h), st. split; [reflexivity|]. split; [cbn; lia|]. split; [exact A|].
      constructor; [exists (y + 1); split; [exact V|lra]|].
      revert F. apply Forall_impl. intros x [t [E1 E2]]. exists t. split; [exact E1|lra].
Qed.

(** A phase that ends at a given time (or time since its start), not before its start:
    it terminates after at most [K + 2] iterations for every [K] not smaller than the
    duration, at that time - or aborts because of the acceleration limit.  All the while
    the clock stays between start and target. *)
Theorem C34_terminates : forall (cs : list (PhaseConfig N)) (p : Phase N) s0 v T y0 K fuel,
  begins cs p -> tables_accepted (ph_vehicle p) -> (v = Time \/ v = TimeSinceEvent) ->
  ph_end_criterion p = (v, Fin T) -> initial p s0 -> get_value v s0 = Fin y0 ->
  y0 <= T <= y0 + INR K -> (K + 2 <= fuel)%nat ->
  exists h st, run fuel p = (h, st) /\ (length h <= K + 2)%nat /\
    ((exists q t, st = Finished q /\ get_value v (ph_state q) = Fin t /\ Rabs (t - T) < 1 / 1000)
     \/ st = Aborted PMaxAcceleration) /\
    forall s, In s h -> exists t, get_value v s = Fin t /\ y0 <= t < T + 1 / 1000.
Proof.
  intros cs p s0 v T y0 K fuel Hb HT Hv Ec Hi Ey Hy HK.
  unfold run. unfold initial in Hi. rewrite Hi.
  destruct (C29_stepsize_is_one cs p Hb) as [H1 H2].
  destruct (C32_counter_starts_at_zero cs p s0 Hb) as [H3 H4].
  destruct (clock_loop v T Hv K fuel (set_ph_state p s0) y0) as (h & st & R & L & A & F); try assumption.

  exists h, st. rewrite Forall_forall in F. auto.
Qed.
(** In particular with a duration [T]: the start is at time 0 of the phase. *)
Theorem C34_duration : forall (cs : list (PhaseConfig N)) (p : Phase N) s0 T K fuel,
  begins cs p -> tables_accepted (ph_vehicle p) ->
  ph_end_criterion p = (TimeSinceEvent, Fin T) -> initial p s0 ->
  0 <= T <= INR K -> (K + 2 <= fuel)%nat ->
  exists h st, run fuel p = (h, st) /\ (length h <= K + 2)%nat /\
    ((exists q t, st = Finished q /\ st_time_since_event (ph_state q) = Fin t /\ Rabs (t - T) < 1 / 1000)
     \/ st = Aborted PMaxAcceleration).
Proof.
  intros cs p s0 T K fuel Hb HT Ec Hi Hy HK.
  destruct (C36_start cs p Hb) as [_ E]. destruct (E s0 Hi) as [E1 _].
  destruct (C34_terminates cs p s0 TimeSinceEvent T 0 K fuel) as (h & st & A & B & C & _); auto.
  { lra. }
  exists h, st. auto.
Qed.

(** ** C35 *)
(** The attempt of phase [q] moves the criterion variable towards the target. *)
Definition approaches (q : Phase N) : Prop := forall s, candidate q = Ret s ->
  exists y y' T, crit q (ph_state q) = Fin y /\ crit q s = Fin y' /\ target q = Fin T /\
    (y < y' /\ y < T \/ y' < y /\ T < y).
(** As long as the criterion variable approaches its target, the step size stays
    positive and never grows, and time never runs backwards. *)
Theorem C35_forward_partial : forall (p p' : Phase N) h t, step p = Ret p' -> approaches p ->
  ph_stepsize p = Fin h -> 0 < h -> st_time (ph_state p) = Fin t ->
  exists h' t', ph_stepsize p' = Fin h' /\ 0 < h' <= h /\ st_time (ph_state p') = Fin t' /\ t <= t'.
Proof.
  intros p p' h t S A Eh Hh Et. destruct (C32_iteration _ _ S) as [s [C [P I]]].
  assert (K := C36_step _ _ S). destruct (attempt_overshoots p) eqn:O.
  - destruct I as (_ & _ & E & _). destruct (A s C) as (y & y' & T & E0 & E1 & ET & D).
    unfold attempt_overshoots in O. rewrite C in O. apply andb_prop in O. destruct O as [_ O].
    unfold crit, target in *. unfold overshoots, crit, target in O. rewrite E0, E1, ET in O.
    destruct (ph_end_criterion p) as [v T0] eqn:Ec. cbn [fst snd] in *. subst T0.
    destruct (C33_secant p (ph_state p) s v T y y' h Ec Eh E0 E1) as (h' & F & _ & B); [lra|].
    exists h', t. split; [congruence|]. split.
    + assert (0 < h' < h); [|lra]. apply B; [exact Hh|]. cbn in O.
      destruct (Rltb y' y) eqn:Q; [apply Rltb_iff in Q|apply Rltb_iff_false in Q];
        apply Rltb_iff in O; lra.
    + split; [|lra]. destruct K as [-> _]. exact Et.
  - destruct I as (_ & _ & E & _). exists h, (t + h). split; [congruence|]. split; [lra|]. split; [|lra].
    destruct K as [-> _]. rewrite Et, Eh. reflexivity.
Qed.
Lemma chain_forward : forall (p : Phase N) ps, chain p ps ->
  (forall q, In q (p :: ps) -> ph_ended q = false -> approaches q) ->
  forall h t, ph_stepsize p = Fin h -> 0 < h -> st_time (ph_state p) = Fin t ->
  exists ts, map (fun q => st_time (ph_state q)) ps = map Fin ts /\ StronglySorted Rle (t :: ts).
Proof.
  intros p ps H. induction H as [p|p p' l Hn Hs Hc IH]; intros A h t Eh Hh Et.
  - exists []. split; [reflexivity|]. repeat constructor.
  - destruct (C35_forward_partial p p' h t Hs (A p (or_introl eq_refl) Hn) Eh Hh Et)
      as (h' & t' & E1 & [B1 B2] & E2 & L).
    destruct (IH (fun q Hq => A q (or_intror Hq)) h' t' E1 B1 E2) as (ts & M & Srt).
    exists (t' :: ts). split; [cbn [map]; f_equal; [exact E2|exact M]|].
    inversion Srt as [|? ? S1 F1]; subst. constructor; [exact Srt|]. constructor; [exact L|].
    revert F1. apply Forall_impl. intros x. lra.
Qed.
(** For a whole phase: the reported times are in non-decreasing order. *)
Theorem C35_monotone_partial : forall fuel (cs : list (PhaseConfig N)) (p : Phase N) h st t s0, begins cs p ->
  run fuel p = (h, st) -> initial p s0 -> st_time s0 = Fin t ->
  (forall q ps, chain (set_ph_state p s0) (ps ++ [q]) -> ph_ended q = false -> approaches q) ->
  approaches (set_ph_state p s0) ->
  exists ts, map (@st_time N) h = map Fin ts /\ StronglySorted Rle (t :: ts).
Proof.
  intros fuel cs p h st t s0 Hb R Hi Et A A0.
  destruct (run_chain _ _ _ _ R) as [[e [E [-> _]]]|[s1 [ps [Hi' [Hc [-> _]]]]]].
  { exists []. split; [reflexivity|repeat constructor]. }
  assert (s1 = s0) by (unfold initial in *; congruence). subst s1.
  destruct (C29_stepsize_is_one cs p Hb) as [H1 _].
  destruct (chain_forward (set_ph_state p s0) ps Hc) with (h := 1) (t := t) as (ts & M & S).
  - intros q [<-|Hq] En; [exact A0|]. apply in_split in Hq. destruct Hq as (l1 & l2 & ->).
    apply (A q l1); [|exact En].
    replace (l1 ++ q :: l2) with ((l1 ++ [q]) ++ l2) in Hc by (rewrite <- app_assoc; reflexivity).
    now apply chain_split in Hc.
  - exact H1.
  - lra.
  - exact Et.
  - exists ts. split; [|exact S]. rewrite <- M, map_map. reflexivity.
Qed.

(** ** C36 *)
Definition lockstep (t0 : R) (s : State N) : Prop :=
  (exists x, st_time_since_event s = Fin x /\ st_time s = Fin (t0 + x)) \/
  (st_time s = st_time_since_event s /\ forall x, st_time s <> Fin x).
(** During a phase the difference of the two clocks is the time of the last event
    (or both have become infinite or NaN, together). *)
Theorem C36_lockstep : forall fuel (cs : list (PhaseConfig N)) (p : Phase N) h st s t0, begins cs p ->
  st_time (ph_state p) = Fin t0 -> run fuel p = (h, st) -> In s h ->
  (exists x, st_time_since_event s = Fin x /\ st_time s = Fin (t0 + x)) \/
  (st_time s = st_time_since_event s /\ forall x, st_time s <> Fin x).
Proof.
  intros fuel cs p h st s t0 Hb Et R Hs.
  destruct (run_chain _ _ _ _ R) as [[e [E [-> _]]]|[s0 [ps [Hi [Hc [-> _]]]]]]; [destruct Hs|].
  assert (F : Forall (fun q => lockstep t0 (ph_state q)) ps).
  { apply (chain_ind_inv (fun q => lockstep t0 (ph_state q))) with (set_ph_state p s0); auto.
    - intros q q' I En S. assert (K := C36_step _ _ S). unfold lockstep in *.
      destruct (attempt_overshoots q); destruct K as [-> ->]; [exact I|].
      destruct (ph_stepsize q) as [k| | |]; destruct I as [[x [-> ->]]|[E Hn]]; cbn.
      2,4,6,8: rewrite <- E; destruct (st_time (ph_state q)) as [k'| | |];
        try (exfalso; now apply (Hn k')); right; split; try reflexivity; discriminate.
      + left. exists (x + k). split; [reflexivity|]. f_equal. ring.
      + right. split; [reflexivity|discriminate].
      + right. split; [reflexivity|discriminate].
      + right. split; [reflexivity|discriminate].
    - destruct (C36_start cs p Hb) as [_ G]. destruct (G s0 Hi) as [G1 G2]. left. exists 0.
      cbn [set_ph_state ph_state]. split; [exact G1|]. rewrite G2, Et. f_equal. ring. }
  apply in_map_iff in Hs. destruct Hs as [q [<- Hq]]. rewrite Forall_forall in F. exact (F q Hq).
Qed.
End Exact.
