(** * The output of a whole simulation, phase by phase (C28, C31, C36, C45)

    The theorems of Prop_Run and Prop_Time speak of the phases of a mission; here they are stated for
    what a simulation writes: the records between one phase header and the next. *)
From Coq Require Import ZArith List Lia Reals Lra.
From Flocq Require Import Core BinarySingleNaN.
From Verif Require Import Num State Config Phase PhaseNew Simulation SystemFacts RunFacts Prop_Run
  B64 XR XRFacts Prop_Time Prop_IEEE Prop_Coast.
Import ListNotations.

(** ** Specification: the block of a phase *)
(** [h] are the records between the header of phase [i] and the next header (or the end of the output);
    [a] is what was written before, [b] what follows. *)
Definition block {N : Num} (ev a : list (event N)) (i : nat) (h : list (State N)) (b : list (event N)) : Prop :=
  ev = a ++ EPhase i :: map ERecord h ++ b /\ (b = [] \/ exists j b', b = EPhase j :: b').

Section WithNum.
Context {N : Num}.
Local Open Scope num_scope.

Lemma map_record_header : forall (h : list (State N)) ev h1 ev1,
  map ERecord h ++ ev = map ERecord h1 ++ ev1 ->
  (ev = [] \/ exists j b', ev = EPhase j :: b') -> (ev1 = [] \/ exists j b', ev1 = EPhase j :: b') ->
  h = h1 /\ ev = ev1.
Proof.
  induction h as [|s h IH]; intros ev h1 ev1 E A B; destruct h1 as [|s1 h1]; cbn [map app] in E.
  - auto.
  - destruct A as [->|(j & b' & ->)]; discriminate.
  - destruct B as [->|(j & b' & ->)]; discriminate.
  - injection E as -> E. destruct (IH ev h1 ev1 E A B) as [-> ->]. auto.
Qed.
Lemma records_then_header : forall (h : list (State N)) ev a i r,
  map ERecord h ++ ev = a ++ EPhase i :: r -> exists a1, a = map ERecord h ++ a1 /\ ev = a1 ++ EPhase i :: r.
Proof.
  induction h as [|s h IH]; intros ev a i r E; cbn [map app] in *.
  - exists a. auto.
  - destruct a as [|x a]; cbn [app] in E; [discriminate|]. injection E as <- E.
    destruct (IH _ _ _ _ E) as (a1 & -> & ->). exists a1. auto.
Qed.
Lemma sim_loop_header : forall fuel (cs : list (PhaseConfig N)) i prev (p : Phase N) ev st,
  sim_loop fuel i prev p cs = (ev, st) -> ev = [] \/ exists j b', ev = EPhase j :: b'.
Proof.
  intros fuel cs i prev p ev st H. destruct cs as [|c cs]; cbn [sim_loop] in H.
  - injection H as <- <-. now left.
  - right. exists i. destruct (phase_new prev c) as [p1|e]; [|injection H as <- <-; eauto].
    destruct (run fuel (reset p1)) as [h [q|e|q]]; [|injection H as <- <-; eauto|injection H as <- <-; eauto].
    destruct (sim_loop fuel (S i) (Some q) q cs). injection H as <- <-. eauto.
Qed.

Lemma sim_loop_blocks : forall fuel (cs : list (PhaseConfig N)) prev (p : Phase N) ev st done a i h b,
  match prev with
  | None => done = []
  | Some q => exists p1 h1, begins done p1 /\ run fuel p1 = (h1, Finished q)
  end ->
  sim_loop fuel (S (length done)) prev p cs = (ev, st) -> block ev a i h b ->
  (length done < i <= length (done ++ cs))%nat /\
  ((h = [] /\ b = [] /\ exists e, st = Aborted e) \/
   exists (p1 : Phase N) st1, begins (firstn i (done ++ cs)) p1 /\ run fuel p1 = (h, st1) /\
     ph_ended p1 = false /\
     ((b <> [] \/ exists q, st = Finished q) -> exists q, st1 = Finished q) /\
     exists pr c p', phase_new pr c = Ret p' /\ p1 = reset p' /\
       (a = [] /\ pr = prev \/ exists a' q, pr = Some q /\ a = a' ++ [ERecord (ph_state q)])).
Proof.
  intros fuel cs. induction cs as [|c cs IH]; intros prev p ev st done a i h b Hp H [E Hb].
  - cbn in H. injection H as <- <-. destruct a; discriminate.
  - cbn [sim_loop] in H. destruct (phase_new prev c) as [p1|e] eqn:Hn.
    2:{ injection H as <- <-. destruct a as [|x a]; cbn [app] in E.
        - injection E as <- E. destruct h as [|s h]; [|discriminate]. cbn [map app] in E. subst b.
          split; [rewrite app_length; cbn [length]; lia|]. left. split; [reflexivity|]. split; [reflexivity|]. eauto.
        - injection E as _ E. destruct a; discriminate. }
    assert (B : begins (done ++ [c]) (reset p1)).
    { destruct prev as [q|].
      - destruct Hp as [p0 [h1 [B R]]]. eapply begins_next; eauto.
      - subst done. apply begins_first. exact Hn. }
    destruct (run fuel (reset p1)) as [h1 st1] eqn:R.
    assert (Ef : firstn (S (length done)) (done ++ c :: cs) = done ++ [c]).
    { replace (done ++ c :: cs) with ((done ++ [c]) ++ cs) by (rewrite <- app_assoc; reflexivity).
      rewrite firstn_app. replace (S (length done) - length (done ++ [c]))%nat with 0%nat
        by (rewrite app_length; cbn [length]; lia).
      rewrite firstn_O, app_nil_r. apply firstn_all2. rewrite app_length. cbn [length]. lia. }
    assert (Hl : (length done < S (length done) <= length (done ++ c :: cs))%nat)
      by (rewrite app_length; cbn [length]; lia).
    (* the block of this phase *)
    assert (Here : forall ev1 : list (event N), (ev1 = [] \/ exists j b', ev1 = EPhase j :: b') ->
      EPhase (S (length done)) :: map ERecord h1 ++ ev1 = EPhase i :: map ERecord h ++ b ->
      i = S (length done) /\ h = h1 /\ b = ev1).
    { intros ev1 H1 E1. injection E1 as <- E1. symmetry in E1.
      destruct (map_record_header _ _ _ _ E1 Hb H1) as [-> ->]. auto. }
    destruct st1 as [q|e|q].
    + destruct (sim_loop fuel (S (S (length done))) (Some q) q cs) as [ev1 st2] eqn:L. injection H as <- <-.
      destruct a as [|x a]; cbn [app] in E.
      * destruct (Here ev1 (sim_loop_header _ _ _ _ _ _ _ L) E) as (-> & -> & ->).
        split; [exact Hl|]. right. exists (reset p1), (Finished q). rewrite Ef.
        split; [exact B|]. split; [exact R|]. split; [reflexivity|]. split; [eauto|].
        exists prev, c, p1. auto.
      * injection E as <- E. destruct (records_then_header _ _ _ _ _ E) as (a1 & -> & E1).
        replace (S (S (length done))) with (S (length (done ++ [c]))) in L by (rewrite app_length; cbn [length]; lia).
        destruct (IH (Some q) q ev1 st2 (done ++ [c]) a1 i h b) as [Hi G]; [eauto|exact L|split; auto|].
        rewrite <- app_assoc in Hi, G. cbn [app] in Hi, G.
        split; [rewrite app_length in Hi at 1; cbn [length] in Hi; lia|].
        destruct G as [G|(p2 & st3 & G1 & G2 & G3 & G4 & pr & c' & p' & G5 & G6 & G7)]; [left; exact G|].
        right. exists p2, st3. split; [exact G1|]. split; [exact G2|]. split; [exact G3|]. split; [exact G4|].
        exists pr, c', p'. split; [exact G5|]. split; [exact G6|]. right.
        destruct G7 as [[-> ->]|(a' & q' & -> & ->)].
        -- destruct (finished_last _ _ _ _ R eq_refl) as [h' ->].
           exists (EPhase (S (length done)) :: map ERecord h'), q. split; [reflexivity|].
           rewrite map_app, app_nil_r. reflexivity.
        -- exists (EPhase (S (length done)) :: map ERecord h1 ++ a'), q'. split; [reflexivity|].
           cbn [app]. rewrite <- app_assoc. reflexivity.
    + injection H as <- <-. destruct a as [|x a]; cbn [app] in E.
      * rewrite <- (app_nil_r (map ERecord h1)) in E.
        destruct (Here [] (or_introl eq_refl) E) as (-> & -> & ->).
        split; [exact Hl|]. right. exists (reset p1), (Aborted e). rewrite Ef.
        split; [exact B|]. split; [exact R|]. split; [reflexivity|].
        split; [intros [K|[? K]]; [congruence|discriminate]|]. exists prev, c, p1. auto.
      * injection E as <- E. rewrite <- (app_nil_r (map ERecord h1)) in E.
        destruct (records_then_header _ _ _ _ _ E) as (a1 & _ & E1). destruct a1; discriminate.
    + injection H as <- <-. destruct a as [|x a]; cbn [app] in E.
      * rewrite <- (app_nil_r (map ERecord h1)) in E.
        destruct (Here [] (or_introl eq_refl) E) as (-> & -> & ->).
        split; [exact Hl|]. right. exists (reset p1), (Running q). rewrite Ef.
        split; [exact B|]. split; [exact R|]. split; [reflexivity|].
        split; [intros [K|[? K]]; [congruence|discriminate]|]. exists prev, c, p1. auto.
      * injection E as <- E. rewrite <- (app_nil_r (map ERecord h1)) in E.
        destruct (records_then_header _ _ _ _ _ E) as (a1 & _ & E1). destruct a1; discriminate.
Qed.

(** A block belongs to a phase of the mission; the record before it is the state the phase starts from. *)
Lemma simulate_blocks : forall fuel (cs : list (PhaseConfig N)) ev st a i h b,
  simulate fuel cs = (ev, st) -> block ev a i h b ->
  (1 <= i <= length cs)%nat /\
  ((h = [] /\ b = [] /\ exists e, st = Aborted e) \/
   exists (p : Phase N) st1, begins (firstn i cs) p /\ run fuel p = (h, st1) /\ ph_ended p = false /\
     ((b <> [] \/ exists q, st = Finished q) -> exists q, st1 = Finished q) /\
     exists pr c p', phase_new pr c = Ret p' /\ p = reset p' /\
       (a = [] /\ pr = None \/ exists a' q, pr = Some q /\ a = a' ++ [ERecord (ph_state q)])).
Proof.
  intros fuel cs ev st a i h b H B.
  destruct (sim_loop_blocks fuel cs None default_phase ev st [] a i h b eq_refl H B) as [Hi G].
  cbn [length app] in Hi, G. split; [lia|exact G].
Qed.

(** ** C28 *)
(** The records of the block of phase [i] obey the equations of motion with the parameters in effect after
    the first [i] configurations: every parameter is the last one configured, or the default. *)
Theorem C28_records : forall fuel (cs : list (PhaseConfig N)) ev st a i h b s,
  simulate fuel cs = (ev, st) -> block ev a i h b -> In s h ->
  exists (p : Phase N) s0, effective (firstn i cs) p /\ eom p s0 s.
Proof.
  intros fuel cs ev st a i h b s H B Hs.
  destruct (simulate_blocks _ _ _ _ _ _ _ _ H B) as [Hi [(-> & _)|(p & st1 & Bp & R & _)]]; [destruct Hs|].
  assert (Rp : reported cs p s).
  { exists (firstn i cs), (skipn i cs), fuel, h, st1. rewrite firstn_skipn. auto. }
  destruct (C37_reported _ _ _ Rp) as [s0 X]. exists p, s0. split; [now apply C28_effective|exact X].
Qed.

(** ** C31 *)
(** If the simulation is successful, or has gone on to a further phase, then the last record of the block of
    phase [i] meets the end criterion in effect after the first [i] configurations. *)
Theorem C31_simulation : forall fuel (cs : list (PhaseConfig N)) ev st a i h b,
  simulate fuel cs = (ev, st) -> block ev a i h b -> (b <> [] \/ exists q, st = Finished q) ->
  let (v, target) := last_configured (@pc_end_criterion N) (firstn i cs) (TimeSinceEvent, #0) in
  exists h' s, h = h' ++ [s] /\ (n_abs (get_value v s - target) <? n_lit 1 (-3)) = true.
Proof.
  intros fuel cs ev st a i h b H B F.
  destruct (simulate_blocks _ _ _ _ _ _ _ _ H B) as [Hi [(_ & -> & e & ->)|(p & st1 & Bp & R & He & Fin & _)]].
  { destruct F as [F|[q F]]; [congruence|discriminate]. }
  destruct (Fin F) as [q ->]. assert (E := C28_effective _ _ Bp). rewrite <- (f_end_criterion _ _ E).
  assert (C := C31_finished _ _ _ _ He R). destruct (ph_end_criterion p) as [v tgt].
  cbv zeta in C. destruct C as (h' & -> & M & _). eauto.
Qed.
(** The state returned by a successful simulation is that of its last record (C45_last_record): it meets the
    criterion of the last phase. *)
Theorem C31_returned : forall fuel (cs : list (PhaseConfig N)) ev q, cs <> [] ->
  simulate fuel cs = (ev, Finished q) ->
  let (v, target) := last_configured (@pc_end_criterion N) cs (TimeSinceEvent, #0) in
  (n_abs (get_value v (ph_state q) - target) <? n_lit 1 (-3)) = true.
Proof.
  intros fuel cs ev q Hc H. 
  assert (G : forall done prev i (p : Phase N) ev, 
    match prev with
    | None => done = []
    | Some q => exists p1 h1, begins done p1 /\ run fuel p1 = (h1, Finished q)
    end -> sim_loop fuel i prev p cs = (ev, Finished q) ->
    exists p1 h, begins (done ++ cs) p1 /\ ph_ended p1 = false /\ run fuel p1 = (h, Finished q)).
  { clear H ev. revert Hc. induction cs as [|c cs IH]; intros Hc done prev i p ev Hp H; [congruence|].
    destruct (sim_cons _ _ _ _ _ _ _ _ H) as (p1 & h & q1 & ev1 & Hn & R & L).
    assert (B : begins (done ++ [c]) (reset p1)).
    { destruct prev as [q'|].
      - destruct Hp as [p0 [h1 [B R1]]]. eapply begins_next; eauto.
      - subst done. apply begins_first. exact Hn. }
    destruct cs as [|c' cs].
    - cbn in L. injection L as <- <-. exists (reset p1), h. auto.
    - destruct (IH ltac:(discriminate) (done ++ [c]) (Some q1) (S i) q1 ev1) as (p2 & h2 & G); [eauto|exact L|].
      exists p2, h2. rewrite <- app_assoc in G. exact G. }
  destruct (G [] None 1%nat default_phase ev eq_refl H) as (p & h & B & He & R).
  cbn [app] in B. assert (E := C28_effective _ _ B). rewrite <- (f_end_criterion _ _ E).
  assert (C := C31_finished _ _ _ _ He R). destruct (ph_end_criterion p) as [v tgt].
  cbv zeta in C. destruct C as (h' & _ & M & _). exact M.
Qed.

(** ** C45 *)
(** Every header is followed by its block: what is written between two headers are records. *)
Lemma split_records : forall (ev : list (event N)), exists h b, ev = map ERecord h ++ b /\
  (b = [] \/ exists j b', b = EPhase j :: b').
Proof.
  induction ev as [|[j|s] ev (h & b & -> & Hb)].
  - exists [], []. auto.
  - exists [], (EPhase j :: map ERecord h ++ b). split; [reflexivity|eauto].
  - exists (s :: h), b. auto.
Qed.
Lemma header_block : forall (ev a : list (event N)) i r, ev = a ++ EPhase i :: r -> exists h b, block ev a i h b.
Proof. intros ev a i r ->. destruct (split_records r) as (h & b & -> & Hb). exists h, b. split; auto. Qed.
Lemma record_block : forall n (l pre : list (event N)) k s, (length l <= n)%nat -> In (ERecord s) l ->
  exists a i h b, block (pre ++ EPhase k :: l) a i h b /\ In s h.
Proof.
  induction n as [|n IH]; intros l pre k s Hn H.
  - destruct l; [destruct H|cbn [length] in Hn; lia].
  - destruct (split_records l) as (h & b & -> & Hb). apply in_app_or in H. destruct H as [H|H].
    + apply in_map_iff in H. destruct H as [s' [E Hs]]. injection E as ->.
      exists pre, k, h, b. split; [split; auto|exact Hs].
    + destruct Hb as [->|(j & b' & ->)]; [destruct H|]. destruct H as [H|H]; [discriminate|].
      destruct (IH b' (pre ++ EPhase k :: map ERecord h) j s) as (a & i & h' & b & B & Hs).
      * rewrite app_length in Hn. cbn [length] in Hn. lia.
      * exact H.
      * exists a, i, h', b. split; [|exact Hs]. rewrite <- app_assoc in B. exact B.
Qed.
(** Every record is in the block of a phase: between the header of a phase and the next header. *)
Theorem C45_blocks : forall fuel (cs : list (PhaseConfig N)) ev st s, simulate fuel cs = (ev, st) ->
  In (ERecord s) ev -> exists a i h b, block ev a i h b /\ In s h /\ (1 <= i <= length cs)%nat.
Proof.
  intros fuel cs ev st s H Hin.
  destruct (sim_loop_header _ _ _ _ _ _ _ H) as [->|(j & l & ->)]; [destruct Hin|].
  destruct Hin as [Hin|Hin]; [discriminate|].
  destruct (record_block (length l) l [] j s (le_n _) Hin) as (a & i & h & b & B & Hs).
  cbn [app] in B. exists a, i, h, b. split; [exact B|]. split; [exact Hs|].
  apply (simulate_blocks _ _ _ _ _ _ _ _ H B).
Qed.
End WithNum.

(** The output of a successful simulation of two phases. *)
Lemma two_blocks : forall {N : Num} fuel (c1 c2 : PhaseConfig N) ev q, simulate fuel [c1; c2] = (ev, Finished q) ->
  exists h1 s1 h2 s2, ev = EPhase 1 :: map ERecord (h1 ++ [s1]) ++ EPhase 2 :: map ERecord (h2 ++ [s2]).
Proof.
  intros N fuel c1 c2 ev q H. unfold simulate in H. cbn [sim_loop] in H.
  destruct (phase_new None c1) as [p1|e]; [|discriminate].
  destruct (run fuel (reset p1)) as [h1 [q1|e|q1]] eqn:R1; [|discriminate|discriminate].
  destruct (phase_new (Some q1) c2) as [p2|e]; [|discriminate].
  destruct (run fuel (reset p2)) as [h2 [q2|e|q2]] eqn:R2; [|discriminate|discriminate].
  injection H as <- <-.
  destruct (finished_last _ _ _ _ R1 eq_refl) as [h1' ->]. destruct (finished_last _ _ _ _ R2 eq_refl) as [h2' ->].
  exists h1', (ph_state q1), h2', (ph_state q2). rewrite app_nil_r. reflexivity.
Qed.

(** ** C31 in IEEE arithmetic *)
Section IEEE.
Variable lm : libm.
Notation N := (B64 lm).
(** The last record of every completed phase: the criterion's variable is finite and differs from its target
    by less than 0.001 (to 17 digits). *)
Theorem C31_simulation_ieee : forall fuel (cs : list (PhaseConfig N)) ev st a i h b,
  simulate fuel cs = (ev, st) -> block ev a i h b -> (b <> [] \/ exists q, st = Finished q) ->
  let (v, target) := last_configured (@pc_end_criterion N) (firstn i cs) (TimeSinceEvent, n_lit 0 0) in
  exists h' s, h = h' ++ [s] /\ is_finite (get_value v s : b64) = true /\ is_finite (target : b64) = true /\
    (Rabs (B2R (get_value v s : b64) - B2R (target : b64)) < 10000000000000001 / 10000000000000000000)%R.
Proof.
  intros fuel cs ev st a i h b H B F.
  destruct (simulate_blocks _ _ _ _ _ _ _ _ H B) as [Hi [(_ & -> & e & ->)|(p & st1 & Bp & R & He & Fi & _)]].
  { destruct F as [F|[q F]]; [congruence|discriminate]. }
  destruct (Fi F) as [q ->]. assert (E := C28_effective _ _ Bp). rewrite <- (f_end_criterion _ _ E).
  assert (C := C31_finished_ieee _ _ _ _ _ He R). cbv zeta in C.
  destruct (finished_last _ _ _ _ R He) as [h' ->].
  destruct (ph_end_criterion p) as [v tgt]. cbn [fst snd] in C. exists h', (ph_state q). auto.
Qed.
End IEEE.

(** ** C36 *)
Section Exact.
Context {rot : mat3 xr -> mat3 xr}.
Notation N := (XR rot).
Open Scope R_scope.
(** Within a block the time and the time since the event differ by the time of the event: 0 for the first
    phase, and the time of the last record before the block for the others. *)
Theorem C36_records : forall fuel (cs : list (PhaseConfig N)) ev st a i h b s t0,
  simulate fuel cs = (ev, st) -> block ev a i h b -> In s h ->
  (a = [] /\ t0 = 0 \/ exists a' s', a = a' ++ [ERecord s'] /\ st_time s' = Fin t0) ->
  (exists x, st_time_since_event s = Fin x /\ st_time s = Fin (t0 + x)) \/
  (st_time s = st_time_since_event s /\ forall x, st_time s <> Fin x).
Proof.
  intros fuel cs ev st a i h b s t0 H B Hs Ht.
  destruct (simulate_blocks _ _ _ _ _ _ _ _ H B)
    as [Hi [(-> & _)|(p & st1 & Bp & R & He & _ & pr & c & p' & Hn & Ep & Ha)]]; [destruct Hs|].
  refine (C36_lockstep fuel _ p h st1 s t0 Bp _ R Hs). subst p.
  destruct Ha as [[Ea ->]|(a' & q & -> & Ea)].
  - assert (t0 = 0) as ->.
    { destruct Ht as [[_ E]|(a' & s' & E & _)]; [exact E|]. rewrite Ea in E. destruct a'; discriminate. }
    rewrite phase_new_configured in Hn. destruct (pc_init c) as [ini|]; [|discriminate].
    assert (T : st_time (ph_state p') = n_lit 0 0).
    { injection Hn as <-. unfold phase_init, configured.
      cbn [set_ph_state ph_state set_velocity set_position set_ph_launch st_time].
      destruct (pc_vehicle c) as [[[m|] [k|] ra dc lc sf en]|]; cbn [vc_structure_mass vc_propellant_mass]; reflexivity. }
    transitivity (st_time (ph_state p')); [reflexivity|]. rewrite T. cbn. unfold xlit. apply (f_equal Fin). cbn. lra.
  - destruct (C28_state _ _ _ Hn) as (_ & _ & S1 & S2). rewrite S2, S1.
    destruct Ht as [[E _]|(a2 & s' & E & T)]; [rewrite Ea in E; destruct a'; discriminate|].
    rewrite Ea in E. apply app_inj_tail in E. destruct E as [_ E]. injection E as ->. exact T.
Qed.
End Exact.

(** ** Non-vacuity *)
Section Example.
Context {rot : mat3 xr -> mat3 xr}.
Notation N := (XR rot).
Open Scope R_scope.
(** A coasting mission of two phases of 2.5 s writes a second block after a record with a finite time: the
    hypotheses of the theorems above. *)
Example blocks_nonvacuous : exists ev q a s' h b s t0, simulate 5 [coast_1; coast_2] = (ev, Finished q) /\
  block (N := N) ev (a ++ [ERecord s']) 2 h b /\ In s h /\ st_time s' = Fin t0 /\
  last_configured (@pc_end_criterion N) (firstn 2 [coast_1; coast_2]) (TimeSinceEvent, n_lit 0 0)
    = (TimeSinceEvent, Fin (5 / 2)).
Proof.
  destruct (ex_coast (rot := rot)) as (_ & _ & ev & q & t & H & _).
  assert (Ec2 : last_configured (@pc_end_criterion N) (firstn 2 [coast_1; coast_2]) (TimeSinceEvent, n_lit 0 0)
    = (TimeSinceEvent, Fin (5 / 2))) by reflexivity.
  assert (Ec1 : last_configured (@pc_end_criterion N) (firstn 1 [coast_1; coast_2]) (TimeSinceEvent, n_lit 0 0)
    = (TimeSinceEvent, Fin (5 / 2))) by reflexivity.
  revert H Ec2 Ec1. generalize (coast_1 (rot := rot)), (coast_2 (rot := rot)). intros c1 c2 H Ec2 Ec1.
  destruct (two_blocks _ _ _ _ _ H) as (h1 & s1 & h2 & s2 & E).
  assert (B1 : block ev [] 1 (h1 ++ [s1]) (EPhase 2 :: map ERecord (h2 ++ [s2]))).
  { split; [exact E|]. right. eauto. }
  assert (B2 : block ev ((EPhase 1 :: map ERecord h1) ++ [ERecord s1]) 2 (h2 ++ [s2]) []).
  { split; [|now left]. rewrite E, app_nil_r, map_app. cbn [app map]. rewrite <- !app_assoc. reflexivity. }
  assert (NB : EPhase 2 :: map ERecord (h2 ++ [s2]) <> [] \/ exists q' : Phase N, Finished q = Finished q')
    by (left; discriminate).
  assert (M := C31_simulation 5 [c1; c2] ev (Finished q) [] 1 (h1 ++ [s1]) _ H B1 NB). rewrite Ec1 in M.
  destruct M as (h' & s' & Es & M). apply app_inj_tail in Es. destruct Es as [_ <-].
  assert (Z : exists x, st_time s1 = Fin x).
  { destruct (C36_records _ _ _ _ _ _ _ _ s1 0 H B1) as [(x & _ & Z)|[Z1 Z2]].
    - apply in_or_app. right. now left.
    - now left.
    - eauto.
    - exfalso. cbn [get_value] in M. rewrite <- Z1 in M. revert M Z2.
      destruct (st_time s1) as [x| | |]; intros M Z2; try (cbn in M; discriminate M). now apply (Z2 x). }
  destruct Z as [x Z].
  exists ev, q, (EPhase 1 :: map ERecord h1), s1, (h2 ++ [s2]), [], s2, x.
  split; [exact H|]. split; [exact B2|]. split; [apply in_or_app; right; now left|]. split; [exact Z|exact Ec2].
Qed.
End Example.
