(** * C68: the mission clock

    If every phase lasts a whole number of seconds, the n-th record of the whole simulation reports n seconds. *)
From Coq Require Import ZArith List Reals Lra Lia Bool.
From Flocq Require Import Core BinarySingleNaN.
From Coq Require Import List.
From Verif Require Import Num Constants State Tables Config Planet Atmosphere Transformations Steering Vehicle RungeKutta Phase Simulation
  XR XRFacts B64 B64Facts SystemFacts RKFacts RunFacts PhaseNew Prop_Run Prop_Simulation Prop_Mission Prop_CoastExact Prop_TimeIEEE Prop_EventIEEE Prop_Time
  Prop_Coast Prop_Seconds.
Import ListNotations.
Local Open Scope R_scope.

(** The number of records in a piece of output. *)
Fixpoint records {N : Num} (l : list (event N)) : nat :=
  match l with [] => 0 | ERecord _ :: r => S (records r) | EPhase _ :: r => records r end.

Section WithNum.
Context {N : Num}.
Lemma records_app : forall l m : list (event N), records (l ++ m) = (records l + records m)%nat.
Proof. induction l as [|[i|s] l IH]; intros m; cbn; [reflexivity|apply IH|now rewrite IH]. Qed.
Lemma records_map : forall h : list (State N), records (map ERecord h) = length h.
Proof. induction h as [|s h IH]; cbn; auto. Qed.
Lemma last_header : forall a : list (event N), (exists h, a = map ERecord h) \/ exists a0 i h, a = a0 ++ EPhase i :: map ERecord h.
Proof.
  induction a as [|[i|s] a IH].
  - left. exists []. reflexivity.
  - right. destruct IH as [[h ->]|(a0 & j & h & ->)]; [exists [], i, h; reflexivity|exists (EPhase i :: a0), j, h; reflexivity].
  - destruct IH as [[h ->]|(a0 & j & h & ->)]; [left; exists (s :: h); reflexivity|right; exists (ERecord s :: a0), j, h; reflexivity].
Qed.
(** The phase a record belongs to, and its place there. *)
Lemma place : forall fuel (cs : list (PhaseConfig N)) ev st a s b, simulate fuel cs = (ev, st) -> ev = a ++ ERecord s :: b ->
  exists a0 i h0 h1 b1, block ev a0 i (h0 ++ s :: h1) b1 /\ a = a0 ++ EPhase i :: map ERecord h0.
Proof.
  intros fuel cs ev st a s b H E.
  destruct (last_header a) as [[h Ea]|(a0 & i & h0 & Ea)].
  - exfalso. destruct (sim_loop_header _ _ _ _ _ _ _ H) as [X|(j & l & X)]; rewrite E, Ea in X.
    + destruct h; discriminate.
    + destruct h; discriminate.
  - destruct (split_records b) as (h1 & b1 & Eb & Hb). exists a0, i, h0, h1, b1. split; [|exact Ea]. split; [|exact Hb].
    rewrite E, Ea, Eb. rewrite map_app. cbn [map]. repeat (rewrite <- app_assoc; cbn [app]). reflexivity.
Qed.
Lemma mission_induction : forall fuel (cs : list (PhaseConfig N)) ev st (P : nat -> State N -> Prop), simulate fuel cs = (ev, st) ->
  (forall a i h b, block ev a i h b -> (a = [] \/ exists a' s', a = a' ++ [ERecord s'] /\ P (records a) s') ->
    forall k s, nth_error h k = Some s -> P (records a + k + 1)%nat s) ->
  forall a s b, ev = a ++ ERecord s :: b -> P (records a + 1)%nat s.
Proof.
  intros fuel cs ev st P H Hb. 
  assert (G : forall n a s b, (length a <= n)%nat -> ev = a ++ ERecord s :: b -> P (records a + 1)%nat s).
  2: { intros a s b. exact (G (length a) a s b (le_n _)). }
  induction n as [|n IH]; intros a s b Hn E.
  - destruct (place _ _ _ _ _ _ _ H E) as (a0 & i & h0 & h1 & b1 & _ & Ea). rewrite Ea, app_length in Hn. cbn [length] in Hn. lia.
  - destruct (place _ _ _ _ _ _ _ H E) as (a0 & i & h0 & h1 & b1 & B & Ea).
    assert (R : (records a = records a0 + length h0)%nat) by (rewrite Ea, records_app; cbn [records]; now rewrite records_map).
    rewrite R. refine (Hb a0 i (h0 ++ s :: h1) b1 B _ (length h0) s _).
    2: { rewrite nth_error_app2, Nat.sub_diag by lia. reflexivity. }
    destruct (simulate_blocks _ _ _ _ _ _ _ _ H B) as [_ [(X & _)|(p & st1 & _ & _ & _ & _ & pr & c & p' & _ & _ & Ha)]]; [destruct h0; discriminate|].
    destruct Ha as [[-> _]|(a' & q & _ & E0)]; [now left|]. right. exists a', (ph_state q). split; [exact E0|].
    assert (R0 : records a0 = (records a' + 1)%nat) by (rewrite E0, records_app; reflexivity). rewrite R0.
    destruct B as [Ev _]. apply (IH a' (ph_state q) (EPhase i :: map ERecord (h0 ++ s :: h1) ++ b1)).
    + rewrite Ea, E0, !app_length in Hn. cbn [length] in Hn. lia.
    + rewrite Ev, E0, <- app_assoc. reflexivity.
Qed.
(** The clock a phase starts with. *)
Lemma starting_clock : forall fuel (cs : list (PhaseConfig N)) ev st a i h b p st1 pr c p', simulate fuel cs = (ev, st) -> begins (firstn i cs) p ->
  run fuel p = (h, st1) -> phase_new pr c = Ret p' -> p = reset p' ->
  (a = [] /\ pr = None \/ exists a' q, pr = Some q /\ a = a' ++ [ERecord (ph_state q)]) -> block ev a i h b ->
  (a = [] /\ st_time (ph_state p) = n_lit 0 0) \/ exists a' s', a = a' ++ [ERecord s'] /\ st_time (ph_state p) = st_time s'.
Proof.
  intros fuel cs ev st a i h b p st1 pr c p' H Bp R Hn Ep Ha Bl. subst p.
  destruct Ha as [[Ea ->]|(a' & q & -> & Ea)].
  - left. split; [exact Ea|]. rewrite phase_new_configured in Hn. destruct (pc_init c) as [ini|]; [|discriminate].
    assert (T : st_time (ph_state p') = n_lit 0 0).
    { injection Hn as <-. unfold phase_init, configured.
      cbn [set_ph_state ph_state set_velocity set_position set_ph_launch st_time].
      destruct (pc_vehicle c) as [[[m|] [k|] ra dc lc sf en]|]; cbn [vc_structure_mass vc_propellant_mass]; reflexivity. }
    transitivity (st_time (ph_state p')); [reflexivity|exact T].
  - right. destruct (C28_state _ _ _ Hn) as (_ & _ & S1 & S2). exists a', (ph_state q). split; [exact Ea|]. rewrite S2, S1. reflexivity.
Qed.
Lemma timed_chain_clock : forall fuel (cs : list (PhaseConfig N)) ev st a i h b, simulate fuel cs = (ev, st) -> block ev a i h b ->
  h = [] \/ exists p0 ps, chain p0 ps /\ h = map (@ph_state N) ps /\ ph_ended p0 = false /\ ph_stepsize p0 = n_lit 1 0 /\
    ph_end_criterion_tries p0 = 0%nat /\ ph_end_criterion p0 = criterion_in_effect cs i /\ st_time_since_event (ph_state p0) = n_lit 0 0 /\
    ((a = [] /\ st_time (ph_state p0) = n_lit 0 0) \/ exists a' s', a = a' ++ [ERecord s'] /\ st_time (ph_state p0) = st_time s').
Proof.
  intros fuel cs ev st a i h b H Bl.
  destruct (simulate_blocks _ _ _ _ _ _ _ _ H Bl) as [_ [(X & _)|(p & st1 & Bp & R & En & Fin & pr & c & p' & Hn & Ep & Ha)]]; [now left|].
  destruct (run_chain _ _ _ _ R) as [[e [_ [E S]]]|[s0 [ps [Hi [Hc [E S]]]]]]; [now left|].
  right. exists (set_ph_state p s0), ps. destruct (C29_stepsize_is_one _ _ Bp) as [Z1 _]. destruct (C32_counter_starts_at_zero (firstn i cs) p s0) as [Z3 Z4]; [exact Bp|].
  split; [exact Hc|]. split; [exact E|]. split; [exact Z4|]. split; [exact Z1|]. split; [exact Z3|].
  split; [exact (f_end_criterion _ _ (C28_effective _ _ Bp))|]. destruct (proj2 (C36_start _ _ Bp) s0 Hi) as [T1 T2]. split; [exact T1|].
  cbn [set_ph_state ph_state]. rewrite T2. exact (starting_clock _ _ _ _ _ _ _ _ _ _ _ _ _ H Bp R Hn Ep Ha Bl).
Qed.
Lemma seq_consecutive : forall l n k x y m, l ++ x :: y :: m = seq n k -> y = S x.
Proof.
  induction l as [|z l IH]; intros n k x y m E.
  - destruct k as [|[|k]]; cbn in E; try discriminate. injection E as -> -> _. reflexivity.
  - destruct k as [|k]; cbn in E; [discriminate|]. injection E as _ E. exact (IH _ _ _ _ _ E).
Qed.
Lemma seq_end : forall l n k x, l ++ [x] = seq n k -> (S x = n + k)%nat.
Proof.
  induction l as [|z l IH]; intros n k x E.
  - destruct k as [|[|k]]; cbn in E; try discriminate. injection E as ->. lia.
  - destruct k as [|k]; cbn in E; [discriminate|]. injection E as _ E. apply IH in E. lia.
Qed.
Lemma sum_next : forall (d : nat -> nat) j, list_sum (map d (seq 1 (S j))) = (list_sum (map d (seq 1 j)) + d (S j))%nat.
Proof.
  intros d j. rewrite seq_S, map_app, list_sum_app. cbn. lia.
Qed.
(** If the finished phases have [d i] records each, the phases begin after the sums of these. *)
Lemma schedule : forall fuel (cs : list (PhaseConfig N)) ev st (d : nat -> nat), simulate fuel cs = (ev, st) ->
  (forall a i h b, block ev a i h b -> over b st -> length h = d i) ->
  forall a i r, ev = a ++ EPhase i :: r -> records a = list_sum (map d (seq 1 (i - 1))).
Proof.
  intros fuel cs ev st d H Hd. destruct (C30_order _ _ _ _ H) as (k & Hk & _ & _).
  assert (G : forall n a i r, (length a <= n)%nat -> ev = a ++ EPhase i :: r -> records a = list_sum (map d (seq 1 (i - 1)))).
  2: { intros a i r. exact (G (length a) a i r (le_n _)). }
  induction n as [|n IH]; intros a i r Hn E; destruct (last_header a) as [[h Ea]|(a0 & j & h & Ea)].
  2: { rewrite Ea, app_length in Hn. cbn [length] in Hn. lia. }
  1,2: destruct h as [|s h]; [|exfalso; destruct (sim_loop_header _ _ _ _ _ _ _ H) as [X|(j & l & X)]; rewrite E, Ea in X; discriminate].
  1,2: rewrite Ea in E; rewrite E in Hk; rewrite Ea; cbn [map app headers flat_map] in Hk; destruct k as [|k]; [discriminate|]; injection Hk as -> _; reflexivity.
  assert (B : block ev a0 j h (EPhase i :: r)) by (split; [rewrite E, Ea, <- app_assoc; reflexivity|right; eauto]).
  assert (Lh : length h = d j) by (apply (Hd a0 j h _ B); left; discriminate).
  assert (I : i = S j).
  { rewrite E, Ea in Hk. rewrite !headers_app in Hk. cbn [headers flat_map] in Hk. fold (headers (map ERecord h)) (headers r) in Hk. rewrite headers_records in Hk. cbn [app] in Hk.
    rewrite <- app_assoc in Hk. cbn [app] in Hk. exact (seq_consecutive _ _ _ _ _ _ Hk). }
  assert (J : (1 <= j)%nat) by (apply (simulate_blocks _ _ _ _ _ _ _ _ H B)).
  rewrite Ea, records_app. cbn [records]. rewrite records_map, Lh, I. 
  rewrite (IH a0 j (map ERecord h ++ EPhase i :: r)); [|rewrite Ea, app_length in Hn; cbn [length] in Hn; lia|exact (proj1 B)].
  destruct j as [|j]; [lia|]. replace (S (S j) - 1)%nat with (S j) by lia. replace (S j - 1)%nat with j by lia. symmetry. apply sum_next.
Qed.
Lemma total : forall fuel (cs : list (PhaseConfig N)) ev q (d : nat -> nat), simulate fuel cs = (ev, Finished q) ->
  (forall a i h b, block ev a i h b -> over b (Finished q) -> length h = d i) ->
  records ev = list_sum (map d (seq 1 (length cs))).
Proof.
  intros fuel cs ev q d H Hd. destruct (C30_order _ _ _ _ H) as (k & Hk & _ & Fk). rewrite (Fk q eq_refl) in Hk. clear Fk k.
  destruct (last_header ev) as [[h E]|(a0 & j & h & E)].
  - rewrite E, headers_records in Hk. rewrite <- Hk. destruct h as [|s h]; [rewrite E; reflexivity|].
    exfalso. destruct (sim_loop_header _ _ _ _ _ _ _ H) as [X|(j & l & X)]; rewrite E in X; discriminate.
  - assert (B : block ev a0 j h []) by (split; [rewrite E, app_nil_r; reflexivity|now left]).
    assert (Lh : length h = d j) by (apply (Hd a0 j h _ B); right; eauto).
    assert (J : (1 <= j)%nat) by (apply (simulate_blocks _ _ _ _ _ _ _ _ H B)).
    assert (S0 := schedule fuel cs ev _ d H Hd a0 j (map ERecord h) E).
    assert (I : S j = (1 + length cs)%nat).
    { rewrite E, headers_app in Hk. cbn [headers flat_map] in Hk. fold (headers (map ERecord h)) in Hk. rewrite headers_records in Hk. cbn [app] in Hk. exact (seq_end _ _ _ _ Hk). }
    assert (I' : length cs = j) by lia. rewrite I'.
    rewrite E, records_app. cbn [records]. rewrite records_map, Lh, S0. destruct j as [|j]; [lia|]. replace (S j - 1)%nat with j by lia. symmetry. apply sum_next.
Qed.
End WithNum.

(** ** IEEE binary64, every mathematical library *)
Section IEEE.
Context {lm : libm}.
Notation N := (B64 lm).
Definition mission_clock (s : State N) : b64 := st_time s.
Lemma chain_mission_clock : forall T : b64, is_finite T = true -> forall ps (q : Phase N) j t, chain q ps -> ph_ended q = false -> ph_stepsize q = b64_lit 1 0 ->
  ph_end_criterion_tries q = 0%nat -> ph_end_criterion q = (TimeSinceEvent, T) -> iclock (ph_state q) = whole j -> mission_clock (ph_state q) = whole (t + j) ->
  forall k s, nth_error (map (@ph_state N) ps) k = Some s -> INR (S (j + k)) <= B2R T -> (Z.of_nat (S (t + j + k)) <= 2 ^ 53)%Z ->
  mission_clock s = whole (S (t + j + k)).
Proof.
  intros T FT. induction ps as [|q' l IH]; intros q j t Hc En Eh Et Ec Ey Em k s Hk Hs HZ; [destruct k; discriminate|].
  inversion Hc as [|q0 q0' l0 _ St Cl]; subst.
  assert (Jk : INR (S j) <= INR (S (j + k))) by (apply le_INR; lia).
  destruct (one_iteration_ieee q q' T j FT En Eh Et Ec Ey ltac:(lra) ltac:(lia) St) as (E5 & E & _ & _ & (s0 & C & Es) & _).
  assert (V := Prop_TimeIEEE.candidate_clock q s0 Time ltac:(tauto) C). cbn [get_value] in V. unfold mission_clock in Em.
  assert (E6 : mission_clock (ph_state q') = whole (S (t + j))).
  { unfold mission_clock. rewrite Es, V, Em, Eh. unfold whole. rewrite Nat2Z.inj_succ. apply integer_next; lia. }
  destruct E as [E1|(E1 & E2 & E3 & E4)].
  - rewrite (ended_tail _ _ Cl E1) in Hk. destruct k as [|[|k]]; try discriminate. cbn in Hk. injection Hk as <-. rewrite Nat.add_0_r. exact E6.
  - destruct k as [|k].
    + cbn in Hk. injection Hk as <-. rewrite Nat.add_0_r. exact E6.
    + cbn [map nth_error] in Hk. replace (t + j + S k)%nat with (t + S j + k)%nat in * by lia. replace (j + S k)%nat with (S j + k)%nat in * by lia.
      apply (IH q' (S j) t Cl E1 E2 E3 ltac:(congruence) E5); try assumption. replace (t + S j)%nat with (S (t + j)) by lia. exact E6.
Qed.
(** Every phase lasts a whole number of seconds, at least one. *)
Definition whole_seconds (cs : list (PhaseConfig N)) : Prop :=
  forall i, (1 <= i <= length cs)%nat -> exists (T : b64) m, criterion_in_effect cs i = (TimeSinceEvent, T) /\ is_finite T = true /\ B2R T = INR m /\ (1 <= Z.of_nat m <= 2 ^ 53)%Z.
(** The n-th record of the simulation reports exactly n seconds. *)
Theorem C68_mission_ieee : forall fuel (cs : list (PhaseConfig N)) ev st, simulate fuel cs = (ev, st) -> whole_seconds cs ->
  forall a s b, ev = a ++ ERecord s :: b -> (Z.of_nat (records a + 1) <= 2 ^ 53)%Z -> st_time s = b64_of_Z (Z.of_nat (records a + 1)).
Proof.
  intros fuel cs ev st H Hw.
  refine (mission_induction fuel cs ev st (fun n s => (Z.of_nat n <= 2 ^ 53)%Z -> (st_time s : b64) = b64_of_Z (Z.of_nat n)) H _).
  intros a i h b Bl Prev k s Hs HZ.
  destruct (simulate_blocks _ _ _ _ _ _ _ _ H Bl) as [Hi _]. destruct (Hw i Hi) as (T & m & Hc & FT & RT & Hm).
  destruct (C68_whole_ieee fuel cs ev st a i h b T m H Bl Hc FT RT Hm) as (_ & Len & _).
  assert (Kl : (k < length h)%nat) by (apply nth_error_Some; congruence).
  destruct (timed_chain_clock _ _ _ _ _ _ _ _ H Bl) as [->|(p0 & ps & C & E & E1 & E2 & E3 & E4 & E5 & E6)]; [destruct k; discriminate|].
  rewrite Hc in E4. rewrite whole_0 in E5.
  assert (M0 : mission_clock (ph_state p0) = whole (records a + 0)).
  { unfold mission_clock. destruct E6 as [[Ea Et]|(a' & s' & Ea & Et)].
    - rewrite Et, Ea. exact whole_0.
    - rewrite Et. destruct Prev as [->|(a2 & s2 & Ea2 & Q)]; [destruct a'; discriminate|]. rewrite Ea in Ea2. apply app_inj_tail in Ea2. destruct Ea2 as [_ Es]. injection Es as ->.
      rewrite Q by lia. rewrite Nat.add_0_r. reflexivity. }
  rewrite E in Hs. replace (records a + k + 1)%nat with (S (records a + 0 + k)) in * by lia.
  exact (chain_mission_clock T FT ps p0 0 (records a) C E1 E2 E3 E4 E5 M0 k s Hs ltac:(rewrite RT; apply le_INR; lia) HZ).
Qed.
(** Phase [i] lasts [d i] seconds, a whole number and at least one. *)
Definition lasts (cs : list (PhaseConfig N)) (d : nat -> nat) : Prop :=
  forall i, (1 <= i <= length cs)%nat -> exists T : b64, criterion_in_effect cs i = (TimeSinceEvent, T) /\ is_finite T = true /\ B2R T = INR (d i) /\ (1 <= Z.of_nat (d i) <= 2 ^ 53)%Z.
Lemma lasts_length : forall fuel (cs : list (PhaseConfig N)) ev st d, simulate fuel cs = (ev, st) -> lasts cs d ->
  forall a i h b, block ev a i h b -> over b st -> length h = d i.
Proof.
  intros fuel cs ev st d H Hl a i h b Bl O. destruct (simulate_blocks _ _ _ _ _ _ _ _ H Bl) as [Hi _].
  destruct (Hl i Hi) as (T & Hc & FT & RT & Hm). exact (proj2 (proj2 (C68_whole_ieee fuel cs ev st a i h b T (d i) H Bl Hc FT RT Hm)) O).
Qed.
(** Phase [i] begins after as many seconds as the phases before it last, and each of these has a record. *)
Theorem C68_schedule_ieee : forall fuel (cs : list (PhaseConfig N)) ev st d, simulate fuel cs = (ev, st) -> lasts cs d ->
  forall a i r, ev = a ++ EPhase i :: r -> records a = list_sum (map d (seq 1 (i - 1))).
Proof. intros fuel cs ev st d H Hl. exact (schedule fuel cs ev st d H (lasts_length fuel cs ev st d H Hl)). Qed.
(** A finished mission has one record per second; the clock of its last state is the sum of the durations. *)
Theorem C68_total_ieee : forall fuel (cs : list (PhaseConfig N)) ev q d, simulate fuel cs = (ev, Finished q) -> lasts cs d -> cs <> [] ->
  let n := list_sum (map d (seq 1 (length cs))) in
  records ev = n /\ ((Z.of_nat n <= 2 ^ 53)%Z -> st_time (ph_state q) = b64_of_Z (Z.of_nat n)).
Proof.
  intros fuel cs ev q d H Hl Hne n. assert (E := total fuel cs ev q d H (lasts_length fuel cs ev _ d H Hl)). split; [exact E|]. intros Hn.
  destruct (C45_last_record fuel cs ev q Hne H) as [a Ea].
  assert (W : whole_seconds cs).
  { intros i Hi. destruct (Hl i Hi) as (T & X). exists T, (d i). exact X. }
  assert (R : (records a + 1)%nat = n). { unfold n. rewrite <- E, Ea, records_app. reflexivity. }
  rewrite <- R in *. exact (C68_mission_ieee fuel cs ev _ H W a (ph_state q) [] Ea Hn).
Qed.
End IEEE.
