(** * C34, C35: simulations whose phases have given durations *)
From Coq Require Import ZArith List Reals Lra Lia Bool Sorted.
From Verif Require Import Num Constants State Tables Config Planet Atmosphere Transformations
  Steering Vehicle RungeKutta Phase Simulation XR XRFacts SpecReal SystemFacts SystemTotal RKFacts RunFacts
  PhaseNew Prop_Run Prop_Tables Prop_Panics Prop_Time.
Import ListNotations.
Local Open Scope R_scope.

Lemma last_shift : forall {A : Type} (l : list A) a d, last (a :: l) d = last l a.
Proof.
  intros A l. induction l as [|b l IH]; intros a d; [reflexivity|].
  change (last (b :: l) d = last (b :: l) a). now rewrite !IH.
Qed.

Section Exact.
Context {rot : mat3 xr -> mat3 xr}.
Notation N := (XR rot).

(** What holds during a phase that begins at time [t0] with its criterion clock [v] showing [d],
    and ends when this clock shows [T]. *)
Definition ticking (p : Phase N) (v : StateVariable) (t0 d T : R) (q : Phase N) (t : R) : Prop :=
  same_parameters p q /\ exists k, st_time (ph_state q) = Fin (t0 + t) /\
    get_value v (ph_state q) = Fin (d + t) /\
    0 <= t /\ d + t < T + 1 / 1000 /\ ph_stepsize q = Fin k /\ 0 <= k /\
    (ph_ended q = false -> k = 1 /\ d + t <= T \/ d + t + k = T).
Lemma ticking_step : forall (p : Phase N) v t0 d T, v = Time \/ v = TimeSinceEvent ->
  ph_end_criterion p = (v, Fin T) ->
  forall q q' t, ticking p v t0 d T q t -> ph_ended q = false -> step q = Ret q' ->
  exists t', t <= t' /\ ticking p v t0 d T q' t'.
Proof.
  intros p v t0 d T Hv Ec q q' t (P & k & Et & Ev & B0 & Bt & Ek & Bk & D) En St.
  specialize (D En).
  destruct (C32_iteration _ _ St) as [s1 [C [P' A]]].
  assert (P2 := P). destruct P2 as (_ & _ & _ & _ & _ & _ & _ & Pc).
  assert (T1 := candidate_clock q s1 v (d + t) k Hv C Ev Ek).
  assert (T2 := candidate_clock q s1 Time (t0 + t) k (or_introl eq_refl) C Et Ek). cbn [get_value] in T2.
  assert (P3 : same_parameters p q') by (eapply same_parameters_trans; eassumption).
  rewrite Ec in Pc. unfold attempt_overshoots in A. rewrite C in A.
  unfold meets, overshoots, crit, target in A. rewrite Pc in A. cbn [fst snd] in A.
  rewrite T1, Ev in A. revert A. xrs.
  rewrite (Rltb_false (d + t + k) (d + t)) by lra.
  destruct (Rltb (Rabs (d + t + k - T)) (1 / 1000)) eqn:M; cbn [negb andb].
  - intros (Es & En' & Ek' & _). apply Rltb_iff, Rabs_def2 in M.
    exists (t + k). split; [lra|]. split; [exact P3|]. exists k. rewrite Es, Ek', En'.
    split; [rewrite T2; apply (f_equal Fin); ring|]. split; [rewrite T1; apply (f_equal Fin); ring|].
    split; [lra|]. split; [lra|]. split; [exact Ek|]. split; [exact Bk|]. discriminate.
  - apply Rltb_iff_false in M.
    assert (G : k = 1 /\ d + t <= T).
    { destruct D as [D|D]; [exact D|]. exfalso. rewrite D in M. replace (T - T) with 0 in M by ring.
      rewrite Rabs_R0 in M. lra. }
    destruct (Rltb T (d + t + k)) eqn:O.
    + apply Rltb_iff in O. intros (Es & En' & Ek' & _).
      exists t. split; [lra|]. split; [exact P3|]. exists (T - (d + t)). rewrite Es, Ek'.
      split; [exact Et|]. split; [exact Ev|]. split; [lra|]. split; [lra|]. split.
      * unfold time_to_go. rewrite Pc, Ek. cbn [fst snd]. rewrite T1, Ev. xrs. rewrite xdiv_fin by lra.
        apply (f_equal Fin). field. lra.
      * split; [lra|]. intros _. right. ring.
    + apply Rltb_iff_false in O. intros (Es & En' & Ek' & _).
      exists (t + k). split; [lra|]. split; [exact P3|]. exists k. rewrite Es, Ek'.
      split; [rewrite T2; apply (f_equal Fin); ring|]. split; [rewrite T1; apply (f_equal Fin); ring|].
      split; [lra|]. split; [lra|]. split; [exact Ek|]. split; [exact Bk|]. intros _. left. lra.
Qed.
Lemma ticking_start : forall (cs : list (PhaseConfig N)) (p : Phase N) s0 v t0 d T, v = Time \/ v = TimeSinceEvent ->
  begins cs p -> initial p s0 -> st_time (ph_state p) = Fin t0 -> get_value v (ph_state p) = Fin d ->
  d <= T -> ticking p v t0 d T (set_ph_state p s0) 0.
Proof.
  intros cs p s0 v t0 d T Hv Hb Hi H0 Hd HT.
  split; [repeat split|]. destruct (C36_start cs p Hb) as [G0 G]. destruct (G s0 Hi) as [G1 G3].
  destruct (C29_stepsize_is_one cs p Hb) as [H1 _].
  assert (Ev : get_value v s0 = Fin d).
  { destruct Hv as [-> | ->]; cbn [get_value] in *; [now rewrite G3|now rewrite G1, <- G0]. }
  exists 1. cbn [set_ph_state ph_state ph_stepsize ph_ended].
  split; [rewrite G3, H0; apply (f_equal Fin); ring|].
  split; [rewrite Ev; apply (f_equal Fin); ring|].
  split; [lra|]. split; [lra|]. split; [exact H1|]. split; [lra|]. intros _. left. lra.
Qed.
Lemma ticking_chain : forall (p : Phase N) v t0 d T, v = Time \/ v = TimeSinceEvent ->
  ph_end_criterion p = (v, Fin T) ->
  forall q ps, chain q ps -> forall t, ticking p v t0 d T q t ->
  exists ts, map (fun r => st_time (ph_state r)) ps = map (fun t => Fin (t0 + t)) ts /\ StronglySorted Rle (t :: ts) /\
    Forall (fun t => d + t < T + 1 / 1000) ts /\ ticking p v t0 d T (final q ps) (last ts t).
Proof.
  intros p v t0 d T Hv Ec q ps H. induction H as [q|q q' l Hn Hs Hc IH]; intros t I.
  - exists []. split; [reflexivity|]. split; [repeat constructor|]. split; [constructor|exact I].
  - destruct (ticking_step p v t0 d T Hv Ec q q' t I Hn Hs) as (t' & L & I').
    destruct (IH t' I') as (ts & E & S & F & Z). exists (t' :: ts).
    assert (I2 := I'). destruct I2 as (_ & k & Et & _ & _ & Bt & _).
    split; [cbn [map]; now rewrite E, Et|]. split.
    { constructor; [exact S|]. inversion S as [|? ? S1 F1]; subst. constructor; [exact L|].
      revert F1. apply Forall_impl. intros x. lra. }
    split; [constructor; [exact Bt|exact F]|].
    unfold final. rewrite !last_shift. exact Z.
Qed.

(** A phase with a time criterion that has not been passed at its beginning: the reported times
    never decrease, and exceed the planned end by less than a millisecond. *)
Theorem C35_timed_partial : forall fuel (cs : list (PhaseConfig N)) (p : Phase N) h st v t0 d T,
  v = Time \/ v = TimeSinceEvent -> begins cs p -> ph_end_criterion p = (v, Fin T) ->
  st_time (ph_state p) = Fin t0 -> get_value v (ph_state p) = Fin d -> d <= T -> run fuel p = (h, st) ->
  exists ts, map (@st_time N) h = map Fin ts /\ StronglySorted Rle (t0 :: ts) /\
    Forall (fun t => t < t0 + (T - d) + 1 / 1000) ts.
Proof.
  intros fuel cs p h st v t0 d T Hv Hb Ec H0 Hd HT R.
  destruct (run_chain _ _ _ _ R) as [[e [E [-> _]]]|[s0 [ps [Hi [Hc [-> _]]]]]].
  { exists []. split; [reflexivity|]. split; [repeat constructor|constructor]. }
  destruct (ticking_chain p v t0 d T Hv Ec _ _ Hc 0 (ticking_start cs p s0 v t0 d T Hv Hb Hi H0 Hd HT))
    as (ts & E & S & F & _).
  exists (map (Rplus t0) ts). split; [rewrite !map_map; exact E|]. split.
  - inversion S as [|? ? S1 F1]; subst. constructor.
    + clear - S1. induction S1 as [|a l S IH F]; [constructor|]. cbn [map]. constructor; [exact IH|].
      rewrite Forall_map. revert F. apply Forall_impl. intros x. lra.
    + rewrite Forall_map. revert F1. apply Forall_impl. intros x. lra.
  - rewrite Forall_map. revert F. apply Forall_impl. intros x. lra.
Qed.

(** ** Whole simulations *)
(** The configuration of the phase names a duration, or nothing at all. *)
Definition has_duration (c : PhaseConfig N) : Prop := forall v T, pc_end_criterion c = Some (v, T) ->
  v = TimeSinceEvent /\ exists r, T = Fin r /\ 0 <= r.
(** The durations of the phases: a phase without end criterion lasts as long as the previous one. *)
Fixpoint durations (T : R) (cs : list (PhaseConfig N)) : list R :=
  match cs with
  | [] => []
  | c :: rest =>
      let T' := match pc_end_criterion c with Some (_, Fin r) => r | _ => T end in
      T' :: durations T' rest
  end.
Definition record_times (ev : list (event N)) : list xr :=
  flat_map (fun e : event N => match e with ERecord s => [st_time s : xr] | EPhase _ => [] end) ev.
Definition total (l : list R) : R := fold_right Rplus 0 l.

Lemma sorted_app : forall t ts t' ts', StronglySorted Rle (t :: ts) -> Forall (fun x => x <= t') ts -> t <= t' ->
  StronglySorted Rle (t' :: ts') -> StronglySorted Rle (t :: ts ++ ts').
Proof.
  intros t ts. revert t. induction ts as [|a ts IH]; intros t t' ts' S F L S'.
  - cbn [app]. inversion S' as [|? ? S1 F1]; subst. constructor; [exact S1|].
    revert F1. apply Forall_impl. intros x. lra.
  - inversion S as [|? ? S1 F1]; subst. inversion F as [|? ? La F']; subst.
    cbn [app]. constructor; [now apply (IH a t' ts')|].
    inversion F1 as [|? ? Lta F1']; subst. constructor; [exact Lta|]. apply Forall_app. split; [exact F1'|].
    inversion S' as [|? ? S2 F2]; subst. revert F2. apply Forall_impl. intros x. lra.
Qed.
Lemma sorted_last : forall t ts, StronglySorted Rle (t :: ts) -> Forall (fun x => x <= last ts t) ts /\ t <= last ts t.
Proof.
  intros t ts. revert t. induction ts as [|a ts IH]; intros t S; [split; [constructor|cbn; lra]|].
  inversion S as [|? ? S1 F1]; subst. inversion F1 as [|? ? L _]; subst. destruct (IH a S1) as [A B].
  rewrite last_shift. split; [constructor; [lra|exact A]|lra].
Qed.
Lemma record_times_app : forall a b, record_times (a ++ b) = record_times a ++ record_times b.
Proof. intros a b. apply flat_map_app. Qed.
Lemma record_times_records : forall h, record_times (map ERecord h) = map (@st_time N) h.
Proof. induction h as [|s h IH]; [reflexivity|]. cbn. now f_equal. Qed.

Lemma finished_on_time : forall fuel (p q : Phase N) h T, ph_ended p = false -> ph_end_criterion p = (TimeSinceEvent, Fin T) ->
  run fuel p = (h, Finished q) -> forall x, st_time_since_event (ph_state q) = Fin x -> Rabs (x - T) < 1 / 1000.
Proof.
  intros fuel p q h T En Ec R x Ex. assert (F := C31_finished _ _ _ _ En R). rewrite Ec in F.
  destruct F as (h' & _ & M & _). cbn [get_value] in M. rewrite Ex in M. revert M. xrs. apply Rltb_iff.
Qed.
Lemma missions : forall fuel (cs : list (PhaseConfig N)) i (prev : option (Phase N)) (p : Phase N) ev st
    (done : list (PhaseConfig N)) t0 T0,
  match prev with
  | None => done = [] /\ t0 = 0 /\ T0 = 0
  | Some q => (exists p1 h, begins done p1 /\ run fuel p1 = (h, Finished q)) /\
      st_time (ph_state q) = Fin t0 /\ ph_end_criterion q = (TimeSinceEvent, Fin T0)
  end -> st_time (ph_state p) = Fin t0 ->
  0 <= T0 -> Forall has_duration cs -> sim_loop fuel i prev p cs = (ev, st) ->
  exists ts, record_times ev = map Fin ts /\ StronglySorted Rle (t0 :: ts) /\
    (forall q, st = Finished q -> exists t, st_time (ph_state q) = Fin t /\
       Rabs (t - (t0 + total (durations T0 cs))) <= INR (length cs) / 1000) /\
    (forall K, Forall configured_tables_accepted cs ->
       (forall q, prev = Some q -> tables_accepted (ph_vehicle q)) ->
       Forall (fun T => T <= INR K) (durations T0 cs) -> (K + 2 <= fuel)%nat ->
       (forall q, st <> Running q) /\ st <> Aborted PNoZeroCrossing).
Proof.
  intros fuel cs. induction cs as [|c cs IH]; intros i prev p ev st done t0 T0 Hp Ht HT Hc H.
  { cbn in H. injection H as <- <-. exists []. split; [reflexivity|]. split; [repeat constructor|]. split.
    - intros q E. injection E as <-. exists t0. split; [exact Ht|]. cbn [durations total fold_right length INR].
      replace (t0 - (t0 + 0)) with 0 by ring. rewrite Rabs_R0. lra.
    - intros. split; discriminate. }
  inversion Hc as [|? ? Hd Hcs]; subst.
  destruct (phase_new prev c) as [p1|e] eqn:Hn.
  2:{ cbn [sim_loop] in H. rewrite Hn in H. injection H as <- <-. exists [].
      split; [reflexivity|]. split; [repeat constructor|]. split; [discriminate|]. intros. split; [discriminate|].
      rewrite phase_new_configured in Hn. destruct prev; [discriminate|]. destruct (pc_init c); [discriminate|].
      injection Hn as <-. discriminate. }
  assert (B : begins (done ++ [c]) (reset p1)).
  { destruct prev as [q|].
    - destruct Hp as [[p0 [h [B R]]] _]. eapply begins_next; eauto.
    - destruct Hp as [-> _]. apply begins_first. exact Hn. }
  set (T' := match pc_end_criterion c with Some (_, Fin r) => r | _ => T0 end).
  assert (Ec : ph_end_criterion (reset p1) = (TimeSinceEvent, Fin T') /\ 0 <= T').
  { rewrite (i_end_criterion _ _ _ (proj2 (C28_inheritance _ _ _ Hn))). unfold T'.
    destruct (pc_end_criterion c) as [[v T]|] eqn:Ec.
    - destruct (Hd v T Ec) as (-> & r & -> & Pr). split; [reflexivity|exact Pr].
    - split; [|exact HT]. cbn [inherit]. destruct prev as [q|]; cbn [previous].
      + destruct Hp as (_ & _ & X). exact X.
      + destruct Hp as (_ & _ & ->). reflexivity. }
  destruct Ec as [Ec PT].
  assert (Es : st_time (ph_state (reset p1)) = Fin t0).
  { destruct prev as [q|].
    - destruct Hp as (_ & Tq & _). destruct (C28_state _ _ _ Hn) as (_ & _ & A & C). rewrite C, A.
      cbn [set_time_since_event set_mass st_time]. exact Tq.
    - destruct Hp as (_ & -> & _). rewrite phase_new_configured in Hn. destruct (pc_init c) as [x|]; [|discriminate].
      injection Hn as <-. unfold configured, mass_of. destruct (pc_vehicle c) as [v|]; [|reflexivity].
      destruct (vc_structure_mass v), (vc_propellant_mass v); reflexivity. }
  destruct (C36_start _ _ B) as [G0 _].
  destruct (C45_phase_output fuel i prev p c cs ev st p1 H Hn) as (h & st1 & rest & R & -> & Hrest).
  destruct (C35_timed_partial fuel _ _ h st1 TimeSinceEvent t0 0 T' (or_intror eq_refl) B Ec Es G0 PT R) as (ts & E & Sd & _).
  assert (RT : forall r, record_times (EPhase i :: map ERecord h ++ r) = map Fin ts ++ record_times r).
  { intros r. change (record_times (map ERecord h ++ r) = map Fin ts ++ record_times r).
    now rewrite record_times_app, record_times_records, E. }
  assert (Cut : tables_accepted (ph_vehicle (reset p1)) -> forall K, T' <= INR K -> (K + 2 <= fuel)%nat ->
    (forall q, st1 <> Running q) /\ st1 <> Aborted PNoZeroCrossing).
  { intros A K BK BF. destruct (run_chain _ _ _ _ R) as [[e [X [_ ->]]]|[s0 [_ [Hi _]]]].
    - split; [discriminate|]. intros Y. injection Y as ->. destruct (C49_system _ (ph_state (reset p1)) A) as [[s Z]|Z];
        rewrite Z in X; discriminate.
    - destruct (C34_duration _ _ s0 T' K fuel B A Ec Hi (conj PT BK) BF) as (h1 & st2 & R2 & _ & [(q2 & t2 & -> & _)| ->]);
      rewrite R in R2; injection R2 as _ ->; split; discriminate. }
  assert (Tab : Forall configured_tables_accepted (c :: cs) -> (forall q, prev = Some q -> tables_accepted (ph_vehicle q)) ->
    tables_accepted (ph_vehicle (reset p1)) /\ Forall configured_tables_accepted cs).
  { intros A1 A2. inversion A1 as [|? ? A3 A4]; subst. split; [|exact A4].
    change (ph_vehicle (reset p1)) with (ph_vehicle p1). eapply phase_new_tables; eassumption. }
  destruct st1 as [q|e|q].
  - assert (En : ph_ended (reset p1) = false) by reflexivity.
    destruct (finished_last _ _ _ _ R En) as [h' Eh].
    assert (Tq : st_time (ph_state q) = Fin (last ts t0)).
    { assert (L : last (map (@st_time N) h) (Fin t0) = last (map Fin ts) (Fin t0)) by now rewrite E.
      rewrite Eh, map_app in L. cbn [map] in L. rewrite last_last in L.
      rewrite L. clear. revert t0. induction ts as [|a ts IH]; intros t0; [reflexivity|].
      cbn [map]. destruct ts as [|b ts]; [reflexivity|].
      change (last (map Fin (b :: ts)) (Fin t0) = Fin (last (b :: ts) t0)). exact (IH t0). }
    assert (Pq : ph_end_criterion q = (TimeSinceEvent, Fin T') /\ ph_vehicle q = ph_vehicle (reset p1)).
    { destruct (C28_run_keeps_parameters _ _ _ _ (or_introl R)) as (X0 & _ & _ & _ & _ & _ & _ & X).
      split; [now rewrite X|exact X0]. }
    destruct Pq as [Pq Vq].
    destruct (IH (S i) (Some q) q rest st (done ++ [c]) (last ts t0) T') as (ts' & E' & S' & F' & Z').
    { split; [exists (reset p1), h; split; [exact B|exact R]|]. split; [exact Tq|exact Pq]. }
    { exact Tq. } { exact PT. } { exact Hcs. } { exact Hrest. }
    exists (ts ++ ts'). split; [rewrite RT, E', map_app; reflexivity|]. split.
    { destruct (sorted_last t0 ts Sd) as [A1 A2]. exact (sorted_app t0 ts _ ts' Sd A1 A2 S'). }
    split.
    + intros r Er. destruct (F' r Er) as (t & Et & Bt). exists t. split; [exact Et|].
      cbn [durations]. fold T'. change (total (T' :: durations T' cs)) with (T' + total (durations T' cs)).
      assert (BL : Rabs (last ts t0 - (t0 + T')) < 1 / 1000).
      { destruct (C36_lockstep _ _ _ h _ (ph_state q) t0 B Es R) as [(y & Ey & Ey')|(_ & Y)].
        - rewrite Eh. apply in_elt.
        - rewrite Tq in Ey'. injection Ey' as Ey'. rewrite Ey'.
          replace (t0 + y - (t0 + T')) with (y - T') by ring. exact (finished_on_time _ _ _ _ T' En Ec R y Ey).
        - exfalso. exact (Y _ Tq). }
      cbn [length]. rewrite S_INR.
      replace (t - (t0 + (T' + total (durations T' cs))))
        with ((t - (last ts t0 + total (durations T' cs))) + (last ts t0 - (t0 + T'))) by ring.
      eapply Rle_trans; [apply Rabs_triang|]. lra.
    + intros K A1 A2 A3 A4. destruct (Tab A1 A2) as [A5 A6]. cbn [durations] in A3. fold T' in A3.
      inversion A3 as [|? ? A7 A8]; subst. apply (Z' K A6); [|exact A8|exact A4].
      intros r Er. injection Er as <-. now rewrite Vq.
  - destruct Hrest as [-> ->]. exists ts. split; [rewrite RT; cbn; apply app_nil_r|]. split; [exact Sd|].
    split; [discriminate|]. intros K A1 A2 A3 A4. destruct (Tab A1 A2) as [A5 A6].
    cbn [durations] in A3. fold T' in A3. inversion A3 as [|? ? A7 A8]; subst. exact (Cut A5 K A7 A4).
  - destruct Hrest as [-> ->]. exists ts. split; [rewrite RT; cbn; apply app_nil_r|]. split; [exact Sd|].
    split; [discriminate|]. intros K A1 A2 A3 A4. destruct (Tab A1 A2) as [A5 A6].
    cbn [durations] in A3. fold T' in A3. inversion A3 as [|? ? A7 A8]; subst. exact (Cut A5 K A7 A4).
Qed.

(** If every phase has a duration, the times of all records of the simulation, over all phases,
    are in non-decreasing order. *)
Theorem C35_mission_partial : forall fuel (cs : list (PhaseConfig N)) ev st,
  Forall has_duration cs -> simulate fuel cs = (ev, st) ->
  exists ts, record_times ev = map Fin ts /\ StronglySorted Rle (0 :: ts).
Proof.
  intros fuel cs ev st Hd H. unfold simulate in H.
  destruct (missions fuel cs 1 None default_phase ev st [] 0 0) as (ts & E & Sd & _); auto; [lra|]. eauto.
Qed.
(** If every phase has a duration of at most [K] seconds, [K + 2] integration attempts per phase
    suffice; the simulation ends when the durations have passed (up to a millisecond per phase),
    unless the first configuration has no initial position or the acceleration limit cannot be met. *)
Theorem C34_mission : forall fuel (cs : list (PhaseConfig N)) ev st K,
  Forall has_duration cs -> Forall configured_tables_accepted cs ->
  Forall (fun T => T <= INR K) (durations 0 cs) -> (K + 2 <= fuel)%nat ->
  simulate fuel cs = (ev, st) ->
  (exists q t, st = Finished q /\ st_time (ph_state q) = Fin t /\
     Rabs (t - total (durations 0 cs)) <= INR (length cs) / 1000) \/
  st = Aborted PMaxAcceleration \/
  (st = Aborted PNoInit /\ exists c rest, cs = c :: rest /\ pc_init c = None).
Proof.
  intros fuel cs ev st K Hd Ht HK Hf H. assert (H' := H). unfold simulate in H'.
  destruct (missions fuel cs 1 None default_phase ev st [] 0 0) as (ts & _ & _ & F & Z); auto; [lra|].
  destruct (Z K Ht) as [Z1 Z2]; [discriminate|exact HK|exact Hf|].
  destruct st as [q|e|q].
  - left. destruct (F q eq_refl) as (t & Et & Bt). exists q, t. rewrite Rplus_0_l in Bt. auto.
  - destruct (C49_simulation fuel cs ev e Ht H) as [-> |[-> |[-> X]]]; [auto|congruence|auto].
  - congruence.
Qed.
End Exact.
