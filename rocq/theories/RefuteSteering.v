(** * C38, C39: findings about the attitude at events, in binary64 *)
From Coq Require Import ZArith List Bool Reals.
From Flocq Require Import Core BinarySingleNaN.
From Verif Require Import Num Constants State Tables Config Planet Atmosphere Transformations
  Steering Vehicle RungeKutta Phase Simulation B64 B64Facts SystemFacts SystemTotal RKFacts RunFacts PhaseNew
  Prop_Run Prop_Panics Prop_Steering Refute.
Import ListNotations.

Section Generic.
Context {N : Num}.
Lemma begins_tables : forall (cs : list (PhaseConfig N)) (p : Phase N), begins cs p ->
  Forall configured_tables_accepted cs -> tables_accepted (ph_vehicle p).
Proof.
  intros cs p H. induction H as [c p Hn|cs p fuel h q c p' Hb IH Hr Hn]; intros F.
  - inversion F; subst. apply (phase_new_tables None c p Hn); [discriminate|assumption].
  - apply Forall_app in F. destruct F as [F1 F2]. inversion F2; subst.
    apply (phase_new_tables (Some q) c p' Hn); [|assumption].
    intros q' E. injection E as <-. rewrite (run_vehicle _ _ _ _ Hr). now apply IH.
Qed.
(** Two phases: [f q p] where [q] is the end of the first and [p] the start of the second. *)
Definition at_event (c1 c2 : PhaseConfig N) (f : Phase N -> Phase N -> bool) : bool :=
  match phase_new None c1 with
  | Ret p => match run 10 (reset p) with
      | (_, Finished q) => match phase_new (Some q) c2 with Ret p' => f q (reset p') | Panic _ => false end
      | _ => false
      end
  | Panic _ => false
  end.
Lemma at_event_inv : forall c1 c2 f, at_event c1 c2 f = true -> exists p1 h q p',
  begins [c1] p1 /\ run 10 p1 = (h, Finished q) /\ phase_new (Some q) c2 = Ret p' /\
  begins [c1; c2] (reset p') /\ f q (reset p') = true.
Proof.
  intros c1 c2 f H. unfold at_event in H. destruct (phase_new None c1) as [p|] eqn:Hn; [|discriminate].
  destruct (run 10 (reset p)) as [h [q| |]] eqn:R; try discriminate.
  destruct (phase_new (Some q) c2) as [p'|] eqn:Hn2; [|discriminate].
  assert (B := begins_first _ _ Hn).
  exists (reset p), h, q, p'. split; [exact B|]. split; [exact R|]. split; [exact Hn2|].
  split; [|exact H]. exact (begins_next _ _ _ _ _ _ _ B R Hn2).
Qed.
Lemma pitch_of : forall (p : Phase N) (s : State N), initial p s ->
  vz (st_euler_angles s) = to_radians (calc_coeff (get_value (ax_var (sg_pitch (ph_steering p))) (before_attitude (ph_state p) s))
    (sg_pitch (ph_steering p))).
Proof. intros p s H. apply system_eom in H. rewrite (e_euler_angles _ _ _ H). reflexivity. Qed.
End Generic.

Section Runs.
Variable lm : libm.
Notation ZN := (B64 (zlm lm)).
Notation L := b64_lit.

Definition no_engines (p : Phase ZN) : bool := match ve_engines (ph_vehicle p) with [] => true | _ => false end.
Definition no_limit (p : Phase ZN) : bool :=
  match (ph_max_acceleration p : b64) with B754_infinity false => true | _ => false end.
(** Without engines and without limit a phase always starts. *)
Lemma unpowered_starts : forall p : Phase ZN, no_engines p = true -> no_limit p = true ->
  tables_accepted (ph_vehicle p) -> exists s, initial p s.
Proof.
  intros p He Hl T. destruct (system_total p (ph_state p) (accepted_lookups p T)) as [s [Q E]].
  exists s. unfold initial. rewrite E.
  assert (G : guard p s = false); [|now rewrite G].
  unfold guard. rewrite (q_throttle _ _ _ Q). unfold auto_throttle, thrust_force.
  unfold no_engines in He. destruct (ve_engines (ph_vehicle p)); [|discriminate].
  unfold no_limit in Hl. destruct (ph_max_acceleration p : b64) as [b|[]| |b m e B]; try discriminate.
  apply orb_false_intro.
  - generalize (norm (N := ZN) (st_vehicle_acceleration_body s)). intros x.
    change (Bltb (Bmult mode_NE (B754_infinity false) (b64_lit 1001 (-3))) (x : b64) = false).
    replace (Bmult mode_NE (B754_infinity false) (b64_lit 1001 (-3))) with (B754_infinity (prec := 53) (emax := 1024) false).
    + destruct x as [b|[]| |b m e B]; reflexivity.
    + assert (D : match b64_lit 1001 (-3) with B754_finite false _ _ _ => true | _ => false end = true)
        by (vm_compute; reflexivity).
      destruct (b64_lit 1001 (-3)) as [b|b| |[] m e B]; try discriminate D. reflexivity.
  - cbn [map]. match goal with |- n_isnan (if ?c then _ else _) = false =>
      assert (C : c = true) by (vm_compute; reflexivity); rewrite C end.
    vm_compute. reflexivity.
Qed.

(** First a second of coasting, then pitch steered by [v] with one degree per unit. *)
Definition coast_config : PhaseConfig ZN :=
  mkPhaseConfig (N := ZN) (site lm) (vehicle_of lm 100 0 []) None (still_planet lm) (vacuum_of lm) None None (Some (Time, L 2 0)).
Definition pitch_config (v : StateVariable) : PhaseConfig ZN :=
  mkPhaseConfig (N := ZN) None None (Some (mkSteeringConfig (N := ZN) None None (Some (v, V3 (L 1 0) (L 0 0) (L 0 0)))))
    None None None None (Some (TimeSinceEvent, L 1 0)).
Definition is_var (v w : StateVariable) : bool :=
  match v, w with Time, Time | Throttle, Throttle => true | _, _ => false end.
Definition pitch_check (c1 c2 : PhaseConfig ZN) (v : StateVariable) (left : State ZN -> b64) : bool :=
  at_event c1 c2 (fun q p =>
    no_engines p && no_limit p && Beqb (vz (st_euler_angles (ph_state q)) : b64) (L 0 0) &&
    is_var (ax_var (sg_pitch (ph_steering p))) v &&
    Bltb (L 1 (-2)) (to_radians (N := ZN) (calc_coeff (N := ZN) (left (ph_state p)) (sg_pitch (ph_steering p))))).
Lemma pitch_event : forall (c1 c2 : PhaseConfig ZN) v left, pitch_check c1 c2 v left = true ->
  Forall configured_tables_accepted [c1; c2] ->
  (v = Time \/ v = Throttle) ->
  (forall s0 s : State ZN, st_time s = st_time s0 -> get_value v (before_attitude s0 s) = left s0) ->
  exists (c1 c2 : PhaseConfig ZN) p1 h q p' s, begins [c1] p1 /\ run 10 p1 = (h, Finished q) /\ phase_new (Some q) c2 = Ret p' /\
    begins [c1; c2] (reset p') /\ initial (reset p') s /\
    ax_var (sg_pitch (ph_steering (reset p'))) = v /\
    Beqb (vz (st_euler_angles (ph_state q)) : b64) (L 0 0) = true /\
    Bltb (L 1 (-2)) (vz (st_euler_angles s) : b64) = true.
Proof.
  intros c1 c2 v left H Ha Hv Hl. unfold pitch_check in H.
  destruct (at_event_inv _ _ _ H) as (p1 & h & q & p' & B1 & R & Hn & B2 & F).
  apply andb_prop in F. destruct F as [F F5]. apply andb_prop in F. destruct F as [F F4].
  apply andb_prop in F. destruct F as [F F3]. apply andb_prop in F. destruct F as [F1 F2].
  destruct (unpowered_starts (reset p') F1 F2 (begins_tables _ _ B2 Ha)) as [s Hs].
  exists c1, c2, p1, h, q, p', s.
  split; [exact B1|]. split; [exact R|]. split; [exact Hn|]. split; [exact B2|]. split; [exact Hs|].
  assert (V : ax_var (sg_pitch (ph_steering (reset p'))) = v).
  { clear - F4 Hv. destruct Hv as [-> | ->]; destruct (ax_var (sg_pitch (ph_steering (reset p')))); try discriminate F4; reflexivity. }
  split; [exact V|]. split; [exact F3|].
  rewrite (pitch_of _ _ Hs), V. rewrite Hl; [exact F5|].
  destruct (C37_initial _ _ Hs) as [X _]. exact X.
Qed.
Lemma pitch_time_checked : pitch_check coast_config (pitch_config Time) Time (fun s => st_time s) = true.
Proof. vm_compute. reflexivity. Qed.
Lemma pitch_throttle_checked : pitch_check coast_config (pitch_config Throttle) Throttle (fun s => st_throttle s) = true.
Proof. vm_compute. reflexivity. Qed.
Lemma configs_accepted : forall v, Forall configured_tables_accepted [coast_config; pitch_config v].
Proof.
  intros v. repeat constructor; intros ve t E; try discriminate E.
  injection E as <-. cbn. intros [H|[H|H]]; discriminate.
Qed.
End Runs.

Local Notation L := b64_lit.
(** A phase that ends with pitch zero, followed by a phase whose pitch is steered by time:
    the second phase starts with a pitch above 0.01 rad. *)
Theorem C39_refuted : forall lm, standard_at_zero lm ->
  exists (c1 c2 : PhaseConfig (B64 lm)) p1 h q p' s, begins [c1] p1 /\ run 10 p1 = (h, Finished q) /\
    phase_new (Some q) c2 = Ret p' /\ begins [c1; c2] (reset p') /\ initial (reset p') s /\
    ax_var (sg_pitch (ph_steering (reset p'))) = Time /\
    Beqb (vz (st_euler_angles (ph_state q)) : b64) (L 0 0) = true /\
    Bltb (L 1 (-2)) (vz (st_euler_angles s) : b64) = true.
Proof.
  intros lm H. rewrite <- (zlm_eq lm H). clear H.
  apply (pitch_event lm _ _ Time (fun s => st_time s) (pitch_time_checked lm) (configs_accepted lm Time) (or_introl eq_refl)).
  intros s0 s E. exact E.
Qed.
(** The throttle is not available to the steering and should read as zero, leaving the pitch
    at zero; but the second phase starts with a pitch above 0.01 rad, because the throttle of
    the last state is used. *)
Theorem C38_refuted : forall lm, standard_at_zero lm ->
  exists (c1 c2 : PhaseConfig (B64 lm)) p1 h q p' s, begins [c1] p1 /\ run 10 p1 = (h, Finished q) /\
    phase_new (Some q) c2 = Ret p' /\ begins [c1; c2] (reset p') /\ initial (reset p') s /\
    ax_var (sg_pitch (ph_steering (reset p'))) = Throttle /\
    Beqb (vz (st_euler_angles (ph_state q)) : b64) (L 0 0) = true /\
    Bltb (L 1 (-2)) (vz (st_euler_angles s) : b64) = true.
Proof.
  intros lm H. rewrite <- (zlm_eq lm H). clear H.
  apply (pitch_event lm _ _ Throttle (fun s => st_throttle s) (pitch_throttle_checked lm) (configs_accepted lm Throttle) (or_intror eq_refl)).
  intros s0 s E. reflexivity.
Qed.
