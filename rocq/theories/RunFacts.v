(** * Runs as chains of iterations

    [chain p ps]: starting from phase [p], the loop of [Phase::run] goes through the
    phases [ps] (the values of [self] after each iteration).  Every property of runs
    is stated with chains; [run_loop_chain] says that what the program does is a
    chain. *)
From Coq Require Import ZArith List Bool Lia.
From Verif Require Import Num Constants State Tables Config Planet Atmosphere Transformations
  Steering Vehicle RungeKutta Phase Simulation SystemFacts.
Import ListNotations.

Section WithNum.
Context {N : Num}.
Local Open Scope num_scope.

Inductive chain : Phase N -> list (Phase N) -> Prop :=
| chain_nil : forall p, chain p []
| chain_cons : forall p p' l, ph_ended p = false -> step p = Ret p' -> chain p' l -> chain p (p' :: l).

(** The last phase of a chain. *)
Definition final (p : Phase N) (ps : list (Phase N)) : Phase N := last ps p.

Lemma final_cons : forall p p' ps, final p (p' :: ps) = final p' ps.
Proof.
  intros p p' ps. unfold final. revert p p'. induction ps as [|q ps IH]; intros p p'; [reflexivity|].
  change (last (q :: ps) p = last (q :: ps) p'). rewrite (IH p q).
  symmetry. apply IH.
Qed.

Lemma run_loop_chain : forall fuel p h st, run_loop fuel p = (h, st) ->
  exists ps, chain p ps /\ h = map (@ph_state N) ps /\ (length ps <= fuel)%nat /\
    match st with
    | Finished q => q = final p ps /\ ph_ended q = true
    | Running q => q = final p ps /\ ph_ended q = false /\ length ps = fuel
    | Aborted e => step (final p ps) = Panic e
    end.
Proof.
  induction fuel as [|fuel IH]; intros p h st H; cbn [run_loop] in H.
  - destruct (ph_ended p) eqn:E; injection H as <- <-; exists [];
      repeat split; auto; constructor.
  - destruct (ph_ended p) eqn:E.
    + injection H as <- <-. exists []. repeat split; auto; try constructor. cbn; lia.
    + destruct (step p) as [p'|e] eqn:S.
      * destruct (run_loop fuel p') as [h' st'] eqn:R. injection H as <- <-.
        destruct (IH _ _ _ R) as [ps [Hc [Hh [Hl Hst]]]].
        exists (p' :: ps). split; [constructor; auto|]. split; [cbn; congruence|].
        split; [cbn; lia|]. rewrite final_cons.
        destruct st'; [exact Hst|exact Hst|].
        destruct Hst as [A [B C]]. repeat split; auto. cbn; lia.
      * injection H as <- <-. exists []. repeat split; auto; try constructor. cbn; lia.
Qed.

(** Conversely every chain is followed by the loop. *)
Lemma chain_run_loop : forall p ps, chain p ps ->
  forall fuel, exists h st,
    run_loop (length ps + fuel) p = (map (@ph_state N) ps ++ h, st) /\
    run_loop fuel (final p ps) = (h, st).
Proof.
  intros p ps H. induction H as [p|p p' l Hn Hs Hc IH]; intros fuel.
  - destruct (run_loop fuel p) as [h st] eqn:E. exists h, st. split; [exact E|exact E].
  - destruct (IH fuel) as [h [st [A B]]]. exists h, st. rewrite final_cons.
    split; [|exact B].
    change (length (p' :: l) + fuel)%nat with (S (length l + fuel)).
    cbn [run_loop]. rewrite Hn, Hs, A. reflexivity.
Qed.

Lemma chain_app : forall p ps qs, chain p ps -> chain (final p ps) qs -> chain p (ps ++ qs).
Proof.
  intros p ps qs H. induction H as [p|p p' l Hn Hs Hc IH]; intros Hq; [exact Hq|].
  rewrite final_cons in Hq. cbn. constructor; auto.
Qed.
Lemma chain_split : forall p ps qs, chain p (ps ++ qs) -> chain p ps /\ chain (final p ps) qs.
Proof.
  intros p ps. revert p. induction ps as [|p' ps IH]; intros p qs H.
  - split; [constructor|exact H].
  - cbn in H. inversion H as [|? ? ? Hn Hs Hc]; subst. destruct (IH _ _ Hc) as [A B].
    rewrite final_cons. split; [constructor; auto|exact B].
Qed.
Lemma final_app : forall p ps qs, final p (ps ++ qs) = final (final p ps) qs.
Proof.
  intros p ps. revert p. induction ps as [|p' ps IH]; intros p qs; [reflexivity|].
  cbn [app]. rewrite !final_cons. apply IH.
Qed.

(** An invariant of iterations is an invariant of chains. *)
Lemma chain_ind_inv : forall (I : Phase N -> Prop),
  (forall p p', I p -> ph_ended p = false -> step p = Ret p' -> I p') ->
  forall p ps, chain p ps -> I p -> Forall I ps.
Proof.
  intros I Hstep p ps H. induction H as [p|p p' l Hn Hs Hc IH]; intros Hp; constructor; eauto.
Qed.
Lemma chain_final_inv : forall (I : Phase N -> Prop),
  (forall p p', I p -> ph_ended p = false -> step p = Ret p' -> I p') ->
  forall p ps, chain p ps -> I p -> I (final p ps).
Proof.
  intros I Hstep p ps H. induction H as [p|p p' l Hn Hs Hc IH]; intros Hp; [exact Hp|].
  rewrite final_cons. eauto.
Qed.

(** The three outcomes of an iteration. *)
Definition crit (p : Phase N) (s : State N) : N := get_value (fst (ph_end_criterion p)) s.
Definition target (p : Phase N) : N := snd (ph_end_criterion p).
(** [s] meets the criterion of [p] within the tolerance. *)
Definition meets (p : Phase N) (s : State N) : bool :=
  n_abs (crit p s - target p) <? n_lit 1 (-3).
(** From [s] to [s'] the criterion variable moved beyond the target. *)
Definition overshoots (p : Phase N) (s s' : State N) : bool :=
  if crit p s' <? crit p s then crit p s' <? target p else target p <? crit p s'.
(** The candidate state of an iteration. *)
Definition candidate (p : Phase N) : outcome (State N) :=
  integrator_step (system p) (ph_state p) (ph_stepsize p).

Lemma step_cases : forall p p', step p = Ret p' ->
  ph_ended p = false /\ exists s, candidate p = Ret s /\
  ((meets p s = true /\ p' = set_ph_state (set_ph_ended p true) s) \/
   (meets p s = false /\ overshoots p (ph_state p) s = false /\ p' = set_ph_state p s) \/
   (meets p s = false /\ overshoots p (ph_state p) s = true /\
    (ph_end_criterion_tries p <= 20)%nat /\
    p' = set_ph_end_criterion_tries (set_ph_stepsize p (time_to_go p (ph_state p) s))
           (S (ph_end_criterion_tries p)))).
Proof.
  intros p p' H. unfold step in H.
  destruct (ph_ended p) eqn:E; [discriminate|]. split; [reflexivity|].
  apply bind_Ret in H. destruct H as [s [Hs H]]. exists s. split; [exact Hs|].
  unfold meets, crit, target.
  destruct (n_abs _ <? _) eqn:M.
  - left. split; [reflexivity|]. now injection H as <-.
  - right. unfold overshoots, crit, target. unfold event_is_active in H.
    destruct (if (_ <? _) then (_ <? _) else _) eqn:O.
    + right. destruct (20 <? ph_end_criterion_tries p)%nat eqn:T; [discriminate|].
      apply Nat.ltb_ge in T. injection H as <-.
      repeat split; auto. f_equal. lia.
    + left. repeat split; auto. now injection H as <-.
Qed.

(** Parameters of a phase: everything except its state and its loop control. *)
Definition same_parameters (p q : Phase N) : Prop :=
  ph_vehicle q = ph_vehicle p /\ ph_steering q = ph_steering p /\
  ph_atmosphere q = ph_atmosphere p /\ ph_planet q = ph_planet p /\
  ph_launch q = ph_launch p /\ ph_max_acceleration q = ph_max_acceleration p /\
  ph_base_stepsize q = ph_base_stepsize p /\ ph_end_criterion q = ph_end_criterion p.

Lemma same_parameters_refl : forall p, same_parameters p p.
Proof. intros p. repeat split. Qed.
Lemma same_parameters_trans : forall p q r,
  same_parameters p q -> same_parameters q r -> same_parameters p r.
Proof.
  intros p q r H G. unfold same_parameters in *.
  intuition congruence.
Qed.

Lemma step_parameters : forall p p', step p = Ret p' -> same_parameters p p'.
Proof.
  intros p p' H. destruct (step_cases _ _ H) as [_ [s [_ [[_ ->]|[[_ [_ ->]]|[_ [_ [_ ->]]]]]]]];
    repeat split.
Qed.
Lemma chain_parameters : forall p ps, chain p ps -> Forall (same_parameters p) ps.
Proof.
  intros p ps H. apply (chain_ind_inv (same_parameters p)) with p; auto.
  - intros q q' Hq _ Hs. eapply same_parameters_trans; [exact Hq|]. now apply step_parameters.
  - apply same_parameters_refl.
Qed.
Lemma chain_final_parameters : forall p ps, chain p ps -> same_parameters p (final p ps).
Proof.
  intros p ps H. apply (chain_final_inv (same_parameters p)) with (p := p); auto.
  - intros q q' Hq _ Hs. eapply same_parameters_trans; [exact Hq|]. now apply step_parameters.
  - apply same_parameters_refl.
Qed.

(** [system] only looks at the parameters. *)
Lemma eom_parameters : forall p q s0 s, same_parameters p q -> eom p s0 s -> eom q s0 s.
Proof.
  intros p q s0 s [H1 [H2 [H3 [H4 [H5 [H6 [H7 H8]]]]]]] E.
  destruct E. constructor; rewrite ?H1, ?H2, ?H3, ?H4, ?H5, ?H6; assumption.
Qed.
Lemma same_parameters_sym : forall p q, same_parameters p q -> same_parameters q p.
Proof. intros p q H. unfold same_parameters in *. intuition congruence. Qed.
Lemma crit_parameters : forall p q s, same_parameters p q -> crit q s = crit p s.
Proof. intros p q s H. unfold crit. destruct H as [_ [_ [_ [_ [_ [_ [_ H]]]]]]]. now rewrite H. Qed.
Lemma target_parameters : forall p q, same_parameters p q -> target q = target p.
Proof. intros p q H. unfold target. destruct H as [_ [_ [_ [_ [_ [_ [_ H]]]]]]]. now rewrite H. Qed.
Lemma meets_parameters : forall p q s, same_parameters p q -> meets q s = meets p s.
Proof.
  intros p q s H. unfold meets. now rewrite (crit_parameters p q), (target_parameters p q).
Qed.

(** The integrator's result. *)
Lemma integrator_step_system : forall (func : State N -> outcome (State N)) s h s',
  integrator_step func s h = Ret s' ->
  exists y, func (from_vec (st_time s + h, st_time_since_event s + h) y) = Ret s'.
Proof.
  intros func s h s' H. unfold integrator_step in H.
  apply bind_Ret in H. destruct H as [[t y] [H1 H2]].
  unfold rk_step in H1. apply bind_Ret in H1. destruct H1 as [k [_ H1]].
  injection H1 as H1 _. exists y. unfold t_add_scalar in H1. cbn [fst snd] in H1. now rewrite H1.
Qed.

Lemma candidate_eom : forall p s', candidate p = Ret s' ->
  exists y, eom p (from_vec (st_time (ph_state p) + ph_stepsize p,
                             st_time_since_event (ph_state p) + ph_stepsize p) y) s'.
Proof.
  intros p s' H. destruct (integrator_step_system _ _ _ _ H) as [y Hy]. exists y.
  now apply system_eom.
Qed.

End WithNum.
