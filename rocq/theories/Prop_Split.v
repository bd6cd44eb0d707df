(** * C57: an event at which nothing changes is invisible *)
From Coq Require Import ZArith List Reals Lra Lia Bool.
From Verif Require Import Num Constants State Tables Config Planet Atmosphere Transformations
  Steering Vehicle RungeKutta Phase Simulation SystemFacts RKFacts RunFacts PhaseNew
  Prop_Run SystemTotal Prop_Tables Prop_Panics Prop_Steering.
Import ListNotations.

Section Generic.
Context {N : Num}.
Local Open Scope num_scope.

(** ** Specification *)
(** A configuration with the given duration in place of its end criterion, and the configuration that
    changes nothing. *)
Definition lasting (T : N) (c : PhaseConfig N) : PhaseConfig N :=
  mkPhaseConfig (pc_init c) (pc_vehicle c) (pc_steering c) (pc_planet_model c) (pc_atmosphere c)
    (pc_max_acceleration c) (pc_stepsize c) (Some (TimeSinceEvent, T)).
Definition unchanged : PhaseConfig N := mkPhaseConfig None None None None None None None None.
(** All variables of the state but the time since the last event. *)
Definition erased (s : State N) : State N := set_time_since_event s #0.
(** The records of an output, without the headers. *)
Definition records (ev : list (event N)) : list (State N) :=
  flat_map (fun e => match e with ERecord s => [s] | EPhase _ => [] end) ev.
Definition same_end (st st' : status (Phase N)) : Prop :=
  match st, st' with
  | Finished q, Finished q' => erased (ph_state q) = erased (ph_state q')
  | Running q, Running q' => erased (ph_state q) = erased (ph_state q')
  | Aborted e, Aborted e' => e = e'
  | _, _ => False
  end.
(** Two simulations with the same records and the same end, up to the time since the last event. *)
Definition same_flight (a b : list (event N) * status (Phase N)) : Prop :=
  map erased (records (fst a)) = map erased (records (fst b)) /\ same_end (snd a) (snd b).
(** Tables that use neither the time since the last event nor variables that are not available yet. *)
Definition steady (t : Table N) : Prop :=
  Forall (fun v => late_aero v = false /\ v <> TimeSinceEvent) (table_variables t).

(** ** Proof *)
Lemma erased_eq : forall s s' : State N, erased s = erased s' -> s = set_time_since_event s' (st_time_since_event s).
Proof.
  intros s s' H.
  assert (F : forall A (g : State N -> A), (forall v t, g (set_time_since_event v t) = g v) -> g s = g s').
  { intros A g Hg. rewrite <- (Hg s #0), <- (Hg s' #0). exact (f_equal g H). }
  apply state_ext; try (refine (eq_trans (F _ _ _) _); [intros; reflexivity|reflexivity]). reflexivity.
Qed.
Lemma erased_ext : forall s s' : State N, 
  st_time s = st_time s' -> 
  st_position s = st_position s' -> st_position_planet s = st_position_planet s' ->
  st_altitude s = st_altitude s' -> st_altitude_geopotential s = st_altitude_geopotential s' ->
  st_velocity s = st_velocity s' -> st_velocity_planet s = st_velocity_planet s' ->
  st_velocity_atmosphere s = st_velocity_atmosphere s' -> st_acceleration s = st_acceleration s' ->
  st_thrust_force_body s = st_thrust_force_body s' -> st_aero_force_body s = st_aero_force_body s' ->
  st_vehicle_acceleration_body s = st_vehicle_acceleration_body s' ->
  st_gravity_acceleration s = st_gravity_acceleration s' ->
  st_mass s = st_mass s' -> st_propellant_mass s = st_propellant_mass s' -> st_massflow s = st_massflow s' ->
  st_temperature s = st_temperature s' -> st_pressure s = st_pressure s' -> st_density s = st_density s' ->
  st_mach_number s = st_mach_number s' -> st_dynamic_pressure s = st_dynamic_pressure s' ->
  st_alpha s = st_alpha s' -> st_euler_angles s = st_euler_angles s' -> st_throttle s = st_throttle s' -> erased s = erased s'.
Proof. intros. apply state_ext; try assumption. reflexivity. Qed.

(** The same phase but for the steering, the criterion and the state. *)
Record siblings (p p' : Phase N) : Prop := {
  b_vehicle : ph_vehicle p' = ph_vehicle p;
  b_atmosphere : ph_atmosphere p' = ph_atmosphere p;
  b_planet : ph_planet p' = ph_planet p;
  b_launch : ph_launch p' = ph_launch p;
  b_max_acceleration : ph_max_acceleration p' = ph_max_acceleration p }.
Definition both {A} (R : A -> A -> Prop) (o o' : outcome A) : Prop :=
  match o, o' with Ret x, Ret x' => R x x' | Panic e, Panic e' => e = e' | _, _ => False end.

Section Clocks.
(** [C t x y]: clocks of corresponding states, at time [t]. *)
Variable C : N -> N -> N -> Prop.
Definition matched (s s' : State N) : Prop :=
  st_time s = st_time s' /\ C (st_time s) (st_time_since_event s) (st_time_since_event s') /\
  st_position s = st_position s' /\ st_velocity s = st_velocity s' /\ st_mass s = st_mass s'.
Definition same_state (s s' : State N) : Prop :=
  erased s = erased s' /\ C (st_time s) (st_time_since_event s) (st_time_since_event s').
Definition same_attitude (g g' : Steering N) : Prop := forall v v' : State N, st_time v = st_time v' ->
  C (st_time v) (st_time_since_event v) (st_time_since_event v') -> steering_euler_angles g v = steering_euler_angles g' v'.

Lemma equations_matched : forall (p p' : Phase N) (a b s s' : State N), siblings p p' ->
  same_attitude (ph_steering p) (ph_steering p') ->
  (forall v, In v (vehicle_variables (ph_vehicle p)) -> late_aero v = false /\ v <> TimeSinceEvent) ->
  matched a b -> equations p a s -> equations p' b s' ->
  guard p s = guard p' s' /\ same_state s s'.
Proof.
  intros p p' a b s s' [B1 B2 B3 B4 B5] SA Htb (E1 & E2 & E3 & E4 & E5) Q Q'.
  assert (X1 : st_time s = st_time s') by (rewrite (q_time _ _ _ Q), (q_time _ _ _ Q'); exact E1).
  assert (X2 : C (st_time s) (st_time_since_event s) (st_time_since_event s'))
    by (rewrite (q_time _ _ _ Q), (q_time_since_event _ _ _ Q), (q_time_since_event _ _ _ Q'); exact E2).
  assert (X3 : st_position s = st_position s') by (rewrite (q_position _ _ _ Q), (q_position _ _ _ Q'); exact E3).
  assert (X4 : st_velocity s = st_velocity s') by (rewrite (q_velocity _ _ _ Q), (q_velocity _ _ _ Q'); exact E4).
  assert (X5 : st_mass s = st_mass s') by (rewrite (q_mass _ _ _ Q), (q_mass _ _ _ Q'); exact E5).
  assert (X6 : st_position_planet s = st_position_planet s')
    by (rewrite (q_position_planet _ _ _ Q), (q_position_planet _ _ _ Q'), B3, X1, X3; reflexivity).
  assert (X7 : st_velocity_planet s = st_velocity_planet s')
    by (rewrite (q_velocity_planet _ _ _ Q), (q_velocity_planet _ _ _ Q'), B3, X3, X4; reflexivity).
  assert (X8 : st_altitude s = st_altitude s') by (rewrite (q_altitude _ _ _ Q), (q_altitude _ _ _ Q'), B3, X3; reflexivity).
  assert (X9 : st_altitude_geopotential s = st_altitude_geopotential s')
    by (rewrite (q_altitude_geopotential _ _ _ Q), (q_altitude_geopotential _ _ _ Q'), B3, X3; reflexivity).
  assert (X10 : st_propellant_mass s = st_propellant_mass s')
    by (rewrite (q_propellant_mass _ _ _ Q), (q_propellant_mass _ _ _ Q'), B1, X5; reflexivity).
  assert (X11 : st_gravity_acceleration s = st_gravity_acceleration s')
    by (rewrite (q_gravity _ _ _ Q), (q_gravity _ _ _ Q'), B3, X3; reflexivity).
  assert (X12 : st_velocity_atmosphere s = st_velocity_atmosphere s')
    by (rewrite (q_velocity_atmosphere _ _ _ Q), (q_velocity_atmosphere _ _ _ Q'), B2, X7; reflexivity).
  assert (X13 : st_temperature s = st_temperature s').
  { assert (K := q_temperature _ _ _ Q). assert (K' := q_temperature _ _ _ Q'). rewrite B2 in K'.
    unfold at_temperature in K, K'. rewrite X9, K' in K. congruence. }
  assert (X14 : st_pressure s = st_pressure s').
  { assert (K := q_pressure _ _ _ Q). assert (K' := q_pressure _ _ _ Q'). rewrite B2 in K'.
    unfold at_pressure in K, K'. rewrite X9, K' in K. congruence. }
  assert (X15 : st_density s = st_density s').
  { assert (K := q_density _ _ _ Q). assert (K' := q_density _ _ _ Q'). rewrite B2 in K'.
    unfold at_density in K, K'. rewrite X9, K' in K. congruence. }
  assert (X16 : st_mach_number s = st_mach_number s').
  { assert (K := q_mach_number _ _ _ Q). assert (K' := q_mach_number _ _ _ Q'). rewrite B2 in K'.
    unfold at_mach_number, at_speed_of_sound in K, K'. rewrite X9, X12, K' in K. congruence. }
  assert (X17 : st_dynamic_pressure s = st_dynamic_pressure s').
  { rewrite (q_dynamic_pressure _ _ _ Q), (q_dynamic_pressure _ _ _ Q'), B2. unfold at_dynamic_pressure.
    rewrite X12, X15. reflexivity. }
  assert (X18 : st_euler_angles s = st_euler_angles s').
  { rewrite (q_euler_angles _ _ _ Q), (q_euler_angles _ _ _ Q'). apply SA; [exact X1|exact X2]. }
  assert (X19 : st_alpha s = st_alpha s').
  { rewrite (q_alpha _ _ _ Q), (q_alpha _ _ _ Q'), B4, X18, X12. reflexivity. }
  assert (X20 : st_aero_force_body s = st_aero_force_body s').
  { assert (K := q_aero_force _ _ _ Q). assert (K' := q_aero_force _ _ _ Q').
    assert (G : forall v, In v (vehicle_variables (ph_vehicle p)) -> get_value v (before_aero a s) = get_value v (before_aero b s')).
    { intros v Hv. destruct (Htb v Hv) as [L T].
      destruct v; try discriminate L; try (exfalso; apply T; reflexivity); unfold before_aero, before_attitude; cbn [get_value
        st_time st_time_since_event st_position st_position_planet st_altitude st_altitude_geopotential st_velocity
        st_velocity_planet st_velocity_atmosphere st_acceleration st_thrust_force_body st_aero_force_body
        st_vehicle_acceleration_body st_gravity_acceleration st_mass st_propellant_mass st_massflow st_temperature
        st_pressure st_density st_mach_number st_dynamic_pressure st_alpha st_euler_angles st_throttle
        set_alpha set_euler_angles]; congruence. }
    unfold vehicle_variables in G. rewrite B1 in K'. unfold aero_force in K, K'.
    rewrite (at_state_ext _ (before_aero a s) (before_aero b s')) in K
      by (intros v Hv; apply G; apply in_or_app; left; exact Hv).
    rewrite (at_state_ext (ve_lift_coeff (ph_vehicle p)) (before_aero a s) (before_aero b s')) in K
      by (intros v Hv; apply G; apply in_or_app; right; apply in_or_app; left; exact Hv).
    rewrite (at_state_ext (ve_side_force_coeff (ph_vehicle p)) (before_aero a s) (before_aero b s')) in K
      by (intros v Hv; apply G; apply in_or_app; right; apply in_or_app; right; exact Hv).
    assert (F1 : st_alpha (before_aero a s) = st_alpha (before_aero b s')) by exact X19.
    assert (F2 : st_dynamic_pressure (before_aero a s) = st_dynamic_pressure (before_aero b s')) by exact X17.
    rewrite F1, F2 in K. congruence. }
  assert (X21 : st_throttle s = st_throttle s')
    by (rewrite (q_throttle _ _ _ Q), (q_throttle _ _ _ Q'), B1, B5, X5, X14, X20; reflexivity).
  assert (X22 : st_thrust_force_body s = st_thrust_force_body s')
    by (rewrite (q_thrust _ _ _ Q), (q_thrust _ _ _ Q'), B1, X21, X14; reflexivity).
  assert (X23 : st_massflow s = st_massflow s')
    by (rewrite (q_massflow _ _ _ Q), (q_massflow _ _ _ Q'), B1, X21; reflexivity).
  assert (X24 : st_vehicle_acceleration_body s = st_vehicle_acceleration_body s')
    by (rewrite (q_vehicle_acceleration _ _ _ Q), (q_vehicle_acceleration _ _ _ Q'), X5, X20, X22; reflexivity).
  assert (X25 : st_acceleration s = st_acceleration s')
    by (rewrite (q_acceleration _ _ _ Q), (q_acceleration _ _ _ Q'), B4, X11, X18, X24; reflexivity).
  split; [unfold guard; rewrite X24, X21, B5; reflexivity|]. split; [|exact X2].
  exact (erased_ext s s' X1 X3 X6 X8 X9 X4 X7 X12 X25 X22 X20 X24 X11 X5 X10 X23 X13 X14 X15 X16 X17 X19 X18 X21).
Qed.
Lemma system_matched : forall (p p' : Phase N), siblings p p' -> tables_accepted (ph_vehicle p) ->
  same_attitude (ph_steering p) (ph_steering p') ->
  (forall v, In v (vehicle_variables (ph_vehicle p)) -> late_aero v = false /\ v <> TimeSinceEvent) ->
  forall a b, matched a b -> both same_state (system p a) (system p' b).
Proof.
  intros p p' B T SA Hv a b M.
  assert (T' : tables_accepted (ph_vehicle p')) by (rewrite (b_vehicle _ _ B); exact T).
  destruct (system_total p a (accepted_lookups p T)) as [s [Q ->]].
  destruct (system_total p' b (accepted_lookups p' T')) as [s' [Q' ->]].
  destruct (equations_matched p p' a b s s' B SA Hv M Q Q') as [G S]. rewrite G.
  destruct (guard p' s'); [reflexivity|exact S].
Qed.

(** One step. *)
Lemma same_state_fields : forall s s', same_state s s' ->
  matched s s' /\ to_differentials_vector s = to_differentials_vector s'.
Proof.
  intros s s' [E X]. assert (K := erased_eq s s' E).
  assert (F : forall A (g : State N -> A), (forall v t, g (set_time_since_event v t) = g v) -> g s = g s').
  { intros A g Hg. rewrite K. apply Hg. }
  split.
  - split; [now apply F|]. split; [exact X|]. split; [now apply F|]. split; now apply F.
  - now apply F.
Qed.
Variable steps : forall c, In c [#0; n_lit 5 (-1); #1] -> forall t x y, C t x y -> C (t + c * #1) (x + c * #1) (y + c * #1).
Variable whole : forall t x y, C t x y -> C (t + #1) (x + #1) (y + #1).
Lemma step_matched : forall (f f' : State N -> outcome (State N)),
  (forall a b, matched a b -> both same_state (f a) (f' b)) ->
  forall s s', matched s s' -> both same_state (integrator_step f s #1) (integrator_step f' s' #1).
Proof.
  intros f f' Hf s s' (M1 & M2 & M3 & M4 & M5).
  unfold integrator_step, rk_step, RK4. cbn [rk_b length repeat seq rk_loop]. unfold rk_stage.
  cbn [rk_c rk_a index nth_error bind]. unfold t_add_scalar. cbn [fst snd].
  assert (P : to_primary_vec s' = to_primary_vec s) by (unfold to_primary_vec; rewrite M3, M4, M5; reflexivity).
  rewrite P, <- M1.
  assert (F : forall x y t v, C t x y -> both same_state (f (from_vec (t, x) v)) (f' (from_vec (t, y) v))).
  { intros x y t v H. apply Hf. repeat (split; [reflexivity || exact H|]). reflexivity. }
  assert (In0 : In (#0 : N) [#0; n_lit 5 (-1); #1]) by (left; reflexivity).
  assert (In1 : In (n_lit 5 (-1) : N) [#0; n_lit 5 (-1); #1]) by (right; left; reflexivity).
  assert (In2 : In (#1 : N) [#0; n_lit 5 (-1); #1]) by (right; right; left; reflexivity).
  pose proof (steps _ In0 _ _ _ M2) as C0. pose proof (steps _ In1 _ _ _ M2) as C1. pose proof (steps _ In2 _ _ _ M2) as C2.
  pose proof (whole _ _ _ M2) as C3.
  match goal with |- context [f (from_vec (?t, ?x) ?v)] => generalize (F _ _ t v C0);
    destruct (f (from_vec (t, x) v)) as [d0|e], (f' (from_vec (t, st_time_since_event s' + #0 * #1) v)) as [d0'|e'] end;
    intros S0; cbn [both] in S0; try contradiction; [|exact S0].
  cbn [bind set_column firstn skipn app]. rewrite (proj2 (same_state_fields _ _ S0)).
  match goal with |- context [f (from_vec (?t, ?x) ?v)] => generalize (F _ _ t v C1);
    destruct (f (from_vec (t, x) v)) as [d1|e], (f' (from_vec (t, st_time_since_event s' + n_lit 5 (-1) * #1) v)) as [d1'|e'] end;
    intros S1; cbn [both] in S1; try contradiction; [|exact S1].
  cbn [bind set_column firstn skipn app]. rewrite (proj2 (same_state_fields _ _ S1)).
  match goal with |- context [f (from_vec (?t, ?x) ?v)] => generalize (F _ _ t v C1);
    destruct (f (from_vec (t, x) v)) as [d2|e], (f' (from_vec (t, st_time_since_event s' + n_lit 5 (-1) * #1) v)) as [d2'|e'] end;
    intros S2; cbn [both] in S2; try contradiction; [|exact S2].
  cbn [bind set_column firstn skipn app]. rewrite (proj2 (same_state_fields _ _ S2)).
  match goal with |- context [f (from_vec (?t, ?x) ?v)] => generalize (F _ _ t v C2);
    destruct (f (from_vec (t, x) v)) as [d3|e], (f' (from_vec (t, st_time_since_event s' + #1 * #1) v)) as [d3'|e'] end;
    intros S3; cbn [both] in S3; try contradiction; [|exact S3].
  cbn [bind set_column firstn skipn app]. rewrite (proj2 (same_state_fields _ _ S3)).
  apply F. exact C3.
Qed.

(** Several steps. *)
Fixpoint fly (f : State N -> outcome (State N)) (j : nat) (s : State N) : list (State N) * outcome (State N) :=
  match j with
  | O => ([], Ret s)
  | S j => match integrator_step f s #1 with
           | Panic e => ([], Panic e)
           | Ret s' => let (h, o) := fly f j s' in (s' :: h, o)
           end
  end.
Lemma fly_matched : forall f f', (forall a b, matched a b -> both same_state (f a) (f' b)) ->
  forall j s s', same_state s s' ->
  map erased (fst (fly f j s)) = map erased (fst (fly f' j s')) /\ both same_state (snd (fly f j s)) (snd (fly f' j s')).
Proof.
  intros f f' Hf. induction j as [|j IH]; intros s s' S; cbn [fly]; [split; [reflexivity|exact S]|].
  assert (K := step_matched f f' Hf s s' (proj1 (same_state_fields _ _ S))).
  destruct (integrator_step f s #1) as [x|e], (integrator_step f' s' #1) as [x'|e']; cbn [both] in K; try contradiction.
  - destruct (IH x x' K) as [A B]. destruct (fly f j x), (fly f' j x'). cbn [fst snd map] in *.
    split; [|exact B]. rewrite A, (proj1 K). reflexivity.
  - split; [reflexivity|exact K].
Qed.
End Clocks.

Lemma fly_add : forall f a b s, fly f (a + b) s =
  let (h, o) := fly f a s in
  match o with Panic e => (h, Panic e) | Ret s' => let (h', o') := fly f b s' in (h ++ h', o') end.
Proof.
  intros f a b. induction a as [|a IH]; intros s; cbn [fly plus].
  - destruct (fly f b s). reflexivity.
  - destruct (integrator_step f s #1) as [x|e]; [|reflexivity]. rewrite IH. destruct (fly f a x) as [h [s'|e]]; [|reflexivity].
    destruct (fly f b s'). reflexivity.
Qed.

(** A clock that counts whole seconds up to [M]. *)
Record counts (clock : nat -> N) (M : nat) : Prop := {
  k_zero : clock 0 = #0;
  k_next : forall k, (k < M)%nat -> clock k + #1 = clock (S k);
  k_end : (n_abs (clock M - clock M) <? n_lit 1 (-3)) = true;
  k_far : forall k, (S k < M)%nat -> (n_abs (clock (S k) - clock M) <? n_lit 1 (-3)) = false;
  k_not : forall k, (S k < M)%nat ->
    (if clock (S k) <? clock k then clock (S k) <? clock M else clock (S k) >? clock M) = false }.

Definition finished (p : Phase N) (s : State N) : Phase N := set_ph_state (set_ph_ended p true) s.
Lemma run_loop_timed : forall clock M, counts clock M -> forall j k fuel (q : Phase N),
  (k + j = M)%nat -> (0 < j)%nat -> (j <= fuel)%nat ->
  ph_ended q = false -> ph_stepsize q = #1 -> ph_end_criterion q = (TimeSinceEvent, clock M) ->
  st_time_since_event (ph_state q) = clock k ->
  run_loop fuel q = let (h, o) := fly (system q) j (ph_state q) in
    (h, match o with Ret s => Finished (finished q s) | Panic e => Aborted e end).
Proof.
  intros clock M K. induction j as [|j IH]; intros k fuel q HM Hj Hf En St Cr Tk; [lia|].
  destruct fuel as [|fuel]; [lia|]. cbn [run_loop fly]. rewrite En. unfold step. rewrite En, St, Cr. cbn [fst snd].
  destruct (integrator_step (fun s => system q s) (ph_state q) #1) as [s|e] eqn:E; cbn [bind]; [|reflexivity].
  assert (Ts : st_time_since_event s = clock (S k)).
  { destruct (integrator_step_system _ _ _ _ E) as [y Hy]. apply system_eom in Hy.
    assert (X := q_time_since_event _ _ _ (eom_equations _ _ _ Hy)). rewrite X.
    cbn [from_vec fst snd set_mass set_velocity set_position set_time_since_event set_time st_time_since_event].
    rewrite Tk. apply (k_next _ _ K). lia. }
  cbn [get_value]. rewrite Ts. destruct (Nat.eq_dec (S k) M) as [EM|NM].
  - rewrite EM, (k_end _ _ K). replace j with 0%nat by lia. cbn [fly].
    change (ph_state (set_ph_state (set_ph_ended q true) s)) with s.
    destruct fuel; reflexivity.
  - assert (L : (S k < M)%nat) by lia. rewrite (k_far _ _ K k L).
    unfold event_is_active. rewrite Cr. cbn [fst snd get_value]. rewrite Ts, Tk, (k_not _ _ K k L).
    rewrite (IH (S k) fuel (set_ph_state q s)); [|lia|lia|lia|exact En|exact St|exact Cr|exact Ts].
    change (ph_state (set_ph_state q s)) with s. change (system (set_ph_state q s)) with (system q).
    destruct (fly (system q) j s) as [h [x|e]]; reflexivity.
Qed.
Lemma run_timed : forall clock M, counts clock M -> forall fuel (q : Phase N), (0 < M)%nat -> (M <= fuel)%nat ->
  ph_ended q = false -> ph_stepsize q = #1 -> ph_end_criterion q = (TimeSinceEvent, clock M) ->
  st_time_since_event (ph_state q) = #0 ->
  run fuel q = match system q (ph_state q) with
    | Panic e => ([], Aborted e)
    | Ret s => let (h, o) := fly (system q) M s in
       (h, match o with Ret s => Finished (finished q s) | Panic e => Aborted e end)
    end.
Proof.
  intros clock M K fuel q HM Hf En St Cr T0. unfold run.
  destruct (system q (ph_state q)) as [s|e] eqn:E; [|reflexivity].
  rewrite (run_loop_timed clock M K M 0 fuel (set_ph_state q s)); [| |lia|lia|exact En|exact St|exact Cr|]; [reflexivity|lia|].
  change (st_time_since_event s = clock 0%nat). rewrite (k_zero _ _ K), <- T0.
  apply system_eom in E. exact (q_time_since_event _ _ _ (eom_equations _ _ _ E)).
Qed.
Definition timed (p : Phase N) (T : N) : Phase N := set_ph_end_criterion p (TimeSinceEvent, T).
(** The steering goes on as before when it is initialised at the end of a step at time [clock n]. *)
Definition smooth_event (c : N) (p : Phase N) : Prop := forall s : State N,
  st_time_since_event s = c -> system p s = Ret s ->
  exists C : N -> N -> N -> Prop,
    (forall c, In c [#0; n_lit 5 (-1); #1] -> forall t x y, C t x y -> C (t + c * #1) (x + c * #1) (y + c * #1)) /\
    (forall t x y, C t x y -> C (t + #1) (x + #1) (y + #1)) /\
    C (st_time s) (st_time_since_event s) #0 /\
    same_attitude C (ph_steering p) (steering_init (ph_steering p) (st_euler_angles s)).
Record good (p : Phase N) : Prop := {
  g_ended : ph_ended p = false;
  g_stepsize : ph_stepsize p = #1;
  g_base : ph_base_stepsize p = #1;
  g_zero : st_time_since_event (ph_state p) = #0;
  g_tables : tables_accepted (ph_vehicle p);
  g_variables : forall v, In v (vehicle_variables (ph_vehicle p)) -> late_aero v = false /\ v <> TimeSinceEvent;
  g_steering : forall v, In v (steering_variables (ph_steering p)) -> late v = false }.

Lemma steering_reinit : forall (g : Steering N) (o : option (SteeringConfig N)) (e e' : vec3 N),
  steering_init (match o with Some v => steering_update_with_config (steering_init g e) v | None => steering_init g e end) e' =
  steering_init (match o with Some v => steering_update_with_config g v | None => g end) e'.
Proof. intros g [[[r|] [y|] [q|]]|] e e'; reflexivity. Qed.
Lemma set_mass_erased : forall (s : State N) t m, set_mass (set_time_since_event s t) m = set_time_since_event (set_mass s m) t.
Proof. reflexivity. Qed.
Lemma set_time_twice : forall (s : State N) t t', set_time_since_event (set_time_since_event s t) t' = set_time_since_event s t'.
Proof. reflexivity. Qed.

(** The next phase starts in the same way. *)
Lemma reset_steering : forall q : Phase N, ph_steering (reset q) = steering_init (ph_steering q) (st_euler_angles (ph_state q)).
Proof. reflexivity. Qed.
Lemma configured_steering : forall (q : Phase N) c, ph_steering (configured q c) =
  match pc_steering c with Some v => steering_update_with_config (ph_steering q) v | None => ph_steering q end.
Proof. reflexivity. Qed.
Lemma phase_ext : forall a b : Phase N, ph_state a = ph_state b -> ph_vehicle a = ph_vehicle b ->
  ph_steering a = ph_steering b -> ph_atmosphere a = ph_atmosphere b -> ph_planet a = ph_planet b ->
  ph_launch a = ph_launch b -> ph_max_acceleration a = ph_max_acceleration b -> ph_stepsize a = ph_stepsize b ->
  ph_base_stepsize a = ph_base_stepsize b -> ph_end_criterion a = ph_end_criterion b ->
  ph_end_criterion_tries a = ph_end_criterion_tries b -> ph_ended a = ph_ended b -> a = b.
Proof. intros [] []; cbn; intros; subst; reflexivity. Qed.
Definition after_event (p : Phase N) (T T' : N) (x : State N) : Phase N :=
  reset (configured (finished (timed p T) x) (lasting T' unchanged)).
Lemma next_phase_same : forall (p : Phase N) T T1 T2 (x s s2 : State N) c,
  erased s = erased s2 -> pc_end_criterion c <> None ->
  reset (configured (finished (timed p T) s) c) = reset (configured (finished (after_event p T1 T2 x) s2) c).
Proof.
  intros p T T1 T2 x s s2 c E Hc. apply erased_eq in E. rewrite E. generalize (st_time_since_event s) as t. intros t. clear E.
  destruct c as [ci cv cs cp ca cm ch ce]. cbn [pc_end_criterion] in Hc. destruct ce as [ce|]; [clear Hc|contradiction].
  apply phase_ext; try reflexivity.
  - destruct cv as [[[v1|] [v2|] v3 v4 v5 v6 v7]|]; reflexivity.
  - assert (V : st_euler_angles (ph_state (configured (finished (timed p T) (set_time_since_event s2 t)) (mkPhaseConfig ci cv cs cp ca cm ch (Some ce))))
      = st_euler_angles s2) by (destruct cv as [[[v1|] [v2|] v3 v4 v5 v6 v7]|]; reflexivity).
    assert (V' : st_euler_angles (ph_state (configured (finished (after_event p T1 T2 x) s2) (mkPhaseConfig ci cv cs cp ca cm ch (Some ce))))
      = st_euler_angles s2) by (destruct cv as [[[v1|] [v2|] v3 v4 v5 v6 v7]|]; reflexivity).
    rewrite !reset_steering, V, V'.
    match goal with |- steering_init (ph_steering (configured ?q ?c)) _ = steering_init (ph_steering (configured ?q' ?c')) _ =>
      rewrite (configured_steering q c), (configured_steering q' c') end.
    symmetry. apply steering_reinit.
Qed.

Lemma event_phase : forall clock n m fuel (p : Phase N), counts clock n -> counts clock m -> counts clock (n + m) ->
  (0 < n)%nat -> (0 < m)%nat -> (n + m <= fuel)%nat -> good p -> smooth_event (clock n) p ->
  match run fuel (timed p (clock n)) with
  | (h, Finished q) =>
      exists x, q = finished (timed p (clock n)) x /\
      let A := run fuel (timed p (clock (n + m)%nat)) in
      let B := run fuel (after_event p (clock n) (clock m) x) in
      map erased (fst A) = map erased (h ++ fst B) /\
      match snd A, snd B with
      | Finished y, Finished z => exists s s2, y = finished (timed p (clock (n + m)%nat)) s /\
          z = finished (after_event p (clock n) (clock m) x) s2 /\ erased s = erased s2
      | Aborted e, Aborted e' => e = e'
      | _, _ => False
      end
  | (h, Aborted e) => run fuel (timed p (clock (n + m)%nat)) = (h, Aborted e)
  | (h, Running _) => False
  end.
Proof.
  intros clock n m fuel p Kn Km Knm Hn Hm Hf [G1 G2 G3 G4 G5 G6 G7] SE.
  rewrite (run_timed clock n Kn fuel (timed p (clock n))) by (assumption || lia || reflexivity).
  rewrite (run_timed clock (n + m) Knm fuel (timed p (clock (n + m)%nat))) by (assumption || lia || reflexivity).
  change (system (timed p (clock n))) with (system p). change (system (timed p (clock (n + m)%nat))) with (system p).
  change (ph_state (timed p (clock n))) with (ph_state p). change (ph_state (timed p (clock (n + m)%nat))) with (ph_state p).
  destruct (system p (ph_state p)) as [s0|e] eqn:E0; [|reflexivity].
  assert (T0 : st_time_since_event s0 = clock 0%nat).
  { rewrite (k_zero _ _ Kn), <- G4. apply system_eom in E0. exact (q_time_since_event _ _ _ (eom_equations _ _ _ E0)). }
  rewrite fly_add.
  assert (L : forall j k s h x, (k + j <= n)%nat -> st_time_since_event s = clock k -> fly (system p) j s = (h, Ret x) ->
     st_time_since_event x = clock (k + j)%nat /\ ((0 < j)%nat -> system p x = Ret x)).
  { clear - Kn G5 G6 G7. induction j as [|j IH]; intros k s h x Hk Ts H; cbn [fly] in H.
    - injection H as _ <-. rewrite Nat.add_0_r. split; [exact Ts|lia].
    - destruct (integrator_step (system p) s #1) as [s1|e] eqn:E; [|discriminate].
      destruct (fly (system p) j s1) as [h1 o1] eqn:F. injection H as <- ->.
      destruct (integrator_step_system _ _ _ _ E) as [y Hy]. assert (Q := Hy). apply system_eom, eom_equations in Q.
      assert (T1 : st_time_since_event s1 = clock (S k)).
      { rewrite (q_time_since_event _ _ _ Q).
        cbn [from_vec fst snd set_mass set_velocity set_position set_time_since_event set_time st_time_since_event].
        rewrite Ts. apply (k_next _ _ Kn). lia. }
      assert (Fix : system p s1 = Ret s1).
      { rewrite <- Hy. apply C38_system; [|exact G5|exact G7|intros v Hv; apply G6; exact Hv].
        split; [apply (q_time _ _ _ Q)|]. split; [apply (q_time_since_event _ _ _ Q)|].
        split; [apply (q_position _ _ _ Q)|]. split; [apply (q_velocity _ _ _ Q)|apply (q_mass _ _ _ Q)]. }
      destruct (IH (S k) s1 h1 x) as [A B]; [lia|exact T1|exact F|]. replace (k + S j)%nat with (S k + j)%nat by lia.
      split; [exact A|]. intros _. destruct j as [|j]; [|apply B; lia]. cbn [fly] in F. injection F as _ <-. exact Fix. }
  destruct (fly (system p) n s0) as [h [x|e]] eqn:F1; [|reflexivity].
  destruct (L n 0%nat s0 h x) as [Tx Fix]; [lia|exact T0|exact F1|]. specialize (Fix Hn). cbn [plus] in Tx. clear L.
  exists x. split; [reflexivity|]. cbv zeta.
  destruct (SE x Tx Fix) as (C & C1 & C2 & C3 & SA).
  set (p2 := after_event p (clock n) (clock m) x).
  assert (P2 : ph_state p2 = set_time_since_event x #0) by reflexivity.
  rewrite (run_timed clock m Km fuel p2) by (lia || exact G3 || reflexivity).
  assert (B : siblings p p2) by (constructor; reflexivity).
  assert (SM := system_matched C p p2 B G5 SA G6).
  assert (M : matched C x (ph_state p2)).
  { rewrite P2. split; [reflexivity|]. split; [exact C3|]. split; [reflexivity|]. split; reflexivity. }
  assert (S2 := SM _ _ M). rewrite Fix in S2.
  destruct (system p2 (ph_state p2)) as [x2|e2]; [|destruct S2]. cbn [both] in S2.
  destruct (fly_matched C C1 C2 (system p) (system p2) SM m x x2 S2) as [F2 F3].
  destruct (fly (system p) m x) as [ha [y|ea]], (fly (system p2) m x2) as [hb [z|eb]]; cbn [fst snd both] in *; try contradiction.
  - split; [rewrite !map_app, F2; reflexivity|]. exists y, z. split; [reflexivity|]. split; [reflexivity|]. apply F3.
  - split; [rewrite !map_app, F2; reflexivity|]. exact F3.
Qed.

(** The records do not depend on the numbers in the headers. *)
Lemma sim_loop_number : forall fuel cs i j prev (ph : Phase N),
  records (fst (sim_loop fuel i prev ph cs)) = records (fst (sim_loop fuel j prev ph cs)) /\
  snd (sim_loop fuel i prev ph cs) = snd (sim_loop fuel j prev ph cs).
Proof.
  intros fuel. induction cs as [|c cs IH]; intros i j prev ph; cbn [sim_loop]; [split; reflexivity|].
  destruct (phase_new prev c) as [p|e]; [|split; reflexivity].
  destruct (run fuel (reset p)) as [h [q|e|q]]; try (split; reflexivity).
  destruct (IH (S i) (S j) (Some q) q) as [A B].
  destruct (sim_loop fuel (S i) (Some q) q cs), (sim_loop fuel (S j) (Some q) q cs). cbn [fst snd] in *.
  split; [|exact B]. unfold records in *. cbn [flat_map app]. rewrite !flat_map_app, A. reflexivity.
Qed.
Lemma records_map : forall h : list (State N), records (map ERecord h) = h.
Proof. induction h as [|s h IH]; [reflexivity|]. unfold records in *. cbn [map flat_map app]. rewrite IH. reflexivity. Qed.
Lemma records_block : forall i (h : list (State N)) ev, records (EPhase i :: map ERecord h ++ ev) = h ++ records ev.
Proof. intros i h ev. unfold records. cbn [flat_map app]. rewrite flat_map_app. fold records. f_equal. apply records_map. Qed.
Lemma records_block_end : forall i (h : list (State N)), records (EPhase i :: map ERecord h) = h.
Proof. intros i h. unfold records. cbn [flat_map app]. apply records_map. Qed.
Lemma same_flight_refl : forall a, same_flight a a.
Proof. intros [ev [q|e|q]]; split; reflexivity. Qed.

Lemma sim_split : forall clock n m fuel cs2 (c : PhaseConfig N), counts clock n -> counts clock m -> counts clock (n + m) ->
  (0 < n)%nat -> (0 < m)%nat -> (n + m <= fuel)%nat ->
  (cs2 = [] \/ exists c' r, cs2 = c' :: r /\ pc_end_criterion c' <> None) ->
  forall cs1 cs0 i prev ph,
  (prev = None /\ cs0 = [] \/ exists p0 h q, prev = Some q /\ begins cs0 p0 /\ run fuel p0 = (h, Finished q)) ->
  (forall p, begins (cs0 ++ cs1 ++ [lasting (clock n) c]) p -> good p /\ smooth_event (clock n) p) ->
  same_flight (sim_loop fuel i prev ph (cs1 ++ lasting (clock (n + m)%nat) c :: cs2))
    (sim_loop fuel i prev ph (cs1 ++ lasting (clock n) c :: lasting (clock m) unchanged :: cs2)).
Proof.
  intros clock n m fuel cs2 c Kn Km Knm Hn Hm Hf Hc. induction cs1 as [|c1 cs1 IH]; intros cs0 i prev ph Hp HG; cbn [app].
  - assert (X : (phase_new prev (lasting (clock n) c) = Panic PNoInit /\ phase_new prev (lasting (clock (n + m)%nat) c) = Panic PNoInit) \/
      exists p1, phase_new prev (lasting (clock n) c) = Ret (timed p1 (clock n)) /\
        phase_new prev (lasting (clock (n + m)%nat) c) = Ret (timed p1 (clock (n + m)%nat))).
    { rewrite !phase_new_configured. destruct prev as [q|].
      - right. exists (configured q c). split; reflexivity.
      - cbn [lasting pc_init]. destruct (pc_init c) as [i0|]; [right|left; split; reflexivity].
        exists (phase_init (configured default_phase c) i0). split; reflexivity. }
    cbn [sim_loop]. destruct X as [[-> ->]|(p1 & E1 & E2)]; [split; reflexivity|].
    assert (B : begins (cs0 ++ [lasting (clock n) c]) (reset (timed p1 (clock n)))).
    { destruct Hp as [[-> ->]|(p0 & h & q & -> & B & R)].
      - now apply begins_first.
      - apply (begins_next cs0 p0 fuel h q); assumption. }
    destruct (HG _ B) as [G SE]. rewrite E1, E2.
    assert (G' : good (reset p1)) by (destruct G; constructor; assumption).
    assert (SE' : smooth_event (clock n) (reset p1)) by exact SE.
    assert (K := event_phase clock n m fuel (reset p1) Kn Km Knm Hn Hm Hf G' SE').
    change (reset (timed p1 (clock n))) with (timed (reset p1) (clock n)).
    change (reset (timed p1 (clock (n + m)%nat))) with (timed (reset p1) (clock (n + m)%nat)).
    destruct (run fuel (timed (reset p1) (clock n))) as [h [q|e|q]].
    2: { rewrite K. split; reflexivity. }
    2: { destruct K. }
    destruct K as (x & -> & K). cbv zeta in K. destruct K as [K1 K2]. rewrite phase_new_configured.
    fold (after_event (reset p1) (clock n) (clock m) x).
    destruct (run fuel (timed (reset p1) (clock (n + m)%nat))) as [hA stA], (run fuel (after_event (reset p1) (clock n) (clock m) x)) as [hB stB].
    cbn [fst snd] in K1, K2.
    destruct stA as [y|e|y], stB as [z|e'|z]; try contradiction.
    + destruct K2 as (s & s2 & -> & -> & K2).
      assert (R : forall i j,
        let A := sim_loop fuel i (Some (finished (timed (reset p1) (clock (n + m)%nat)) s)) (finished (timed (reset p1) (clock (n + m)%nat)) s) cs2 in
        let B := sim_loop fuel j (Some (finished (after_event (reset p1) (clock n) (clock m) x) s2)) (finished (after_event (reset p1) (clock n) (clock m) x) s2) cs2 in
        map erased (records (fst A)) = map erased (records (fst B)) /\ same_end (snd A) (snd B)).
      { intros a b. cbv zeta. destruct Hc as [-> |(c' & r & -> & Hc)]; [split; [reflexivity|exact K2]|].
        cbn [sim_loop]. rewrite !phase_new_configured.
        rewrite (next_phase_same (reset p1) (clock (n + m)%nat) (clock n) (clock m) x s s2 c') by (exact K2 || exact Hc).
        match goal with |- context [run fuel ?p] => destruct (run fuel p) as [hC [qC|eC|qC]] end; try (split; reflexivity).
        destruct (sim_loop_number fuel r (S a) (S b) (Some qC) qC) as [R1 R2].
        destruct (sim_loop fuel (S a) (Some qC) qC r) as [evA sA], (sim_loop fuel (S b) (Some qC) qC r) as [evB sB]. cbn [fst snd] in *.
        rewrite !records_block, R1, R2. split; [reflexivity|]. destruct sB; reflexivity. }
      specialize (R (S i) (S (S i))). cbv zeta in R.
      destruct (sim_loop fuel (S i) _ _ cs2) as [evA sA]. destruct (sim_loop fuel (S (S i)) _ _ cs2) as [evB sB].
      cbn [fst snd] in R. destruct R as [R1 R2]. unfold same_flight. cbn [fst snd].
      rewrite !records_block, !map_app, R1, K1, map_app, app_assoc. split; [reflexivity|exact R2].
    + unfold same_flight. cbn [fst snd]. rewrite records_block, !records_block_end, K1. split; [reflexivity|exact K2].
  - cbn [sim_loop]. destruct (phase_new prev c1) as [p1|e] eqn:E1; [|split; reflexivity].
    destruct (run fuel (reset p1)) as [h [q|e|q]] eqn:R; try apply same_flight_refl.
    assert (B : begins (cs0 ++ [c1]) (reset p1)).
    { destruct Hp as [[-> ->]|(p0 & h0 & q0 & -> & B & R0)].
      - now apply begins_first.
      - apply (begins_next cs0 p0 fuel h0 q0); assumption. }
    assert (J := IH (cs0 ++ [c1]) (S i) (Some q) q).
    destruct (sim_loop fuel (S i) (Some q) q (cs1 ++ lasting (clock (n + m)%nat) c :: cs2)) as [evA sA].
    destruct (sim_loop fuel (S i) (Some q) q (cs1 ++ lasting (clock n) c :: lasting (clock m) unchanged :: cs2)) as [evB sB].
    destruct J as [J1 J2].
    + right. exists (reset p1), h, q. auto.
    + intros p Bp. apply HG. rewrite <- app_assoc in Bp. exact Bp.
    + unfold same_flight in *. cbn [fst snd] in *. rewrite !records_block, !map_app, J1. split; [reflexivity|exact J2].
Qed.
End Generic.
