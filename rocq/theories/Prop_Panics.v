(** * C49 and the totality part of C10: the program aborts only on purpose

    For every arithmetic, hence for all IEEE values and every mathematical library. *)
From Coq Require Import String ZArith List Bool Lia.
From Verif Require Import Num Constants State Tables Config Json Planet Atmosphere Transformations
  Steering Vehicle RungeKutta Phase Simulation SystemFacts SystemTotal RunFacts PhaseNew Prop_Run
  Prop_Tables RKFacts B64 Demo.
Import ListNotations.

Section WithNum.
Context {N : Num}.
Local Open Scope num_scope.

(** ** C10: the layer lookup *)
(** The loop started at row [i] of a table of [n] rows returns row [i - 1 + k] where the
    rows [i .. i - 1 + k] are not above [alt] and row [i + k], if there is one, is. *)
Lemma table_loop : forall alt (table : list (row (N := N))) fuel i, (1 <= i)%nat -> (i <= List.length table)%nat ->
  (List.length table <= fuel + i)%nat ->
  exists k r, get_table_row_loop alt table fuel i = Ret r /\ (i - 1 <= k)%nat /\
    nth_error table k = Some r /\
    (forall j rj, (i <= j <= k)%nat -> nth_error table j = Some rj -> row_alt rj >? alt = false) /\
    (forall r', nth_error table (S k) = Some r' -> row_alt r' >? alt = true).
Proof.
  intros alt table fuel. induction fuel as [|fuel IH]; intros i Hi Hl Hf.
  - assert (i = List.length table) by lia. subst i.
    destruct (nth_error table (List.length table - 1)) as [r|] eqn:E.
    2:{ apply nth_error_None in E. lia. }
    exists (List.length table - 1)%nat, r. cbn [get_table_row_loop]. unfold usize_sub, index.
    destruct (Nat.leb_spec 1 (List.length table)); [|lia]. cbn [bind]. rewrite E.
    split; [reflexivity|]. split; [lia|]. split; [reflexivity|]. split; [intros; lia|].
    intros r' E'. assert (nth_error table (S (List.length table - 1)) <> None) by congruence.
    apply nth_error_Some in H0. lia.
  - cbn [get_table_row_loop]. destruct (Nat.ltb_spec i (List.length table)) as [H|H].
    + destruct (nth_error table i) as [ri|] eqn:Ei; [|apply nth_error_None in Ei; lia].
      unfold index at 1. rewrite Ei. cbn [bind].
      destruct (row_alt ri >? alt) eqn:G.
      * destruct (nth_error table (i - 1)) as [r|] eqn:E; [|apply nth_error_None in E; lia].
        exists (i - 1)%nat, r. unfold usize_sub, index.
        destruct (Nat.leb_spec 1 i); [|lia]. cbn [bind]. rewrite E.
        split; [reflexivity|]. split; [lia|]. split; [reflexivity|]. split; [intros; lia|].
        intros r' E'. replace (S (i - 1)) with i in E' by lia. congruence.
      * destruct (IH (S i)) as (k & r & A & B & C & D & F); [lia|lia|lia|].
        exists k, r. split; [exact A|]. split; [lia|]. split; [exact C|]. split; [|exact F].
        intros j rj Hj Ej. destruct (Nat.eq_dec j i) as [->|Hne]; [congruence|].
        apply (D j rj); [lia|exact Ej].
    + assert (i = List.length table) by lia. subst i.
      destruct (nth_error table (List.length table - 1)) as [r|] eqn:E.
      2:{ apply nth_error_None in E. lia. }
      exists (List.length table - 1)%nat, r. unfold usize_sub, index.
      destruct (Nat.leb_spec 1 (List.length table)); [|lia]. cbn [bind]. rewrite E.
      split; [reflexivity|]. split; [lia|]. split; [reflexivity|]. split; [intros; lia|].
      intros r' E'. assert (nth_error table (S (List.length table - 1)) <> None) by congruence.
      apply nth_error_Some in H1. lia.
Qed.

(** The lookup returns a row for every altitude.  All rows from the second up to the
    selected one have a base altitude not above the altitude, the next row, if any, has
    one above it. *)
Theorem C10_total : forall alt : N, exists i r, get_table_row alt = Ret r /\
  nth_error STD_ATMOS_TABLE i = Some r /\
  (forall j rj, (1 <= j <= i)%nat -> nth_error STD_ATMOS_TABLE j = Some rj -> row_alt rj >? alt = false) /\
  (forall r', nth_error STD_ATMOS_TABLE (S i) = Some r' -> row_alt r' >? alt = true).
Proof.
  intros alt. destruct (table_loop alt STD_ATMOS_TABLE (List.length (STD_ATMOS_TABLE (N := N))) 1)
    as (k & r & A & _ & C & D & F); [lia|cbn; lia|lia|].
  exists k, r. auto.
Qed.
Lemma get_table_row_ret : forall alt : N, exists r, get_table_row alt = Ret r.
Proof. intros alt. destruct (C10_total alt) as (i & r & H & _). eauto. Qed.

Lemma sa_temperature_ret : forall alt : N, exists x, sa_temperature alt = Ret x.
Proof.
  intros alt. unfold sa_temperature. destruct (get_table_row_ret alt) as [[[[a b] c] d] ->].
  cbn [bind]. eauto.
Qed.
Lemma sa_pressure_ret : forall alt : N, exists x, sa_pressure alt = Ret x.
Proof.
  intros alt. unfold sa_pressure. destruct (sa_temperature_ret alt) as [t ->].
  destruct (get_table_row_ret alt) as [[[[a b] c] d] ->].
  cbn [bind]. destruct (negb _); eauto.
Qed.

(** The vehicle's coefficient tables have been accepted by the table constructors. *)
Definition tables_accepted (v : Vehicle N) : Prop :=
  accepted (ve_drag_coeff v) /\ accepted (ve_lift_coeff v) /\ accepted (ve_side_force_coeff v).

Lemma accepted_lookups : forall p : Phase N, tables_accepted (ph_vehicle p) -> lookups_ok p.
Proof.
  intros p (A & B & C) s. unfold at_temperature, at_pressure, at_density, at_mach_number, at_speed_of_sound,
    sa_density, sa_speed_of_sound.
  split; [|split; [|split; [|split]]].
  - destruct (at_model _); [eauto|]. apply sa_temperature_ret.
  - destruct (at_model _); [eauto|]. apply sa_pressure_ret.
  - destruct (at_model _); [eauto|]. destruct (sa_temperature_ret (st_altitude_geopotential s)) as [t ->].
    destruct (sa_pressure_ret (st_altitude_geopotential s)) as [x ->]. cbn [bind]. eauto.
  - destruct (at_model _); cbn [bind]; [eauto|].
    destruct (sa_temperature_ret (st_altitude_geopotential s)) as [t ->]. cbn [bind]. eauto.
  - unfold aero_force.
    destruct (C18_interpolation_total _ s A) as [x ->].
    destruct (C18_interpolation_total _ s B) as [y ->].
    destruct (C18_interpolation_total _ s C) as [z ->]. cbn [bind]. eauto.
Qed.

(** ** C49 *)
(** One evaluation of the equations of motion. *)
Theorem C49_system : forall (p : Phase N) (s0 : State N), tables_accepted (ph_vehicle p) ->
  (exists s, system p s0 = Ret s) \/ system p s0 = Panic PMaxAcceleration.
Proof. intros p s0 H. apply system_cases. now apply accepted_lookups. Qed.

Lemma bind_panic : forall A B (o : outcome A) (f : A -> outcome B) e, bind o f = Panic e ->
  o = Panic e \/ exists a, o = Ret a /\ f a = Panic e.
Proof. intros A B [a|x] f e H; cbn in H; [eauto|left; congruence]. Qed.

(** A Runge-Kutta step aborts only where the right-hand side aborts. *)
Lemma rk4_panic : forall X Y add0 zero add scale (f : X -> Y -> outcome Y) x y h e,
  rk_step (N := N) add0 zero add scale RK4 f x y h = Panic e -> exists x' y', f x' y' = Panic e.
Proof.
  intros X Y add0 zero add scale f x y h e H. unfold rk_step in H. cbn [length RK4 rk_b] in H.
  apply bind_panic in H. destruct H as [H|[k [_ H]]]; [|discriminate].
  cbn [seq rk_loop] in H. unfold rk_stage at 1 in H. cbn [RK4 rk_c rk_a index nth_error bind] in H.
  apply bind_panic in H. destruct H as [H|[k0 [_ H]]].
  { apply bind_panic in H. destruct H as [H|[k0 [_ H]]]; [eauto|discriminate]. }
  unfold rk_stage at 1 in H. cbn [RK4 rk_c rk_a index nth_error bind] in H.
  apply bind_panic in H. destruct H as [H|[k1 [_ H]]].
  { apply bind_panic in H. destruct H as [H|[k1 [_ H]]]; [eauto|discriminate]. }
  unfold rk_stage at 1 in H. cbn [RK4 rk_c rk_a index nth_error bind] in H.
  apply bind_panic in H. destruct H as [H|[k2 [_ H]]].
  { apply bind_panic in H. destruct H as [H|[k2 [_ H]]]; [eauto|discriminate]. }
  unfold rk_stage at 1 in H. cbn [RK4 rk_c rk_a index nth_error bind] in H.
  apply bind_panic in H. destruct H as [H|[k3 [_ H]]].
  { apply bind_panic in H. destruct H as [H|[k3 [_ H]]]; [eauto|discriminate]. }
  discriminate.
Qed.
Lemma integrator_panic : forall (f : State N -> outcome (State N)) s h e,
  integrator_step f s h = Panic e -> exists s', f s' = Panic e.
Proof.
  intros f s h e H. unfold integrator_step in H. apply bind_panic in H.
  destruct H as [H|[[t y] [_ H]]]; [|eauto].
  destruct (rk4_panic _ _ _ _ _ _ _ _ _ _ _ H) as (x & y & E).
  apply bind_panic in E. destruct E as [E|[a [_ E]]]; [eauto|discriminate].
Qed.

(** One iteration of a phase that has not ended. *)
Theorem C49_step : forall (p : Phase N) e, tables_accepted (ph_vehicle p) -> ph_ended p = false ->
  step p = Panic e -> e = PMaxAcceleration \/ (e = PNoZeroCrossing /\ (20 < ph_end_criterion_tries p)%nat).
Proof.
  intros p e H He S. unfold step in S. rewrite He in S. apply bind_panic in S.
  destruct S as [S|[s [_ S]]].
  - destruct (integrator_panic _ _ _ _ S) as [s' E].
    destruct (C49_system p s' H) as [[s2 G]|G]; [congruence|]. left. congruence.
  - destruct (n_abs _ <? _); [discriminate|]. destruct (event_is_active _ _ _); [|discriminate].
    destruct (Nat.ltb_spec 20 (ph_end_criterion_tries p)); [|discriminate].
    injection S as <-. auto.
Qed.

(** A run of a phase. *)
Theorem C49_run : forall fuel (p : Phase N) h e, tables_accepted (ph_vehicle p) ->
  run fuel p = (h, Aborted e) -> e = PMaxAcceleration \/ e = PNoZeroCrossing.
Proof.
  intros fuel p h e H R. unfold run in R.
  destruct (system p (ph_state p)) as [s0|e'] eqn:S.
  2:{ injection R as _ ->. destruct (C49_system p (ph_state p) H) as [[s G]|G]; [congruence|].
      left. congruence. }
  assert (V : tables_accepted (ph_vehicle (set_ph_state p s0))) by exact H.
  clear H S. revert R V. generalize (set_ph_state p s0) as q. clear p s0. revert h.
  induction fuel as [|fuel IH]; intros h q R V; cbn [run_loop] in R;
    destruct (ph_ended q) eqn:He; try discriminate.
  destruct (step q) as [q'|e'] eqn:S.
  - destruct (run_loop fuel q') as [h' st] eqn:R'. injection R as <- ->.
    apply (IH _ _ R'). destruct (step_parameters _ _ S) as [-> _]. exact V.
  - injection R as _ ->. destruct (C49_step q e V He S) as [K|[K _]]; auto.
Qed.

(** The whole program. *)
Definition configured_tables_accepted (c : PhaseConfig N) : Prop := forall v t,
  pc_vehicle c = Some v ->
  (vc_drag_coeff v = Some t \/ vc_lift_coeff v = Some t \/ vc_side_force_coeff v = Some t) -> accepted t.

Lemma configured_tables : forall (old : Phase N) c, tables_accepted (ph_vehicle old) ->
  configured_tables_accepted c -> tables_accepted (ph_vehicle (configured old c)).
Proof.
  intros old c (A & B & C) H. unfold configured. cbn [ph_vehicle].
  destruct (pc_vehicle c) as [v|] eqn:E; [|now split].
  unfold vehicle_update_with_config, tables_accepted.
  cbn [ve_drag_coeff ve_lift_coeff ve_side_force_coeff]. unfold over.
  split; [|split].
  - destruct (vc_drag_coeff v) eqn:F; [|exact A]. apply (H v t E). auto.
  - destruct (vc_lift_coeff v) eqn:F; [|exact B]. apply (H v t E). auto.
  - destruct (vc_side_force_coeff v) eqn:F; [|exact C]. apply (H v t E). auto.
Qed.
Lemma phase_new_tables : forall prev c (p : Phase N), phase_new prev c = Ret p ->
  (forall q, prev = Some q -> tables_accepted (ph_vehicle q)) -> configured_tables_accepted c ->
  tables_accepted (ph_vehicle p).
Proof.
  intros prev c p H Hq Hc. rewrite phase_new_configured in H. destruct prev as [q|].
  - injection H as <-. apply configured_tables; auto.
  - destruct (pc_init c) as [i|]; [|discriminate]. injection H as <-.
    change (tables_accepted (ph_vehicle (configured (N := N) default_phase c))).
    apply configured_tables; [|exact Hc].
    repeat split; apply C18_default_table_accepted.
Qed.
Lemma run_vehicle : forall fuel (p q : Phase N) h, run fuel p = (h, Finished q) -> ph_vehicle q = ph_vehicle p.
Proof. intros fuel p q h H. now destruct (C28_run_keeps_parameters fuel p h q (or_introl H)). Qed.

Lemma sim_loop_aborts : forall fuel cs i prev (p : Phase N) ev e,
  Forall configured_tables_accepted cs ->
  (forall q, prev = Some q -> tables_accepted (ph_vehicle q)) ->
  sim_loop fuel i prev p cs = (ev, Aborted e) ->
  e = PMaxAcceleration \/ e = PNoZeroCrossing \/
  (e = PNoInit /\ prev = None /\ exists c rest, cs = c :: rest /\ pc_init c = None).
Proof.
  intros fuel cs. induction cs as [|c cs IH]; intros i prev p ev e Hc Hp H; cbn [sim_loop] in H; [discriminate|].
  inversion Hc as [|? ? Hc1 Hc2]; subst.
  destruct (phase_new prev c) as [p1|e1] eqn:Hn.
  - assert (T := phase_new_tables _ _ _ Hn Hp Hc1).
    destruct (run fuel (reset p1)) as [h [p2|e2|p2]] eqn:R; [| |discriminate].
    + destruct (sim_loop fuel (S i) (Some p2) p2 cs) as [ev' st'] eqn:L. injection H as <- ->.
      assert (T' : forall q, Some p2 = Some q -> tables_accepted (ph_vehicle q)).
      { intros q [= <-]. rewrite (run_vehicle _ _ _ _ R). exact T. }
      destruct (IH _ _ _ _ _ Hc2 T' L) as [K|[K|(_ & K & _)]]; auto. discriminate.
    + injection H as <- <-. destruct (C49_run fuel (reset p1) h e2 T R); auto.
  - injection H as <- <-. rewrite phase_new_configured in Hn.
    destruct prev as [q|]; [discriminate|]. destruct (pc_init c) as [x|] eqn:E; [discriminate|].
    injection Hn as <-. right. right. split; [reflexivity|]. split; [reflexivity|]. eauto.
Qed.

Theorem C49_simulation : forall fuel (cs : list (PhaseConfig N)) ev e,
  Forall configured_tables_accepted cs -> simulate fuel cs = (ev, Aborted e) ->
  e = PMaxAcceleration \/ e = PNoZeroCrossing \/
  (e = PNoInit /\ exists c rest, cs = c :: rest /\ pc_init c = None).
Proof.
  intros fuel cs ev e Hc H. unfold simulate in H.
  assert (T : forall q : Phase N, None = Some q -> tables_accepted (ph_vehicle q)) by discriminate.
  destruct (sim_loop_aborts fuel cs 1 None default_phase ev e Hc T H) as [K|[K|(K1 & _ & K2)]]; auto.
Qed.

(** Tables that come from a configuration file are always accepted ones. *)
Lemma d_table_accepted : forall j (t : Table N), d_table j = Some t -> accepted t.
Proof.
  intros j t H. unfold d_table in H.
  destruct (d_table1 j) as [t1|] eqn:E1.
  { injection H as <-. unfold d_table1 in E1. destruct (fields_of _ j) as [[o fs]|]; [|discriminate].
    cbn [opt_bind] in E1. destruct fs as [|a [|b [|c [|]]]]; try discriminate.
    destruct (req d_axis a); [|discriminate]. destruct (req (d_list d_f64) b); [|discriminate].
    destruct (dflt Linear d_interpolator c); [|discriminate]. cbn [opt_bind] in E1.
    unfold result_ok in E1. destruct (t1_try_new p l i) as [x|x] eqn:T; [|discriminate].
    injection E1 as ->. cbn [accepted]. eauto. }
  destruct (d_table2 j) as [t2|] eqn:E2.
  { injection H as <-. unfold d_table2 in E2. destruct (fields_of _ j) as [[o fs]|]; [|discriminate].
    cbn [opt_bind] in E2. destruct fs as [|a [|b [|c [|d [|]]]]]; try discriminate.
    destruct (req d_axis a); [|discriminate]. destruct (req d_axis b); [|discriminate].
    destruct (req (d_list _) c); [|discriminate].
    destruct (dflt Linear d_interpolator d); [|discriminate]. cbn [opt_bind] in E2.
    unfold result_ok in E2. destruct (t2_try_new p p0 l i) as [x|x] eqn:T; [|discriminate].
    injection E2 as ->. cbn [accepted]. eauto. }
  destruct (d_table3 j) as [t3|] eqn:E3; [|discriminate].
  injection H as <-. unfold d_table3 in E3. destruct (fields_of _ j) as [[o fs]|]; [|discriminate].
  cbn [opt_bind] in E3. destruct fs as [|a [|b [|c [|d [|e [|]]]]]]; try discriminate.
  destruct (req d_axis a); [|discriminate]. destruct (req d_axis b); [|discriminate].
  destruct (req d_axis c); [|discriminate]. destruct (req (d_list _) d); [|discriminate].
  destruct (dflt Linear d_interpolator e); [|discriminate]. cbn [opt_bind] in E3.
  unfold result_ok in E3. destruct (t3_try_new p p0 p1 l i) as [x|x] eqn:T; [|discriminate].
  injection E3 as ->. cbn [accepted]. eauto 6.
Qed.
Lemma opt_inv : forall A o (d : json N -> option A) v x, opt o d v = Some (Some x) -> exists j, d j = Some x.
Proof.
  intros A o d [j|] x H; cbn in H; [|destruct o; discriminate].
  exists j. unfold d_option in H. destruct (d j); destruct j; cbn in H; congruence.
Qed.
Lemma d_vehicle_accepted : forall j (v : VehicleConfig N) t, d_vehicle j = Some v ->
  (vc_drag_coeff v = Some t \/ vc_lift_coeff v = Some t \/ vc_side_force_coeff v = Some t) -> accepted t.
Proof.
  intros j v t H K. unfold d_vehicle in H. destruct (fields_of _ j) as [[o fs]|]; [|discriminate].
  cbn [opt_bind] in H. destruct fs as [|a [|b [|c [|d [|e [|f [|g [|]]]]]]]]; try discriminate.
  destruct (opt o d_f64 a); [|discriminate]. destruct (opt o d_f64 b); [|discriminate].
  destruct (opt o d_f64 c); [|discriminate]. cbn [opt_bind] in H.
  destruct (opt o d_table d) eqn:D; [|discriminate]. destruct (opt o d_table e) eqn:E; [|discriminate].
  destruct (opt o d_table f) eqn:F; [|discriminate]. cbn [opt_bind] in H.
  destruct (opt o (d_list d_engine) g); [|discriminate]. cbn [opt_bind] in H. injection H as <-.
  cbn [vc_drag_coeff vc_lift_coeff vc_side_force_coeff] in K.
  destruct K as [->|[->| ->]];
    match goal with E : opt o d_table _ = Some (Some t) |- _ =>
      destruct (opt_inv _ _ _ _ _ E) as [j' E']; exact (d_table_accepted _ _ E') end.
Qed.
Lemma mapM_In : forall A B (f : A -> option B) l r b, mapM f l = Some r -> In b r -> exists a, f a = Some b.
Proof.
  intros A B f l. induction l as [|a l IH]; intros r b H Hin; cbn in H.
  - injection H as <-. destruct Hin.
  - destruct (f a) eqn:E; [|discriminate]. cbn in H. destruct (mapM f l); [|discriminate].
    cbn in H. injection H as <-. destruct Hin as [<-|Hin]; eauto.
Qed.
Lemma decoded_tables_accepted : forall j (cs : list (PhaseConfig N)), d_simulation j = Some cs ->
  Forall configured_tables_accepted cs.
Proof.
  intros j cs H. apply Forall_forall. intros c Hin. unfold d_simulation, d_list in H.
  destruct j; try discriminate. destruct (mapM_In _ _ _ _ _ _ H Hin) as [jc E].
  intros v t Ev K. unfold d_phase in E. destruct (fields_of _ jc) as [[o fs]|]; [|discriminate].
  cbn [opt_bind] in E. destruct fs as [|a [|b [|c1 [|d [|e [|f [|g [|h [|]]]]]]]]]; try discriminate.
  destruct (opt o d_init a); [|discriminate]. destruct (opt o d_vehicle b) eqn:B; [|discriminate].
  destruct (opt o d_steering c1); [|discriminate]. destruct (opt o d_planet d); [|discriminate].
  destruct (opt o d_atmosphere e); [|discriminate]. destruct (opt o d_f64 f); [|discriminate].
  destruct (opt o d_f64 g); [|discriminate]. cbn [opt_bind] in E.
  destruct (opt o (d_pair d_variable d_f64) h); [|discriminate]. cbn [opt_bind] in E. injection E as <-.
  cbn [pc_vehicle] in Ev. subst o1.
  destruct (opt_inv _ _ _ _ _ B) as [j' E']. exact (d_vehicle_accepted _ _ _ E' K).
Qed.
(** From file to abort: whatever the document, a simulation aborts for one of the three
    documented reasons only. *)
Theorem C49_program : forall (j : json N) fuel (cs : list (PhaseConfig N)) ev e,
  d_simulation j = Some cs -> simulate fuel cs = (ev, Aborted e) ->
  e = PMaxAcceleration \/ e = PNoZeroCrossing \/
  (e = PNoInit /\ exists c rest, cs = c :: rest /\ pc_init c = None).
Proof. intros j fuel cs ev e Hj. apply C49_simulation. exact (decoded_tables_accepted j cs Hj). Qed.
End WithNum.

(** A document of one phase with an engine but no mass: it decodes and the simulation
    aborts because no throttle setting exists.  Without [init] it aborts for that. *)
Local Open Scope string_scope.
Local Open Scope list_scope.
Definition massless (with_init : bool) : json DN :=
  JArr [JObj ((if with_init
      then [("init", JObj [("latitude", JNum (b64_lit 28 0 : carrier DN)); ("longitude", JNum (b64_lit 3 0 : carrier DN));
                   ("azimuth", JNum (b64_lit 90 0 : carrier DN)); ("altitude", JNum (b64_lit 0 0 : carrier DN))])]
      else []) ++
    [("vehicle", JObj [("drag_coeff", JObj [("x", JArr [JStr "time"; JArr [JNum (b64_lit 1 0 : carrier DN)]]);
                                           ("data", JArr [JNum (b64_lit 1 0 : carrier DN)])]);
                       ("engines", JArr [JObj [("incidence", JArr [JNum (b64_lit 0 0 : carrier DN); JNum (b64_lit 0 0 : carrier DN)]);
                          ("thrust_vac", JNum (b64_lit 100 0 : carrier DN)); ("isp_vac", JNum (b64_lit 100 0 : carrier DN));
                          ("exit_area", JNum (b64_lit 0 0 : carrier DN))]])])])].
Definition massless_check : bool :=
  match d_simulation (massless true), d_simulation (massless false) with
  | Some cs, Some cs' =>
      match simulate 5 cs, simulate 5 cs' with
      | (_, Aborted PMaxAcceleration), (_, Aborted PNoInit) => true
      | _, _ => false
      end
  | _, _ => false
  end.
Lemma massless_checked : massless_check = true.
Proof. vm_compute. reflexivity. Qed.
Example ex_massless : exists cs cs' ev ev',
  d_simulation (massless true) = Some cs /\ simulate 5 cs = (ev, Aborted PMaxAcceleration) /\
  d_simulation (massless false) = Some cs' /\ simulate 5 cs' = (ev', Aborted PNoInit).
Proof.
  assert (H := massless_checked). unfold massless_check in H.
  destruct (d_simulation (massless true)) as [cs|]; [|discriminate].
  destruct (d_simulation (massless false)) as [cs'|]; [|discriminate].
  destruct (simulate 5 cs) as [ev st] eqn:E. destruct (simulate 5 cs') as [ev' st'] eqn:E'.
  exists cs, cs', ev, ev'.
  destruct st as [|[]|]; try discriminate; destruct st' as [|[]|]; try discriminate; auto.
Qed.
