(** * C58: only what the engines add up to matters

    The order in which the engines are listed, and whether a cluster of equal engines is listed engine by engine or as one
    engine of the total thrust and exit area, changes nothing in the output. *)
From Coq Require Import ZArith List Reals Lra Lia Bool Permutation.
From Coquelicot Require Import Coquelicot.
From Coq Require Import List.
From Verif Require Import Num Constants State Tables Config Planet Atmosphere Transformations
  Steering Vehicle RungeKutta Phase Simulation XR XRFacts SpecReal SystemFacts SystemTotal RKFacts RunFacts
  PhaseNew Prop_Run Prop_Depletion.
Import ListNotations.

(** ** Specification *)
(** [c'] is [c] with its list of engines, if it has one, replaced by a list related by [R]. *)
Definition with_engines {N : Num} (es : list (Engine N)) (v : VehicleConfig N) : VehicleConfig N :=
  mkVehicleConfig (vc_structure_mass v) (vc_propellant_mass v) (vc_reference_area v) (vc_drag_coeff v) (vc_lift_coeff v)
    (vc_side_force_coeff v) (Some es).
Definition engines_replaced {N : Num} (R : list (Engine N) -> list (Engine N) -> Prop) (c c' : PhaseConfig N) : Prop :=
  c' = c \/
  exists v es es', pc_vehicle c = Some v /\ vc_engines v = Some es /\ R es es' /\
    c' = mkPhaseConfig (pc_init c) (Some (with_engines es' v)) (pc_steering c) (pc_planet_model c) (pc_atmosphere c)
           (pc_max_acceleration c) (pc_stepsize c) (pc_end_criterion c).
(** Two results of a simulation that cannot be told apart: the same output and the same outcome. *)
Definition same_result {N : Num} (r r' : list (event N) * status (Phase N)) : Prop :=
  fst r = fst r' /\
  match snd r, snd r' with
  | Finished p, Finished p' | Running p, Running p' => ph_state p = ph_state p'
  | Aborted e, Aborted e' => e = e'
  | _, _ => False
  end.

Lemma same_result_sym : forall {N : Num} (r r' : list (event N) * status (Phase N)), same_result r r' -> same_result r' r.
Proof. intros N [e1 [x|x|x]] [e2 [y|y|y]] [A D]; cbn in A, D |- *; split; cbn; try contradiction; congruence. Qed.
(** ** Equivalent propulsion systems, in every arithmetic *)
Section WithNum.
Context {N : Num}.
Local Open Scope num_scope.
Definition equivalent (es es' : list (Engine N)) : Prop :=
  (forall P, vsum (map (fun e => engine_thrust e P) es) = vsum (map (fun e => engine_thrust e P) es')) /\
  sum (map (fun e => engine_massflow e) es) = sum (map (fun e => engine_massflow e) es').
Lemma equivalent_refl : forall es, equivalent es es.
Proof. intros es. split; reflexivity. Qed.

Definition equip (es : list (Engine N)) (v : Vehicle N) : Vehicle N :=
  mkVehicle (ve_structure_mass v) (ve_initial_propellant_mass v) (ve_reference_area v) (ve_drag_coeff v) (ve_lift_coeff v)
    (ve_side_force_coeff v) es.
Definition refit (es : list (Engine N)) (p : Phase N) : Phase N := set_ph_vehicle p (equip es (ph_vehicle p)).
Lemma refit_same : forall p, refit (ve_engines (ph_vehicle p)) p = p.
Proof. intros p. destruct p as [s v]. destruct v. reflexivity. Qed.

Lemma assign_cong : forall A B (e e' : A) (k k' : A -> B), e = e' -> (forall x, k x = k' x) -> assign e k = assign e' k'.
Proof. intros A B e e' k k' -> H. apply H. Qed.
Lemma bind_cong : forall A B (e e' : outcome A) (k k' : A -> outcome B), e = e' -> (forall x, k x = k' x) -> bind e k = bind e' k'.
Proof. intros A B e e' k k' -> H. destruct e'; [apply H|reflexivity]. Qed.
Lemma system_refit : forall es (p : Phase N) s, equivalent (ve_engines (ph_vehicle p)) es -> system (refit es p) s = system p s.
Proof.
  intros es p s [E1 E2].
  assert (T : forall t P, thrust_force (equip es (ph_vehicle p)) t P = thrust_force (ph_vehicle p) t P).
  { intros t P. unfold thrust_force. cbn [ve_engines equip]. now rewrite E1. }
  assert (M : forall t, massflow (equip es (ph_vehicle p)) t = massflow (ph_vehicle p) t).
  { intros t. unfold massflow. cbn [ve_engines equip]. now rewrite E2. }
  assert (A : forall a m P f, auto_throttle (equip es (ph_vehicle p)) a m P f = auto_throttle (ph_vehicle p) a m P f).
  { intros a m P f. unfold auto_throttle. now rewrite T. }
  assert (F : forall x, aero_force (equip es (ph_vehicle p)) x = aero_force (ph_vehicle p) x) by reflexivity.
  revert T M A F. unfold refit, system. cbn [ph_planet ph_atmosphere ph_vehicle ph_steering ph_launch ph_max_acceleration set_ph_vehicle].
  change (ve_structure_mass (equip es (ph_vehicle p))) with (ve_structure_mass (ph_vehicle p)).
  generalize (equip es (ph_vehicle p)). generalize (ph_vehicle p). intros v v' T M A F.
  cbv zeta.
  repeat lazymatch goal with
  | |- assign _ _ = assign _ _ => apply assign_cong; [rewrite ?A, ?T, ?M; reflexivity|intros ?x]
  | |- bind _ _ = bind _ _ => apply bind_cong; [rewrite ?F; reflexivity|intros ?x]
  end.
  reflexivity.
Qed.

Lemma integrator_refit : forall es (p : Phase N) s h, equivalent (ve_engines (ph_vehicle p)) es ->
  integrator_step (system (refit es p)) s h = integrator_step (system p) s h.
Proof.
  intros es p s h E. unfold integrator_step, rk_step. cbv zeta.
  apply bind_cong; [apply bind_cong; [apply rk_loop_ext|reflexivity]|].
  - intros t v. now rewrite (system_refit es p _ E).
  - intros [t v]. now apply system_refit.
Qed.
Lemma step_refit : forall es (p : Phase N), equivalent (ve_engines (ph_vehicle p)) es ->
  step (refit es p) = map_outcome (refit es) (step p).
Proof.
  intros es p E. unfold step. change (ph_ended (refit es p)) with (ph_ended p). destruct (ph_ended p); [reflexivity|].
  change (integrator_step (fun s => system (refit es p) s) (ph_state (refit es p)) (ph_stepsize (refit es p)))
    with (integrator_step (system (refit es p)) (ph_state p) (ph_stepsize p)).
  rewrite (integrator_refit es p _ _ E). change (integrator_step (fun s => system p s)) with (integrator_step (system p)).
  destruct (integrator_step (system p) (ph_state p) (ph_stepsize p)) as [s|e]; [|reflexivity].
  cbn [map_outcome bind]. change (ph_end_criterion (refit es p)) with (ph_end_criterion p).
  destruct (n_abs _ <? _); [reflexivity|].
  change (event_is_active (refit es p) (ph_state (refit es p)) s) with (event_is_active p (ph_state p) s).
  destruct (event_is_active p (ph_state p) s); [|reflexivity].
  change (ph_end_criterion_tries (refit es p)) with (ph_end_criterion_tries p).
  destruct (20 <? ph_end_criterion_tries p)%nat; reflexivity.
Qed.
Lemma step_engines : forall (p q : Phase N), step p = Ret q -> ve_engines (ph_vehicle q) = ve_engines (ph_vehicle p).
Proof.
  intros p q H. unfold step in H. destruct (ph_ended p); [discriminate|]. 
  destruct (integrator_step _ _ _) as [s|e]; [|discriminate]. cbn [bind] in H.
  destruct (n_abs _ <? _); [injection H as <-; reflexivity|].
  destruct (event_is_active _ _ _); [|injection H as <-; reflexivity].
  destruct (20 <? _)%nat; [discriminate|]. injection H as <-. reflexivity.
Qed.
Lemma run_loop_refit : forall es fuel (p : Phase N), equivalent (ve_engines (ph_vehicle p)) es ->
  run_loop fuel (refit es p) = (fst (run_loop fuel p), map_status (refit es) (snd (run_loop fuel p))).
Proof.
  intros es fuel. induction fuel as [|fuel IH]; intros p E; cbn [run_loop]; change (ph_ended (refit es p)) with (ph_ended p);
    (destruct (ph_ended p); [reflexivity|]); [reflexivity|].
  rewrite (step_refit es p E). destruct (step p) as [q|e] eqn:S; [|reflexivity]. cbn [map_outcome].
  rewrite IH by (rewrite (step_engines p q S); exact E). change (ph_state (refit es q)) with (ph_state q).
  destruct (run_loop fuel q) as [h st]. reflexivity.
Qed.
Lemma run_refit : forall es fuel (p : Phase N), equivalent (ve_engines (ph_vehicle p)) es ->
  run fuel (refit es p) = (fst (run fuel p), map_status (refit es) (snd (run fuel p))).
Proof.
  intros es fuel p E. unfold run. change (ph_state (refit es p)) with (ph_state p). rewrite (system_refit es p _ E).
  destruct (system p (ph_state p)) as [s|e]; [|reflexivity].
  change (set_ph_state (refit es p) s) with (refit es (set_ph_state p s)). now apply run_loop_refit.
Qed.

(** ** Missions *)
Lemma configured_refit : forall es (p : Phase N) c c', equivalent (ve_engines (ph_vehicle p)) es -> engines_replaced equivalent c c' ->
  exists es', equivalent (ve_engines (ph_vehicle (configured p c))) es' /\ configured (refit es p) c' = refit es' (configured p c).
Proof.
  intros es p c c' E [->|(v & e0 & e1 & Hv & He & R & ->)].
  - destruct (pc_vehicle c) as [v|] eqn:Hv.
    + exists (match vc_engines v with Some x => x | None => es end). split.
      * unfold configured. rewrite Hv. cbn [ph_vehicle]. unfold vehicle_update_with_config. cbn [ve_engines].
        destruct (vc_engines v); [apply equivalent_refl|exact E].
      * unfold configured, mass_of. rewrite Hv. unfold refit, equip, vehicle_update_with_config.
        destruct p as [s ve sg at_ pl la ma ss bs ec tr en]. destruct ve as [v1 v2 v3 v4 v5 v6 v7].
        cbn [ph_state ph_vehicle ph_steering ph_atmosphere ph_planet ph_launch ph_max_acceleration ph_stepsize ph_base_stepsize
          ph_end_criterion ph_end_criterion_tries ph_ended set_ph_vehicle ve_structure_mass ve_initial_propellant_mass
          ve_reference_area ve_drag_coeff ve_lift_coeff ve_side_force_coeff ve_engines].
        destruct (vc_engines v); reflexivity.
    + exists es. split.
      * unfold configured. rewrite Hv. exact E.
      * unfold configured, mass_of. rewrite Hv. reflexivity.
  - exists e1. split.
    + unfold configured. rewrite Hv. cbn [ph_vehicle]. unfold vehicle_update_with_config. rewrite He. exact R.
    + unfold configured, mass_of. rewrite Hv. cbn [pc_vehicle pc_steering pc_planet_model pc_atmosphere pc_max_acceleration pc_stepsize pc_end_criterion
        with_engines vc_structure_mass vc_propellant_mass]. unfold refit, equip, vehicle_update_with_config.
      cbn [vc_structure_mass vc_propellant_mass vc_reference_area vc_drag_coeff vc_lift_coeff vc_side_force_coeff vc_engines with_engines].
      destruct p as [s ve sg at_ pl la ma ss bs ec tr en]. destruct ve as [v1 v2 v3 v4 v5 v6 v7].
      cbn [ph_state ph_vehicle ph_steering ph_atmosphere ph_planet ph_launch ph_max_acceleration ph_stepsize ph_base_stepsize
          ph_end_criterion ph_end_criterion_tries ph_ended set_ph_vehicle ve_structure_mass ve_initial_propellant_mass
          ve_reference_area ve_drag_coeff ve_lift_coeff ve_side_force_coeff ve_engines].
      reflexivity.
Qed.
Lemma phase_init_refit : forall es (p : Phase N) i, phase_init (refit es p) i = refit es (phase_init p i).
Proof. intros es p i. reflexivity. Qed.
Lemma reset_refit : forall es (p : Phase N), reset (refit es p) = refit es (reset p).
Proof. intros es p. reflexivity. Qed.
Lemma phase_init_vehicle : forall (p : Phase N) i, ph_vehicle (phase_init p i) = ph_vehicle p.
Proof. intros p i. reflexivity. Qed.
Lemma reset_vehicle : forall (p : Phase N), ph_vehicle (reset p) = ph_vehicle p.
Proof. intros p. reflexivity. Qed.
Definition refitted (p p' : Phase N) : Prop := exists es, equivalent (ve_engines (ph_vehicle p)) es /\ p' = refit es p.
Definition refitted_prev (p p' : option (Phase N)) : Prop :=
  match p, p' with None, None => True | Some a, Some b => refitted a b | _, _ => False end.
Lemma refitted_refl : forall p : Phase N, refitted p p.
Proof. intros p. exists (ve_engines (ph_vehicle p)). split; [apply equivalent_refl|]. now rewrite refit_same. Qed.
Lemma configured_refitted : forall (p p' : Phase N) c c', refitted p p' -> engines_replaced equivalent c c' ->
  refitted (configured p c) (configured p' c').
Proof. intros p p' c c' (es & E & ->) R. destruct (configured_refit es p c c' E R) as (es' & E' & H). now exists es'. Qed.
Lemma replaced_init : forall Q (c c' : PhaseConfig N), engines_replaced Q c c' -> pc_init c' = pc_init c.
Proof. intros Q c c' [->|(v & a & b & _ & _ & _ & ->)]; reflexivity. Qed.
Lemma phase_new_refitted : forall (prev prev' : option (Phase N)) c c', refitted_prev prev prev' -> engines_replaced equivalent c c' ->
  match phase_new prev c, phase_new prev' c' with Ret p, Ret p' => refitted p p' | Panic e, Panic e' => e = e' | _, _ => False end.
Proof.
  intros prev prev' c c' E R. rewrite !phase_new_configured. destruct prev as [p|], prev' as [p'|]; try contradiction E.
  - now apply configured_refitted.
  - rewrite (replaced_init _ _ _ R). destruct (pc_init c) as [i|]; [|reflexivity].
    destruct (configured_refitted _ _ c c' (refitted_refl default_phase) R) as (es & E1 & E2).
    exists es. split; [now rewrite phase_init_vehicle|]. rewrite E2. apply phase_init_refit.
Qed.
Lemma reset_refitted : forall p p' : Phase N, refitted p p' -> refitted (reset p) (reset p').
Proof. intros p p' (es & E & ->). exists es. split; [now rewrite reset_vehicle|apply reset_refit]. Qed.
Lemma run_engines : forall fuel (p : Phase N) h q, run fuel p = (h, Finished q) \/ run fuel p = (h, Running q) ->
  ve_engines (ph_vehicle q) = ve_engines (ph_vehicle p).
Proof. intros fuel p h q H. destruct (C28_run_keeps_parameters fuel p h q H) as (V & _). now rewrite V. Qed.
Lemma sim_refitted : forall fuel cs cs' i (prev prev' : option (Phase N)) p p', Forall2 (engines_replaced equivalent) cs cs' ->
  refitted_prev prev prev' -> refitted p p' -> same_result (sim_loop fuel i prev p cs) (sim_loop fuel i prev' p' cs').
Proof.
  intros fuel cs. induction cs as [|c cs IH]; intros cs' i prev prev' p p' F E Ep; inversion F as [|c0 c' cs0 cs'' Hc Hcs]; subst; cbn [sim_loop].
  - split; [reflexivity|]. destruct Ep as (es & _ & ->). reflexivity.
  - assert (X := phase_new_refitted prev prev' c c' E Hc).
    destruct (phase_new prev c) as [q|e], (phase_new prev' c') as [q'|e']; try contradiction X; [|split; [reflexivity|exact X]].
    destruct (reset_refitted _ _ X) as (es & E1 & E2). rewrite E2, (run_refit es fuel _ E1).
    destruct (run fuel (reset q)) as [h st] eqn:Hr. cbn [fst snd].
    destruct st as [q1|e1|q1]; cbn [map_status].
    + assert (G : refitted q1 (refit es q1)).
      { exists es. split; [|reflexivity]. rewrite (run_engines fuel (reset q) h q1); [exact E1|now left]. }
      specialize (IH cs'' (S i) (Some q1) (Some (refit es q1)) q1 (refit es q1) Hcs G G). 
      destruct (sim_loop fuel (S i) (Some q1) q1 cs) as [ev st1], (sim_loop fuel (S i) (Some (refit es q1)) (refit es q1) cs'') as [ev' st1'].
      destruct IH as [I1 I2]. cbn [fst] in I1. subst ev'. split; [reflexivity|exact I2].
    + split; reflexivity.
    + split; reflexivity.
Qed.
(** Missions that differ only in lists of engines with the same total thrust and flow have the same result. *)
Theorem simulate_equivalent : forall fuel (cs cs' : list (PhaseConfig N)), Forall2 (engines_replaced equivalent) cs cs' ->
  same_result (simulate fuel cs) (simulate fuel cs').
Proof. intros fuel cs cs' F. apply sim_refitted; [exact F|exact I|apply refitted_refl]. Qed.
Lemma replaced_weaken : forall (P Q : list (Engine N) -> list (Engine N) -> Prop), (forall a b, P a b -> Q a b) -> forall cs cs',
  Forall2 (engines_replaced P) cs cs' -> Forall2 (engines_replaced Q) cs cs'.
Proof.
  intros P Q H cs cs' F. induction F as [|c c' cs cs' [->|(v & a & b & A & B & C & D)] F IH]; constructor; auto.
  - now left.
  - right. exists v, a, b. auto.
Qed.
End WithNum.

(** ** Exact arithmetic *)
From Verif Require Import Prop_Throttle Prop_Mass Prop_MassLimited.
(** [n] engines like [e] fired together, as one engine. *)
Definition cluster (n : nat) (e : engine) : engine :=
  {| pitch := pitch e; yaw := yaw e; thrust_vac := INR n * thrust_vac e; isp := isp e; exit_area := INR n * exit_area e |}.

Section Exact.
Context {rot : mat3 xr -> mat3 xr}.
Notation N := (XR rot).

Lemma xadd_comm : forall a b, xadd a b = xadd b a.
Proof. intros [x| | |] [y| | |]; cbn; try reflexivity. now rewrite Rplus_comm. Qed.
Lemma xadd_assoc : forall a b c, xadd a (xadd b c) = xadd (xadd a b) c.
Proof. intros [x| | |] [y| | |] [z| | |]; cbn; try reflexivity. now rewrite Rplus_assoc. Qed.
Lemma vadd_comm : forall a b : vec3 N, vadd a b = vadd b a.
Proof.
  intros [a0 a1 a2] [b0 b1 b2]. unfold vadd. cbn [vx vy vz n_add XR].
  now rewrite (xadd_comm b0), (xadd_comm b1), (xadd_comm b2).
Qed.
Lemma vadd_assoc : forall a b c : vec3 N, vadd a (vadd b c) = vadd (vadd a b) c.
Proof.
  intros [a0 a1 a2] [b0 b1 b2] [c0 c1 c2]. unfold vadd. cbn [vx vy vz n_add XR].
  now rewrite (xadd_assoc a0), (xadd_assoc a1), (xadd_assoc a2).
Qed.
Lemma fold_perm : forall A (f : A -> A -> A), (forall a b c, f (f a b) c = f (f a c) b) -> forall l l' a,
  Permutation l l' -> fold_left f l a = fold_left f l' a.
Proof.
  intros A f C l l' a P. revert a. induction P as [|x l l' P IH|x y l|l l' l'' P IH P' IH']; intros a; cbn [fold_left].
  - reflexivity.
  - apply IH.
  - now rewrite C.
  - now rewrite IH, IH'.
Qed.
Lemma perm_equivalent : forall es es' : list (Engine N), Permutation es es' -> equivalent es es'.
Proof.
  intros es es' P. split.
  - intros p. unfold vsum. apply fold_perm; [|now apply Permutation_map].
    intros a b c. rewrite <- !vadd_assoc. now rewrite (vadd_comm b c).
  - unfold sum. apply fold_perm; [|now apply Permutation_map].
    intros a b c. cbn [n_add XR]. rewrite <- !xadd_assoc. now rewrite (xadd_comm b c).
Qed.

Lemma sum_repeat : forall n x a, fold_left xadd (repeat (Fin x) n) a = xadd a (Fin (INR n * x)).
Proof.
  intros n x. induction n as [|n IH]; intros a; cbn [repeat fold_left].
  - cbn [INR]. rewrite Rmult_0_l. destruct a; cbn; try reflexivity. apply (f_equal Fin); ring.
  - rewrite IH, S_INR, <- xadd_assoc. f_equal. cbn. apply (f_equal Fin). ring.
Qed.
Lemma sum_repeat_inf : forall n b a, (forall x, b <> Fin x) -> fold_left xadd (repeat b (S n)) a = xadd a b.
Proof.
  intros n b. induction n as [|n IH]; intros a H; [reflexivity|].
  cbn [repeat fold_left] in IH |- *. rewrite IH by exact H. destruct a as [x| | |], b as [y| | |]; try reflexivity. now exfalso; apply (H y).
Qed.
Lemma map_repeat : forall A B (f : A -> B) x n, map f (repeat x n) = repeat (f x) n.
Proof. intros A B f x n. induction n as [|n IH]; [reflexivity|]. cbn [repeat map]. now rewrite IH. Qed.

Lemma inf_sign_scale : forall k x, 0 < k -> inf_sign (k * x) = inf_sign x.
Proof.
  intros k x K. unfold inf_sign. destruct (Rtotal_order x 0) as [H|[H|H]].
  - rewrite (Rltb_false 0 x) by lra. rewrite (Rltb_true x 0) by lra.
    rewrite (Rltb_false 0 (k * x)), (Rltb_true (k * x) 0); [reflexivity| |]; nra.
  - subst x. now rewrite Rmult_0_r.
  - rewrite (Rltb_true 0 x) by lra. rewrite (Rltb_true 0 (k * x)); [reflexivity|]. nra.
Qed.
Lemma inf_sign_infinite : forall y x, inf_sign y <> Fin x.
Proof. intros y x. unfold inf_sign. destruct (Rltb 0 y); [discriminate|]. destruct (Rltb y 0); discriminate. Qed.
(** A quantity of [n+1] equal engines. *)
Lemma thrust_component : forall n c T A P a,
  fold_left xadd (repeat (xmul (Fin c) (xsub (Fin T) (xmul (Fin A) P))) (S n)) a
  = xadd a (xmul (Fin c) (xsub (Fin (INR (S n) * T)) (xmul (Fin (INR (S n) * A)) P))).
Proof.
  intros n c T A P a. assert (K : 0 < INR (S n)) by (apply lt_0_INR; lia).
  assert (I : forall y z, xmul (Fin c) (xsub (Fin T) (inf_sign y)) = xmul (Fin c) (xsub (Fin z) (inf_sign y))).
  { intros y z. unfold inf_sign. destruct (Rltb 0 y); [reflexivity|]. destruct (Rltb y 0); reflexivity. }
  assert (J : forall y x, xmul (Fin c) (xsub (Fin T) (inf_sign y)) <> Fin x).
  { intros y x. unfold inf_sign at 1. destruct (Rltb 0 y); [apply inf_sign_infinite|]. destruct (Rltb y 0); [apply inf_sign_infinite|]. discriminate. }
  destruct P as [p| | |].
  - change (xmul (Fin c) (xsub (Fin T) (xmul (Fin A) (Fin p)))) with (Fin (c * (T - A * p))). rewrite sum_repeat.
    f_equal. cbn. apply (f_equal Fin). ring.
  - change (xmul (Fin A) PInf) with (inf_sign A). change (xmul (Fin (INR (S n) * A)) PInf) with (inf_sign (INR (S n) * A)).
    rewrite (inf_sign_scale _ _ K), sum_repeat_inf by apply J. f_equal. apply I.
  - change (xmul (Fin A) NInf) with (inf_sign (- A)). change (xmul (Fin (INR (S n) * A)) NInf) with (inf_sign (- (INR (S n) * A))).
    replace (- (INR (S n) * A)) with (INR (S n) * - A) by ring.
    rewrite (inf_sign_scale _ _ K), sum_repeat_inf by apply J. f_equal. apply I.
  - change (xmul (Fin c) (xsub (Fin T) (xmul (Fin A) NaN))) with NaN. rewrite sum_repeat_inf by discriminate. reflexivity.
Qed.
Lemma flow_component : forall n T i a,
  fold_left xadd (repeat (xdiv (xdiv (xneg (Fin T)) (Fin i)) (Fin g0)) (S n)) a
  = xadd a (xdiv (xdiv (xneg (Fin (INR (S n) * T))) (Fin i)) (Fin g0)).
Proof.
  intros n T i a. assert (K : 0 < INR (S n)) by (apply lt_0_INR; lia). assert (G : 0 < g0) by (unfold g0; lra).
  cbn [xneg]. destruct (Req_dec i 0) as [->|Hi].
  - replace (xdiv (Fin (- T)) (Fin 0)) with (inf_sign (- T)) by (unfold xdiv, Reqb; destruct (Req_EM_T 0 0); [reflexivity|lra]).
    replace (xdiv (Fin (- (INR (S n) * T))) (Fin 0)) with (inf_sign (- (INR (S n) * T))) by (unfold xdiv, Reqb; destruct (Req_EM_T 0 0); [reflexivity|lra]).
    replace (- (INR (S n) * T)) with (INR (S n) * - T) by ring. rewrite (inf_sign_scale _ _ K).
    apply sum_repeat_inf. intros x. unfold inf_sign. destruct (Rltb 0 (- T)); [cbn; destruct (Rltb g0 0); discriminate|].
    destruct (Rltb (- T) 0); [cbn; destruct (Rltb g0 0); discriminate|discriminate].
  - rewrite !xdiv_fin by (assumption || lra). rewrite sum_repeat. f_equal. apply (f_equal Fin). field. split; [exact Hi|lra].
Qed.
Lemma vsum_components : forall (l : list (vec3 N)) a,
  fold_left (vadd (N := N)) l a = V3 (fold_left xadd (map (fun v : vec3 N => vx v) l) (vx a)) (fold_left xadd (map (fun v : vec3 N => vy v) l) (vy a)) (fold_left xadd (map (fun v : vec3 N => vz v) l) (vz a)).
Proof.
  induction l as [|v l IH]; intros a; [now destruct a|]. cbn [fold_left map]. rewrite IH. reflexivity.
Qed.
Lemma gravity : Fin g0 = STD_GRAVITY (N := N).
Proof. unfold STD_GRAVITY. cbn [n_lit XR]. unfold xlit, g0. apply (f_equal Fin). simpl. field. Qed.
Lemma cluster_equivalent : forall n e (l1 l2 : list (Engine N)), (0 < n)%nat ->
  equivalent (l1 ++ repeat (finE e) n ++ l2) (l1 ++ [finE (cluster n e)] ++ l2).
Proof.
  intros n e l1 l2 Hn. destruct n as [|n]; [lia|]. split.
  - intros P. unfold vsum. rewrite !map_app, !fold_left_app. f_equal. rewrite map_repeat.
    generalize (fold_left (vadd (N := N)) (map (fun e0 : Engine N => engine_thrust e0 P) l1) vzero). intros [a0 a1 a2].
    rewrite vsum_components, !map_repeat. cbn [vx vy vz map].
    unfold engine_thrust, finE, cluster, vscale_r. cbn [en_incidence en_thrust_vac en_exit_area fst snd pitch yaw thrust_vac exit_area vx vy vz].
    cbn [n_mul n_sub n_cos n_sin XR xfun]. cbn [fold_left]. unfold vadd. cbn [vx vy vz n_add XR].
    cbn [xmul]. 
    change (Fin (cos (yaw e) * cos (pitch e))) with (Fin (cos (yaw e) * cos (pitch e))).
    rewrite !thrust_component. reflexivity.
  - unfold sum. rewrite !map_app, !fold_left_app. f_equal. rewrite map_repeat.
    generalize (fold_left (fun acc x : N => n_add acc x) (map (fun e0 : Engine N => engine_massflow e0) l1) (n_lit 0 0)). intros a.
    change (fun acc x : N => n_add acc x) with xadd.
    replace (engine_massflow (finE e)) with (xdiv (xdiv (xneg (Fin (thrust_vac e))) (Fin (isp e))) (Fin g0)).
    rewrite flow_component. cbn [map fold_left]. f_equal. unfold engine_massflow. cbn [finE cluster en_thrust_vac en_isp_vac isp thrust_vac n_div n_neg XR].
      exact (f_equal (xdiv _) gravity).
Qed.

(** The order of the engines is irrelevant (exact arithmetic; any values, infinite ones included). *)
Theorem C58_order : forall fuel (cs cs' : list (PhaseConfig N)),
  Forall2 (engines_replaced (fun es es' => Permutation es es')) cs cs' -> same_result (simulate fuel cs) (simulate fuel cs').
Proof. intros fuel cs cs' F. apply simulate_equivalent. revert F. apply replaced_weaken. apply perm_equivalent. Qed.
(** A cluster of equal engines may be written as one engine. *)
Theorem C58_cluster : forall fuel (cs cs' : list (PhaseConfig N)),
  Forall2 (engines_replaced (fun es es' => exists l1 l2 n e, (0 < n)%nat /\
    es = l1 ++ repeat (finE e) n ++ l2 /\ es' = l1 ++ [finE (cluster n e)] ++ l2)) cs cs' ->
  same_result (simulate fuel cs) (simulate fuel cs').
Proof.
  intros fuel cs cs' F. apply simulate_equivalent. revert F. apply replaced_weaken.
  intros es es' (l1 & l2 & n & e & Hn & -> & ->). now apply cluster_equivalent.
Qed.
End Exact.

(** ** IEEE arithmetic: two engines may be exchanged, bit for bit *)
From Flocq Require Import IEEE754.BinarySingleNaN Core.
From Verif Require Import B64 B64Facts.
Lemma Bplus_comm : forall x y : b64, Bplus mode_NE x y = Bplus mode_NE y x.
Proof.
  intros x y. destruct x as [sx|sx| |sx mx ex Bx], y as [sy|sy| |sy my ey By]; try reflexivity.
  - destruct sx, sy; reflexivity.
  - destruct sx, sy; reflexivity.
  - set (a := B754_finite sx mx ex Bx). set (b := B754_finite sy my ey By).
    assert (Fa : is_finite a = true) by reflexivity. assert (Fb : is_finite b = true) by reflexivity.
    assert (H := Bplus_correct 53 1024 _ _ mode_NE a b Fa Fb). assert (G := Bplus_correct 53 1024 _ _ mode_NE b a Fb Fa).
    rewrite (Rplus_comm (B2R b) (B2R a)) in G.
    destruct (Rlt_bool _ _).
    + destruct H as (H1 & H2 & H3), G as (G1 & G2 & G3). apply B2R_Bsign_inj; [exact H2|exact G2|congruence|].
      rewrite H3, G3. destruct (Rcompare _ 0); try reflexivity. now rewrite andb_comm.
    + destruct H as (H1 & H2), G as (G1 & G2). apply B2SF_inj. rewrite H1, G1. now rewrite H2.
Qed.
Lemma exchange : forall a b : b64, Bplus mode_NE (Bplus mode_NE (B754_zero false) a) b = Bplus mode_NE (Bplus mode_NE (B754_zero false) b) a.
Proof.
  intros a b. destruct a as [sx|sx| |sx mx ex Bx], b as [sy|sy| |sy my ey By]; try reflexivity;
    try (destruct sx; reflexivity); try (destruct sy; reflexivity); try (destruct sx, sy; reflexivity).
  apply Bplus_comm.
Qed.
Section IEEE.
Variable lm : libm.
Notation N := (B64 lm).
Lemma exchange_equivalent : forall (a b : Engine N) l, equivalent (a :: b :: l) (b :: a :: l).
Proof.
  intros a b l.
  assert (Z : n_lit (n := N) 0 0 = B754_zero false) by reflexivity.
  split.
  - intros P. unfold vsum. cbn [map fold_left]. f_equal. generalize (engine_thrust a P), (engine_thrust b P). intros [a0 a1 a2] [b0 b1 b2].
    unfold vadd, vzero. cbn [vx vy vz n_add B64]. rewrite Z. now rewrite (exchange a0 b0), (exchange a1 b1), (exchange a2 b2).
  - unfold sum. cbn [map fold_left]. f_equal. cbn [n_add B64]. rewrite Z. apply exchange.
Qed.
(** In the program's own arithmetic the first two engines may change places: not a bit of the output changes. *)
Theorem C58_two_engines_ieee : forall fuel (cs cs' : list (PhaseConfig N)),
  Forall2 (engines_replaced (fun es es' => exists a b l, es = a :: b :: l /\ es' = b :: a :: l)) cs cs' ->
  same_result (simulate fuel cs) (simulate fuel cs').
Proof.
  intros fuel cs cs' F. apply simulate_equivalent. revert F. apply replaced_weaken.
  intros es es' (a & b & l & -> & ->). apply exchange_equivalent.
Qed.
(** With three engines the rounding of the sum depends on the order. *)
Definition test_engine (t : Z) : Engine N :=
  mkEngine (N := N) (n_lit 0 0, n_lit 0 0) (n_lit t 0) (n_lit 300 0) (n_lit 0 0).
Example C58_three_engines_ieee : exists (es es' : list (Engine N)) v, Permutation es es' /\
  massflow (equip es v) (n_lit 1 0) <> massflow (equip es' v) (n_lit 1 0).
Proof.
  exists [test_engine 10000000000000000; test_engine 1; test_engine 1], [test_engine 1; test_engine 1; test_engine 10000000000000000], default_vehicle.
  split.
  - apply (Permutation_cons_append [test_engine 1; test_engine 1] (test_engine 10000000000000000)).
  - intros H. apply (f_equal (@B2SF 53 1024)) in H. vm_compute in H. discriminate.
Qed.
End IEEE.

(** ** Non-vacuity *)
Section Example.
Context {rot : mat3 xr -> mat3 xr}.
Notation N := (XR rot).
(** A third of the engine of [ex_limited_burn]. *)
Definition third : engine := {| pitch := 0; yaw := 0; thrust_vac := 1000000 / 3; isp := 300; exit_area := 1 / 3 |}.
Definition engines_config (es : list engine) : PhaseConfig N :=
  mkPhaseConfig (N := N) (Some (mkInitConfig (N := N) (Fin 28) (Fin 10) (Fin 90) (Fin 0)))
    (Some (mkVehicleConfig (N := N) (Some (Fin 1000)) (Some (Fin 9000)) None None None None (Some (map finE es))))
    None None None (Some (Fin 50)) None (Some (TimeSinceEvent, Fin (5 / 2))).
Lemma three_thirds : cluster 3 third = burn_engine.
Proof.
  unfold cluster, third, burn_engine. cbn [pitch yaw thrust_vac isp exit_area]. f_equal; cbn [INR]; field.
Qed.
Lemma replace_engines : forall (Q : list (Engine N) -> list (Engine N) -> Prop) es es', Q (map finE es) (map finE es') ->
  Forall2 (engines_replaced Q) [engines_config es] [engines_config es'].
Proof.
  intros Q es es' H. constructor; [|constructor]. right. eexists. exists (map finE es), (map finE es'). 
  split; [reflexivity|]. split; [reflexivity|]. split; [exact H|reflexivity].
Qed.
Lemma same_result_finished : forall (r r' : list (event N) * status (Phase N)) q, same_result r r' -> snd r' = Finished q ->
  exists q', r = (fst r', Finished q') /\ ph_state q' = ph_state q.
Proof.
  intros [e1 s1] [e2 s2] q [E S] H. cbn [fst snd] in *. subst e2 s2. destruct s1 as [p|x|p]; try contradiction S. now exists p.
Qed.
(** The three ways of writing the propulsion of [ex_limited_burn] give that mission's output, which is not empty. *)
Example C58_nonvacuous : exists (ev : list (event N)) (q : Phase N), (2 <= length ev)%nat /\
  simulate 5 [engines_config [burn_engine]] = (ev, Finished q) /\
  (exists q', simulate 5 [engines_config [third; third; third]] = (ev, Finished q') /\ ph_state q' = ph_state q) /\
  (exists q', simulate 5 [engines_config [third; cluster 2 third]] = (ev, Finished q') /\ ph_state q' = ph_state q) /\
  (exists q', simulate 5 [engines_config [cluster 2 third; third]] = (ev, Finished q') /\ ph_state q' = ph_state q).
Proof.
  destruct (ex_limited_burn (rot := rot)) as (p & h & q & t & m & th & a & B & R & Hin & _).
  assert (S : exists ev, simulate 5 [engines_config [burn_engine]] = (ev, Finished q) /\ (2 <= length ev)%nat).
  { change (engines_config [burn_engine]) with (limited_config (rot := rot)). 
    remember (limited_config (rot := rot)) as c eqn:Hc. clear Hc.
    assert (X : exists p0, phase_new None c = Ret p0 /\ p = reset p0).
    { inversion B as [c0 p0 H0 H1 H2|cs p0 f0 h0 q0 c0 p' H0 H1 H2 H3 H4]; subst; [now exists p0|].
      destruct cs; [inversion H0; destruct cs; discriminate|destruct cs; discriminate]. }
    destruct X as (p0 & X & ->). eexists. split.
    - unfold simulate. cbn [sim_loop]. rewrite X, R. reflexivity.
    - rewrite app_nil_r. cbn [length]. rewrite map_length. destruct h; [contradiction|cbn; lia]. }
  destruct S as (ev & S & L). exists ev, q. split; [exact L|]. split; [exact S|].
  assert (C3 : same_result (simulate 5 [engines_config [third; third; third]]) (simulate 5 [engines_config [burn_engine]])).
  { apply C58_cluster, replace_engines. exists [], [], 3%nat, third. split; [lia|]. split; [reflexivity|]. now rewrite three_thirds. }
  assert (C2 : same_result (simulate 5 [engines_config [third; third; third]]) (simulate 5 [engines_config [third; cluster 2 third]])).
  { apply C58_cluster, replace_engines. exists [finE third], [], 2%nat, third. split; [lia|]. split; reflexivity. }
  assert (O : same_result (simulate 5 [engines_config [third; cluster 2 third]]) (simulate 5 [engines_config [cluster 2 third; third]])).
  { apply C58_order, replace_engines. apply perm_swap. }
  destruct (same_result_finished _ _ q C3) as (q3 & E3 & G3); [now rewrite S|]. rewrite S in E3. cbn [fst] in E3.
  destruct (same_result_finished _ _ q3 (same_result_sym _ _ C2)) as (q2 & E2 & G2); [now rewrite E3|]. rewrite E3 in E2. cbn [fst] in E2.
  destruct (same_result_finished _ _ q2 (same_result_sym _ _ O)) as (q1 & E1 & G1); [now rewrite E2|]. rewrite E2 in E1. cbn [fst] in E1.
  split; [exists q3; now split|]. split; [exists q2; split; [exact E2|congruence]|]. exists q1. split; [exact E1|congruence].
Qed.
End Example.
