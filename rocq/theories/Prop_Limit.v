(** * C23: the acceleration limit; and totality of the equations of motion in exact
    arithmetic (part of C49) *)
From Coq Require Import ZArith List Reals Lra Lia Bool.
From Verif Require Import Num Constants State Tables Config Planet Atmosphere Transformations
  Steering Vehicle RungeKutta Phase Simulation XR XRFacts SpecReal SystemFacts SystemTotal RunFacts
  PhaseNew Prop_Run Prop_Tables Prop_Panics Prop_Throttle.
Import ListNotations.

(** ** Enforcement, in every arithmetic *)
Section Generic.
Context {N : Num}.
Local Open Scope num_scope.
Theorem C23_reported : forall (cs : list (PhaseConfig N)) (p : Phase N) s, reported cs p s ->
  n_ltb (ph_max_acceleration p * n_lit 1001 (-3)) (norm (st_vehicle_acceleration_body s)) = false.
Proof. intros cs p s H. destruct (C37_reported cs p s H) as [s0 E]. exact (e_limit _ _ _ E). Qed.
End Generic.

Local Open Scope R_scope.
Section Exact.
Context {rot : mat3 xr -> mat3 xr}.
Notation N := (XR rot).

(** In exact arithmetic: the sensed acceleration [a] of every reported state of a phase
    with limit [L] is at most 0.1 % above it. *)
Theorem C23_limit : forall (cs : list (PhaseConfig N)) (p : Phase N) s L a,
  reported cs p s -> ph_max_acceleration p = Fin L -> st_vehicle_acceleration_body s = finv a ->
  normR a <= 1001 / 1000 * L.
Proof.
  intros cs p s L a H HL Ha. assert (G := C23_reported cs p s H). rewrite HL, Ha in G.
  rewrite norm_fin in G. revert G. xrs. intros G. apply Rltb_iff_false in G. lra.
Qed.

Lemma vdiv_fin : forall a m, m <> 0 -> vdiv (N := N) (finv a) (Fin m) = finv (scaleR (/ m) a).
Proof.
  intros [x y z] m H. unfold vdiv, finv, scaleR. cbn [vx vy vz]. xrs. rewrite !xdiv_fin by exact H.
  fin_eq; unfold Rdiv; ring.
Qed.

(** If the aerodynamic force alone stays within the limit, the equations of motion do
    not abort, and the sensed acceleration is within the limit itself. *)
Theorem C23_no_abort : forall (p : Phase N) s0 s es L m pr f,
  equations p s0 s -> tables_accepted (ph_vehicle p) ->
  engines_are (ph_vehicle p) es -> ph_max_acceleration p = Fin L -> 0 < L ->
  st_mass s = Fin m -> 0 < m -> st_pressure s = Fin pr -> st_aero_force_body s = finv f ->
  normR f <= L * m ->
  system p s0 = Ret s /\ exists a, st_vehicle_acceleration_body s = finv a /\ normR a <= L.
Proof.
  intros p s0 s es L m pr f Q T He HL PL Hm Pm Hp Hf Hle.
  assert (E := q_throttle _ _ _ Q). rewrite HL, Hm, Hp, Hf in E.
  destruct (C22_largest_throttle (ph_vehicle p) es pr f L m He) as (th & Et & _ & B & _);
    [nra|exact Hle|].
  rewrite Et in E.
  assert (V := q_vehicle_acceleration _ _ _ Q).
  rewrite (q_thrust _ _ _ Q), E, Hp, Hf, Hm, (C24_thrust _ es) in V by exact He.
  rewrite vadd_fin, vdiv_fin in V by lra.
  assert (K : normR (scaleR (/ m) (addR f (scaleR th (full_thrust es pr)))) <= L).
  { rewrite normR_scale. assert (0 < / m) by now apply Rinv_0_lt_compat.
    rewrite Rabs_right by lra. unfold load in B.
    apply Rmult_le_reg_l with m; [exact Pm|]. rewrite <- Rmult_assoc, Rinv_r, Rmult_1_l by lra. lra. }
  split; [|eauto].
  apply system_eom. apply equations_eom; [exact Q|]. unfold guard. rewrite V, E, HL, norm_fin.
  xrs. rewrite Rltb_false by lra. reflexivity.
Qed.
(** Without a limit they never abort while the mass is positive. *)
Theorem C23_unlimited : forall (p : Phase N) s0 s es m pr f,
  equations p s0 s -> engines_are (ph_vehicle p) es -> ph_max_acceleration p = PInf ->
  st_mass s = Fin m -> 0 < m -> st_pressure s = Fin pr -> st_aero_force_body s = finv f ->
  system p s0 = Ret s /\ st_throttle s = Fin 1 /\
  st_vehicle_acceleration_body s = finv (scaleR (/ m) (addR f (full_thrust es pr))).
Proof.
  intros p s0 s es m pr f Q He HL Hm Pm Hp Hf.
  assert (E := q_throttle _ _ _ Q). rewrite HL, Hm, Hp, Hf, (C22_unlimited _ es) in E by assumption.
  assert (V := q_vehicle_acceleration _ _ _ Q).
  rewrite (q_thrust _ _ _ Q), E, Hp, Hf, Hm, (C24_thrust _ es) in V by exact He.
  rewrite vadd_fin, vdiv_fin in V by lra.
  replace (scaleR 1 (full_thrust es pr)) with (full_thrust es pr) in V
    by (unfold scaleR; destruct (full_thrust es pr); cbn; f_equal; ring).
  split; [|split; [exact E|exact V]].
  apply system_eom. apply equations_eom; [exact Q|]. unfold guard. rewrite V, E, HL, norm_fin.
  xrs. unfold inf_sign. rewrite Rltb_true by lra. reflexivity.
Qed.

(** ** Flight without atmosphere *)
Lemma zero_scale_nan : forall x, nan_to_zero (N := N) (xmul (Fin 0) x) = Fin 0.
Proof.
  intros [r| | |]; unfold nan_to_zero; xrs; unfold inf_sign; rewrite ?Ropp_0; 
    rewrite ?Rltb_false by lra; try reflexivity. now rewrite Rmult_0_l.
Qed.
Lemma vacuum_aero : forall (v : Vehicle N) s f S, aero_force v s = Ret f ->
  st_dynamic_pressure s = Fin 0 -> ve_reference_area v = Fin S -> f = finv zeroR.
Proof.
  intros v s f S H Hq HS. unfold aero_force in H.
  destruct (at_state (ve_drag_coeff v) s) as [cd|]; [|discriminate].
  destruct (at_state (ve_lift_coeff v) s) as [cl|]; [|discriminate].
  destruct (at_state (ve_side_force_coeff v) s) as [cy|]; [|discriminate].
  cbn [bind] in H. rewrite Hq, HS in H. injection H as <-.
  cbn [carrier XR n_mul xmul vscale vx vy vz]. rewrite Rmult_0_l, !zero_scale_nan. reflexivity.
Qed.

(** Real data: no atmosphere, finite wind, area and rotation rate. *)
Record vacuum (p : Phase N) : Prop := {
  vac_model : at_model (ph_atmosphere p) = NoAtmosphere;
  vac_wind : exists w, at_wind (ph_atmosphere p) = finv w;
  vac_area : exists S, ve_reference_area (ph_vehicle p) = Fin S;
  vac_rate : exists w, pl_rotation_rate (ph_planet p) = Fin w;
  vac_tables : tables_accepted (ph_vehicle p) }.

Lemma vacuum_forces : forall (p : Phase N) s0 s r v, vacuum p -> equations p s0 s ->
  st_position s0 = finv r -> st_velocity s0 = finv v ->
  st_pressure s = Fin 0 /\ st_density s = Fin 0 /\ st_aero_force_body s = finv zeroR.
Proof.
  intros p s0 s r v [Hm [w Hw] [S HS] [om Ho] _] Q Hr Hv.
  assert (P := q_pressure _ _ _ Q). unfold at_pressure in P. rewrite Hm in P. injection P as P.
  assert (D := q_density _ _ _ Q). unfold at_density in D. rewrite Hm in D. injection D as D.
  assert (V := q_velocity_atmosphere _ _ _ Q).
  rewrite (q_velocity_planet _ _ _ Q), (q_position _ _ _ Q), (q_velocity _ _ _ Q), Hr, Hv, Hw in V.
  unfold velocity_planet in V. rewrite Ho in V.
  change (V3 (@n_lit N 0 0) (n_lit 0 0) (Fin om)) with (finv (V3 0 0 om)) in V.
  rewrite vcross_fin, !vsub_fin in V.
  assert (F := q_dynamic_pressure _ _ _ Q). unfold at_dynamic_pressure in F. rewrite <- D, V, norm_fin in F.
  revert F. xrs. intros F.
  assert (F0 : st_dynamic_pressure s = Fin 0) by (rewrite F; f_equal; ring).
  split; [now rewrite <- P|]. split; [now rewrite <- D|].
  exact (vacuum_aero _ (before_aero s0 s) _ S (q_aero_force _ _ _ Q) F0 HS).
Qed.

(** Without atmosphere and without a limit the equations of motion return a state for
    all real positions, velocities and positive masses; the engines run at full throttle. *)
Theorem C49_vacuum : forall (p : Phase N) (s0 : State N) es r v m, vacuum p -> engines_are (ph_vehicle p) es ->
  ph_max_acceleration p = PInf -> st_position s0 = finv r -> st_velocity s0 = finv v ->
  st_mass s0 = Fin m -> 0 < m ->
  exists s, system p s0 = Ret s /\ st_throttle s = Fin 1 /\
    st_thrust_force_body s = finv (full_thrust es 0) /\
    st_vehicle_acceleration_body s = finv (scaleR (/ m) (full_thrust es 0)).
Proof.
  intros p s0 es r v m Hvac He HL Hr Hv Hm Pm.
  destruct (system_total p s0 (accepted_lookups p (vac_tables _ Hvac))) as [s [Q _]].
  destruct (vacuum_forces p s0 s r v Hvac Q Hr Hv) as (Hp & _ & Hf).
  assert (Hm' : st_mass s = Fin m) by (rewrite (q_mass _ _ _ Q); exact Hm).
  destruct (C23_unlimited p s0 s es m 0 zeroR Q He HL Hm' Pm Hp Hf) as (A & B & C).
  exists s. split; [exact A|]. split; [exact B|]. split.
  - rewrite (q_thrust _ _ _ Q), B, Hp, (C24_thrust _ es) by exact He.
    f_equal. unfold scaleR. destruct (full_thrust es 0). cbn. f_equal; ring.
  - rewrite C. now rewrite addR_0_l.
Qed.
(** The same with a positive limit [L]: the throttle is reduced instead of aborting. *)
Theorem C49_vacuum_limited : forall (p : Phase N) (s0 : State N) es r v m L, vacuum p -> engines_are (ph_vehicle p) es ->
  ph_max_acceleration p = Fin L -> 0 < L -> st_position s0 = finv r -> st_velocity s0 = finv v ->
  st_mass s0 = Fin m -> 0 < m ->
  exists s a, system p s0 = Ret s /\ st_vehicle_acceleration_body s = finv a /\ normR a <= L.
Proof.
  intros p s0 es r v m L Hvac He HL PL Hr Hv Hm Pm.
  destruct (system_total p s0 (accepted_lookups p (vac_tables _ Hvac))) as [s [Q _]].
  destruct (vacuum_forces p s0 s r v Hvac Q Hr Hv) as (Hp & _ & Hf).
  assert (Hm' : st_mass s = Fin m) by (rewrite (q_mass _ _ _ Q); exact Hm).
  destruct (C23_no_abort p s0 s es L m 0 zeroR Q (vac_tables _ Hvac) He HL PL Hm' Pm Hp Hf) as (A & a & B & C).
  - rewrite normR_zeroR. nra.
  - eauto.
Qed.
End Exact.
