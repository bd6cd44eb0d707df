(** * C25: the mass flow in exact arithmetic *)
From Coq Require Import ZArith List Reals Lra Lia Bool.
From Verif Require Import Num Constants State Tables Config Planet Atmosphere Transformations
  Steering Vehicle RungeKutta Phase Simulation XR XRFacts SpecReal SystemFacts SystemTotal RKFacts RunFacts
  PhaseNew Prop_Run Prop_Tables Prop_Panics Prop_Throttle Prop_Limit Prop_Time.
Import ListNotations.
Local Open Scope R_scope.

Section Exact.
Context {rot : mat3 xr -> mat3 xr}.
Notation N := (XR rot).

(** The throttle of every state the equations of motion return is a fraction. *)
Lemma throttle_fraction : forall (p : Phase N) (s0 s : State N), system p s0 = Ret s ->
  exists th, st_throttle s = Fin th /\ 0 <= th <= 1.
Proof.
  intros p s0 s H. apply system_eom in H.
  assert (E := e_throttle _ _ _ H). assert (Nn := e_throttle_not_nan _ _ _ H).
  rewrite E in *. clear E. unfold auto_throttle in *.
  destruct (veqb _ _); [exists 1; split; [reflexivity|lra]|].
  destruct (side_side_angle _ _ _) as [q|]; [|exists 1; split; [reflexivity|lra]].
  match goal with |- exists th, clamp ?x _ _ = _ /\ _ => generalize dependent x end.
  intros x. unfold clamp. xrs. destruct x as [r| | |]; cbn [xltb xisnan].
  - intros _. destruct (Rltb r 0) eqn:A.
    + cbn [xltb]. rewrite Rltb_false by lra. exists 0. split; [reflexivity|lra].
    + cbn [xltb]. apply Rltb_iff_false in A. destruct (Rltb 1 r) eqn:B.
      * exists 1. split; [reflexivity|lra].
      * apply Rltb_iff_false in B. exists r. split; [reflexivity|lra].
  - intros _. exists 1. split; [reflexivity|lra].
  - intros _. cbn [xltb]. rewrite Rltb_false by lra. exists 0. split; [reflexivity|lra].
  - discriminate.
Qed.

(** What one integration attempt does to the mass: the four evaluations [d0] .. [d3] of the
    equations of motion, at the beginning, twice in the middle and at the end of the step,
    with the masses reached so far, contribute with weights 1/6, 1/3, 1/3, 1/6. *)
Theorem C25_exact : forall (p : Phase N) (s' : State N) es h m,
  engines_are (ph_vehicle p) es -> Forall (fun e => isp e <> 0) es ->
  ph_stepsize p = Fin h -> st_mass (ph_state p) = Fin m -> candidate p = Ret s' ->
  exists (d0 d1 d2 d3 : State N) th0 th1 th2 th3 a0 a1 a2 a3,
    (system p a0 = Ret d0 /\ system p a1 = Ret d1 /\ system p a2 = Ret d2 /\ system p a3 = Ret d3) /\
    (st_throttle d0 = Fin th0 /\ st_throttle d1 = Fin th1 /\ st_throttle d2 = Fin th2 /\ st_throttle d3 = Fin th3) /\
    (0 <= th0 <= 1 /\ 0 <= th1 <= 1 /\ 0 <= th2 <= 1 /\ 0 <= th3 <= 1) /\
    (st_mass d0 = Fin m /\ st_mass d1 = Fin (m - h / 2 * th0 * full_flow es) /\
     st_mass d2 = Fin (m - h / 2 * th1 * full_flow es) /\ st_mass d3 = Fin (m - h * th2 * full_flow es)) /\
    st_mass s' = Fin (m - h * full_flow es * (th0 + 2 * th1 + 2 * th2 + th3) / 6).
Proof.
  intros p s' es h m He Hi Hh Hm H.
  destruct (integrator_step_inv _ _ _ _ H) as (d0 & d1 & d2 & d3 & F0 & F1 & F2 & F3 & F). clear H.
  destruct (throttle_fraction _ _ _ F0) as (th0 & T0 & B0). destruct (throttle_fraction _ _ _ F1) as (th1 & T1 & B1).
  destruct (throttle_fraction _ _ _ F2) as (th2 & T2 & B2). destruct (throttle_fraction _ _ _ F3) as (th3 & T3 & B3).
  exists d0, d1, d2, d3, th0, th1, th2, th3.
  do 4 eexists. split; [split; [exact F0|split; [exact F1|split; [exact F2|exact F3]]]|].
  split; [split; [exact T0|split; [exact T1|split; [exact T2|exact T3]]]|].
  split; [split; [exact B0|split; [exact B1|split; [exact B2|exact B3]]]|].
  apply system_eom in F0, F1, F2, F3, F.
  assert (M0 := e_massflow _ _ _ F0). assert (M1 := e_massflow _ _ _ F1).
  assert (M2 := e_massflow _ _ _ F2). assert (M3 := e_massflow _ _ _ F3).
  rewrite T0, (C24_massflow _ es) in M0 by assumption. rewrite T1, (C24_massflow _ es) in M1 by assumption.
  rewrite T2, (C24_massflow _ es) in M2 by assumption. rewrite T3, (C24_massflow _ es) in M3 by assumption.
  assert (E0 := e_mass _ _ _ F0). assert (E1 := e_mass _ _ _ F1). assert (E2 := e_mass _ _ _ F2).
  assert (E3 := e_mass _ _ _ F3). assert (E := e_mass _ _ _ F). clear F0 F1 F2 F3 F.
  unfold from_vec, rk_sum, to_primary_vec, to_differentials_vector in *.
  cbn [fold_left map combine fst snd v7_add v7_scale v7_mass v7_zero st_mass set_mass] in E0, E1, E2, E3, E.
  rewrite Hm in E0. rewrite Hm, Hh, M0 in E1. rewrite Hm, Hh, M0, M1 in E2. rewrite Hm, Hh, M0, M1, M2 in E3.
  rewrite Hm, Hh, M0, M1, M2, M3 in E.
  assert (D6 : n_div (n := N) (n_lit 1 0) (n_lit 6 0) = Fin (1 / 6)) by (apply xdiv_fin; lra).
  assert (D3 : n_div (n := N) (n_lit 1 0) (n_lit 3 0) = Fin (1 / 3)) by (apply xdiv_fin; lra).
  rewrite D6, D3 in E. revert E0 E1 E2 E3 E. xrs. intros E0 E1 E2 E3 E.
  rewrite E0, E1, E2, E3, E.
  split; [split; [|split; [|split]]|]; apply (f_equal Fin); field.
Qed.

Lemma full_flow_nonneg : forall es, Forall (fun e => 0 <= thrust_vac e /\ 0 < isp e) es -> 0 <= full_flow es.
Proof.
  intros es H. unfold full_flow. induction H as [|e es [A B] H IH]; cbn; [lra|].
  assert (0 <= thrust_vac e / (isp e * g0)).
  { apply Rmult_le_pos; [exact A|]. apply Rlt_le, Rinv_0_lt_compat. apply Rmult_lt_0_compat; [exact B|]. unfold g0. lra. }
  unfold sumR in IH. lra.
Qed.
(** With non-negative thrust and positive specific impulse a step of size [h >= 0] consumes
    between nothing and the full-throttle flow. *)
Theorem C25_bounds : forall (p : Phase N) (s' : State N) es h m,
  engines_are (ph_vehicle p) es -> Forall (fun e => 0 <= thrust_vac e /\ 0 < isp e) es ->
  ph_stepsize p = Fin h -> 0 <= h -> st_mass (ph_state p) = Fin m -> candidate p = Ret s' ->
  exists m', st_mass s' = Fin m' /\ m - h * full_flow es <= m' <= m.
Proof.
  intros p s' es h m He HF Hh H0 Hm H. assert (K := full_flow_nonneg es HF).
  assert (Hi : Forall (fun e => isp e <> 0) es).
  { rewrite Forall_forall in *. intros e He'. destruct (HF e He'). lra. }
  destruct (C25_exact p s' es h m He Hi Hh Hm H) as (d0 & d1 & d2 & d3 & t0 & t1 & t2 & t3 & a0 & a1 & a2 & a3
    & _ & _ & (B0 & B1 & B2 & B3) & _ & E).
  exists (m - h * full_flow es * (t0 + 2 * t1 + 2 * t2 + t3) / 6). split; [exact E|].
  assert (0 <= h * full_flow es) by now apply Rmult_le_pos.
  set (w := (t0 + 2 * t1 + 2 * t2 + t3) / 6). assert (W : 0 <= w <= 1) by (unfold w; lra).
  replace (h * full_flow es * (t0 + 2 * t1 + 2 * t2 + t3) / 6) with (h * full_flow es * w) by (unfold w; field).
  nra.
Qed.
(** If all evaluations run at full throttle, the step consumes exactly the full flow. *)
Theorem C25_full_throttle : forall (p : Phase N) (s' : State N) es h m,
  engines_are (ph_vehicle p) es -> Forall (fun e => isp e <> 0) es ->
  ph_stepsize p = Fin h -> st_mass (ph_state p) = Fin m -> candidate p = Ret s' ->
  (forall a d, system p a = Ret d -> st_throttle d = Fin 1) ->
  st_mass s' = Fin (m - h * full_flow es).
Proof.
  intros p s' es h m He Hi Hh Hm H HT.
  destruct (C25_exact p s' es h m He Hi Hh Hm H) as (d0 & d1 & d2 & d3 & t0 & t1 & t2 & t3 & a0 & a1 & a2 & a3
    & (S0 & S1 & S2 & S3) & (T0 & T1 & T2 & T3) & _ & _ & E).
  rewrite (HT _ _ S0) in T0. rewrite (HT _ _ S1) in T1. rewrite (HT _ _ S2) in T2. rewrite (HT _ _ S3) in T3.
  injection T0 as <-. injection T1 as <-. injection T2 as <-. injection T3 as <-. rewrite E. apply (f_equal Fin). field.
Qed.
(** Without engines the mass does not change. *)
Theorem C25_no_engines : forall (p : Phase N) (s' : State N) h m, ve_engines (ph_vehicle p) = [] ->
  ph_stepsize p = Fin h -> st_mass (ph_state p) = Fin m -> candidate p = Ret s' -> st_mass s' = Fin m.
Proof.
  intros p s' h m He Hh Hm H.
  destruct (C25_exact p s' [] h m He (Forall_nil _) Hh Hm H) as (d0 & d1 & d2 & d3 & t0 & t1 & t2 & t3 & a0 & a1 & a2 & a3
    & _ & _ & _ & _ & E).
  rewrite E. apply (f_equal Fin). unfold full_flow. cbn. field.
Qed.

(** ** Burning at full throttle in vacuum *)
Lemma no_atmosphere_forces : forall (p : Phase N) s0 s, at_model (ph_atmosphere p) = NoAtmosphere -> equations p s0 s ->
  st_pressure s = Fin 0 /\ st_aero_force_body s = finv zeroR.
Proof.
  intros p s0 s Hm Q.
  assert (P := q_pressure _ _ _ Q). unfold at_pressure in P. rewrite Hm in P. injection P as P.
  assert (D := q_density _ _ _ Q). unfold at_density in D. rewrite Hm in D. injection D as D.
  split; [now rewrite <- P|].
  assert (F := q_dynamic_pressure _ _ _ Q). unfold at_dynamic_pressure in F. rewrite <- D in F.
  assert (Z : st_dynamic_pressure s = Fin 0 \/ st_dynamic_pressure s = NaN).
  { rewrite F. xrs. rewrite ?Rmult_0_r. generalize (norm (N := N) (st_velocity_atmosphere s)).
    assert (ZX : forall x : xr, xmul (Fin 0) x = Fin 0 \/ xmul (Fin 0) x = NaN).
    { intros [r| | |]; cbn [xmul]; [left; apply (f_equal Fin); ring| | |right; reflexivity];
        right; unfold inf_sign; rewrite ?Ropp_0, ?Rltb_false by lra; reflexivity. }
    intros v. apply ZX. }
  assert (A := q_aero_force _ _ _ Q). unfold aero_force in A.
  destruct (at_state (ve_drag_coeff (ph_vehicle p)) _) as [cd|]; [|discriminate].
  destruct (at_state (ve_lift_coeff (ph_vehicle p)) _) as [cl|]; [|discriminate].
  destruct (at_state (ve_side_force_coeff (ph_vehicle p)) _) as [cy|]; [|discriminate].
  cbn [bind] in A. injection A as <-.
  change (st_dynamic_pressure (before_aero s0 s)) with (st_dynamic_pressure s).
  assert (NZ : forall x : xr, nan_to_zero (N := N) (xmul NaN x) = Fin 0) by (intros [r| | |]; reflexivity).
  assert (G : forall x y : xr, nan_to_zero (N := N) (xmul (xmul (st_dynamic_pressure s : xr) x) y) = Fin 0).
  { intros x y. destruct Z as [-> | ->].
    - destruct x as [r| | |]; cbn [xmul].
      + rewrite Rmult_0_l. apply zero_scale_nan.
      + unfold inf_sign. rewrite ?Rltb_false by lra. apply NZ.
      + unfold inf_sign. rewrite Ropp_0, ?Rltb_false by lra. apply NZ.
      + apply NZ.
    - destruct x as [r| | |]; apply NZ. }
  unfold finv, zeroR. cbn [vx vy vz vscale]. cbn [carrier XR n_mul]. rewrite !G. reflexivity.
Qed.
Lemma vacuum_throttle : forall (p : Phase N) (s0 s : State N) es m, at_model (ph_atmosphere p) = NoAtmosphere ->
  engines_are (ph_vehicle p) es -> ph_max_acceleration p = PInf -> system p s0 = Ret s ->
  st_mass s = Fin m -> 0 < m -> st_throttle s = Fin 1.
Proof.
  intros p s0 s es m Hm He HL H Em Pm. apply system_eom in H.
  destruct (no_atmosphere_forces _ _ _ Hm (eom_equations _ _ _ H)) as [P A].
  rewrite (e_throttle _ _ _ H), HL, Em, P, A. exact (C22_unlimited _ es 0 zeroR m He Pm).
Qed.
(** Without atmosphere and acceleration limit a step of [h] seconds consumes exactly [h] times
    the full flow, as long as the mass lasts. *)
Theorem C25_vacuum : forall (p : Phase N) (s' : State N) es h m,
  at_model (ph_atmosphere p) = NoAtmosphere -> ph_max_acceleration p = PInf ->
  engines_are (ph_vehicle p) es -> Forall (fun e => 0 <= thrust_vac e /\ 0 < isp e) es ->
  ph_stepsize p = Fin h -> st_mass (ph_state p) = Fin m -> 0 < m -> h * full_flow es < m -> candidate p = Ret s' ->
  st_mass s' = Fin (m - h * full_flow es).
Proof.
  intros p s' es h m Ha HL He HF Hh Hm Pm Hb H. assert (K := full_flow_nonneg es HF).
  assert (Hi : Forall (fun e => isp e <> 0) es).
  { rewrite Forall_forall in *. intros e He'. destruct (HF e He'). lra. }
  destruct (C25_exact p s' es h m He Hi Hh Hm H) as (d0 & d1 & d2 & d3 & t0 & t1 & t2 & t3 & a0 & a1 & a2 & a3
    & (S0 & S1 & S2 & S3) & (T0 & T1 & T2 & T3) & _ & (M0 & M1 & M2 & M3) & E).
  rewrite (vacuum_throttle p _ _ es m Ha He HL S0 M0 Pm) in T0. injection T0 as <-.
  rewrite (vacuum_throttle p _ _ es _ Ha He HL S1 M1) in T1 by lra. injection T1 as <-.
  rewrite (vacuum_throttle p _ _ es _ Ha He HL S2 M2) in T2 by lra. injection T2 as <-.
  rewrite (vacuum_throttle p _ _ es _ Ha He HL S3 M3) in T3 by lra. injection T3 as <-.
  rewrite E. apply (f_equal Fin). field.
Qed.

(** Without atmosphere and acceleration limit nothing aborts while there is mass. *)
Lemma vacuum_system : forall (p : Phase N) (s0 : State N) es m, at_model (ph_atmosphere p) = NoAtmosphere ->
  tables_accepted (ph_vehicle p) -> engines_are (ph_vehicle p) es -> ph_max_acceleration p = PInf ->
  st_mass s0 = Fin m -> 0 < m -> exists s, system p s0 = Ret s /\ st_throttle s = Fin 1.
Proof.
  intros p s0 es m Hm HT He HL Em Pm.
  destruct (system_total p s0 (accepted_lookups p HT)) as [s [Q _]].
  destruct (no_atmosphere_forces _ _ _ Hm Q) as [P A].
  assert (Em' : st_mass s = Fin m) by (rewrite (q_mass _ _ _ Q); exact Em).
  destruct (C23_unlimited p s0 s es m 0 zeroR Q He HL Em' Pm P A) as (R & B & _). eauto.
Qed.
Lemma vacuum_candidate : forall (p : Phase N) es h m,
  at_model (ph_atmosphere p) = NoAtmosphere -> ph_max_acceleration p = PInf -> tables_accepted (ph_vehicle p) ->
  engines_are (ph_vehicle p) es -> Forall (fun e => isp e <> 0) es ->
  ph_stepsize p = Fin h -> st_mass (ph_state p) = Fin m -> 0 < m -> h * full_flow es < m ->
  exists s, candidate p = Ret s.
Proof.
  intros p es h m Ha HL HT He Hi Hh Hm Pm Hb. unfold candidate.
  assert (V := fun s0 m => vacuum_system p s0 es m Ha HT He HL).
  assert (MF : forall s0 s, system p s0 = Ret s -> st_throttle s = Fin 1 -> st_massflow s = Fin (- full_flow es)).
  { intros s0 s H E. apply system_eom in H. rewrite (e_massflow _ _ _ H), E, (C24_massflow _ es) by assumption.
    apply (f_equal Fin). ring. }
  pose (y := to_primary_vec (ph_state p)).
  pose (t := fun c : N => (n_add (st_time (ph_state p)) (n_mul c (ph_stepsize p)),
                           n_add (st_time_since_event (ph_state p)) (n_mul c (ph_stepsize p)))).
  pose (z := v7_zero (N := N)). pose (half := n_lit (n := N) 5 (-1)). pose (o := n_lit (n := N) 0 0).
  pose (k := fun d : State N => v7_scale (ph_stepsize p) (to_differentials_vector d)).
  pose (sm := rk_sum (N := N) v7_zero v7_add v7_scale).
  assert (MK : forall (x : N * N) (l : list (N * vec7 N)) r, fold_left (@v7_add N)
       (map (fun q => v7_scale (fst q) (snd q)) l) v7_zero = r -> forall m', n_add (Fin m : N) (v7_mass r) = Fin m' ->
       st_mass (from_vec x (v7_add y r)) = Fin m').
  { intros x l r _ m' E. unfold from_vec, y, to_primary_vec. cbn [v7_add v7_mass st_mass set_mass]. rewrite Hm. exact E. }
  destruct (V (from_vec (t (n_lit 0 0)) (v7_add y (sm [o; o; o; o] [z; z; z; z]))) m) as (d0 & D0 & T0).
  { eapply MK; [reflexivity|]. unfold o, z. cbn [combine map fold_left fst snd v7_add v7_scale v7_mass v7_zero]. xrs.
    apply (f_equal Fin). ring. }
  { exact Pm. }
  assert (F0 := MF _ _ D0 T0).
  destruct (V (from_vec (t half) (v7_add y (sm [half; o; o; o] [k d0; z; z; z]))) (m - h / 2 * full_flow es)) as (d1 & D1 & T1).
  { eapply MK; [reflexivity|]. unfold o, z, half, k, to_differentials_vector.
    cbn [combine map fold_left fst snd v7_add v7_scale v7_mass v7_zero]. rewrite F0, Hh. xrs. apply (f_equal Fin). field. }
  { lra. }
  assert (F1 := MF _ _ D1 T1).
  destruct (V (from_vec (t half) (v7_add y (sm [o; half; o; o] [k d0; k d1; z; z]))) (m - h / 2 * full_flow es)) as (d2 & D2 & T2).
  { eapply MK; [reflexivity|]. unfold o, z, half, k, to_differentials_vector.
    cbn [combine map fold_left fst snd v7_add v7_scale v7_mass v7_zero]. rewrite F0, F1, Hh. xrs. apply (f_equal Fin). field. }
  { lra. }
  assert (F2 := MF _ _ D2 T2).
  destruct (V (from_vec (t (n_lit 1 0)) (v7_add y (sm [o; o; n_lit 1 0; o] [k d0; k d1; k d2; z]))) (m - h * full_flow es))
    as (d3 & D3 & T3).
  { eapply MK; [reflexivity|]. unfold o, z, k, to_differentials_vector.
    cbn [combine map fold_left fst snd v7_add v7_scale v7_mass v7_zero]. rewrite F0, F1, F2, Hh. xrs. apply (f_equal Fin). field. }
  { lra. }
  assert (F3 := MF _ _ D3 T3).
  rewrite (integrator_step_intro (system p) (ph_state p) (ph_stepsize p) d0 d1 d2 d3 D0 D1 D2 D3).
  match goal with |- exists s, system p (from_vec ?x (v7_add _ ?r)) = _ =>
    destruct (V (from_vec x (v7_add y r)) (m - h * full_flow es)) as (d & D & _); [| |exists d; exact D] end; [|lra].
  eapply MK; [reflexivity|]. unfold to_differentials_vector.
  cbn [combine map fold_left fst snd v7_add v7_scale v7_mass v7_zero]. rewrite F0, F1, F2, F3, Hh.
  assert (D6 : n_div (n := N) (n_lit 1 0) (n_lit 6 0) = Fin (1 / 6)) by (apply xdiv_fin; lra).
  assert (D4 : n_div (n := N) (n_lit 1 0) (n_lit 3 0) = Fin (1 / 3)) by (apply xdiv_fin; lra).
  rewrite D6, D4. xrs. apply (f_equal Fin). field.
Qed.

(** What holds of the phase during a vacuum flight of duration [T]. *)
Definition burning (p : Phase N) (es : list engine) (m0 T : R) (q : Phase N) : Prop :=
  same_parameters p q /\ exists t k, st_time_since_event (ph_state q) = Fin t /\
    st_mass (ph_state q) = Fin (m0 - t * full_flow es) /\ 0 <= t < T + 1 / 1000 /\ ph_stepsize q = Fin k /\ 0 <= k /\
    (ph_ended q = false -> k = 1 /\ t <= T \/ t + k = T).
Lemma burning_mass : forall (p q : Phase N) es m0 T t k, Forall (fun e => 0 <= thrust_vac e /\ 0 < isp e) es ->
  (T + 1) * full_flow es < m0 -> 0 <= k -> k = 1 /\ t <= T \/ t + k = T ->
  k * full_flow es < m0 - t * full_flow es /\ 0 < m0 - t * full_flow es.
Proof.
  intros p q es m0 T t k HF Hfu Bk D. assert (K := full_flow_nonneg es HF).
  assert ((t + k) * full_flow es <= (T + 1) * full_flow es) by (apply Rmult_le_compat_r; [exact K|]; lra).
  assert (0 <= k * full_flow es) by now apply Rmult_le_pos. split; lra.
Qed.
Lemma burning_step : forall (p : Phase N) es m0 T,
  at_model (ph_atmosphere p) = NoAtmosphere -> ph_max_acceleration p = PInf ->
  engines_are (ph_vehicle p) es -> Forall (fun e => 0 <= thrust_vac e /\ 0 < isp e) es ->
  ph_end_criterion p = (TimeSinceEvent, Fin T) -> (T + 1) * full_flow es < m0 ->
  forall q q', burning p es m0 T q -> ph_ended q = false -> step q = Ret q' -> burning p es m0 T q'.
Proof.
  intros p es m0 T Ha HL He HF Ec Hfu q q' (P & t & k & Et & Em & Bt & Ek & Bk & D) En St. specialize (D En).
  assert (K := full_flow_nonneg es HF).
      destruct (C32_iteration _ _ St) as [s1 [C [P' A]]].
      assert (P2 := P). destruct P2 as (Pv & _ & Pa & _ & _ & Pl & _ & Pc).
      destruct (burning_mass p q es m0 T t k HF Hfu Bk D) as [Fk Pm].
      assert (M1 : st_mass s1 = Fin (m0 - t * full_flow es - k * full_flow es)).
      { apply (C25_vacuum q s1 es); auto; [now rewrite Pa|now rewrite Pl|unfold engines_are; now rewrite Pv]. }
      assert (T1 := candidate_clock q s1 TimeSinceEvent t k (or_intror eq_refl) C Et Ek).
      cbn [get_value] in T1.
      split; [eapply same_parameters_trans; eassumption|].
      rewrite Ec in Pc. unfold attempt_overshoots in A. rewrite C in A.
      unfold meets, overshoots, crit, target in A. rewrite Pc in A. cbn [fst snd get_value] in A.
      rewrite T1, Et in A. revert A. xrs.
      rewrite (Rltb_false (t + k) t) by lra.
      destruct (Rltb (Rabs (t + k - T)) (1 / 1000)) eqn:M; cbn [negb andb].
      + intros (Es & En' & Ek' & _). apply Rltb_iff, Rabs_def2 in M.
        exists (t + k), k. rewrite Es, Ek', En'. split; [exact T1|]. split; [rewrite M1; apply (f_equal Fin); ring|].
        split; [lra|]. split; [exact Ek|]. split; [exact Bk|]. discriminate.
      + apply Rltb_iff_false in M.
        assert (G : k = 1 /\ t <= T).
        { destruct D as [D|D]; [exact D|]. exfalso. rewrite D in M. replace (T - T) with 0 in M by ring.
          rewrite Rabs_R0 in M. lra. }
        destruct (Rltb T (t + k)) eqn:O.
        * apply Rltb_iff in O. intros (Es & En' & Ek' & _). exists t, (T - t). rewrite Es, Ek'.
          split; [exact Et|]. split; [exact Em|]. split; [lra|]. split.
          -- unfold time_to_go. rewrite Pc, Ek. cbn [fst snd get_value]. rewrite T1, Et. xrs. rewrite xdiv_fin by lra.
             apply (f_equal Fin). field. lra.
          -- split; [lra|]. intros _. right. ring.
        * apply Rltb_iff_false in O. intros (Es & En' & Ek' & _). exists (t + k), k. rewrite Es, Ek'.
          split; [exact T1|]. split; [rewrite M1; apply (f_equal Fin); ring|]. split; [lra|].
          split; [exact Ek|]. split; [exact Bk|]. intros _. left. lra.
Qed.
Lemma burning_start : forall (cs : list (PhaseConfig N)) (p : Phase N) s0 es m0 T, begins cs p -> initial p s0 ->
  st_mass (ph_state p) = Fin m0 -> 0 <= T -> burning p es m0 T (set_ph_state p s0).
Proof.
  intros cs p s0 es m0 T Hb Hi Hm HT.
  split; [repeat split|]. destruct (C36_start cs p Hb) as [_ G]. destruct (G s0 Hi) as [G1 _].
  destruct (C37_initial _ _ Hi) as (_ & _ & _ & _ & G2). destruct (C29_stepsize_is_one cs p Hb) as [H1 _].
  exists 0, 1. cbn [set_ph_state ph_state ph_stepsize ph_ended]. split; [exact G1|].
  split; [rewrite G2, Hm; apply (f_equal Fin); ring|]. split; [lra|]. split; [exact H1|]. split; [lra|].
  intros _. left. lra.
Qed.

(** A whole phase of given duration [T], in vacuum and without acceleration limit: every
    reported mass is the initial mass minus the flow times the time since the start of the phase. *)
Theorem C25_run_vacuum : forall fuel (cs : list (PhaseConfig N)) (p : Phase N) h st s es m0 T,
  begins cs p -> at_model (ph_atmosphere p) = NoAtmosphere -> ph_max_acceleration p = PInf ->
  engines_are (ph_vehicle p) es -> Forall (fun e => 0 <= thrust_vac e /\ 0 < isp e) es ->
  ph_end_criterion p = (TimeSinceEvent, Fin T) -> 0 <= T -> st_mass (ph_state p) = Fin m0 ->
  (T + 1) * full_flow es < m0 -> run fuel p = (h, st) -> In s h ->
  exists t, st_time_since_event s = Fin t /\ st_mass s = Fin (m0 - t * full_flow es) /\
    0 <= t < T + 1 / 1000.
Proof.
  intros fuel cs p h st s es m0 T Hb Ha HL He HF Ec HT Hm Hfu R Hs.
  destruct (run_chain _ _ _ _ R) as [[e [E [-> _]]]|[s0 [ps [Hi [Hc [-> _]]]]]]; [destruct Hs|].
  assert (F := chain_ind_inv _ (burning_step p es m0 T Ha HL He HF Ec Hfu) _ _ Hc
    (burning_start cs p s0 es m0 T Hb Hi Hm HT)).
  apply in_map_iff in Hs. destruct Hs as [q [<- Hq]]. rewrite Forall_forall in F.
  destruct (F q Hq) as (_ & t & k & A & B & D & _). exists t. auto.
Qed.
(** If the configured propellant [k] suffices, the mass stays above the structure mass. *)
Theorem C27_sufficient_partial : forall fuel (cs : list (PhaseConfig N)) (p : Phase N) h st s es ms k T,
  begins cs p -> at_model (ph_atmosphere p) = NoAtmosphere -> ph_max_acceleration p = PInf ->
  engines_are (ph_vehicle p) es -> Forall (fun e => 0 <= thrust_vac e /\ 0 < isp e) es ->
  ph_end_criterion p = (TimeSinceEvent, Fin T) -> 0 <= T -> st_mass (ph_state p) = Fin (ms + k) ->
  ve_structure_mass (ph_vehicle p) = Fin ms -> full_flow es < ms -> (T + 1 / 1000) * full_flow es <= k ->
  run fuel p = (h, st) -> In s h ->
  exists x, st_propellant_mass s = Fin x /\ 0 <= x <= k.
Proof.
  intros fuel cs p h st s es ms k T Hb Ha HL He HF Ec HT Hm Hs0 Hms Hk R Hs.
  assert (K := full_flow_nonneg es HF).
  destruct (C25_run_vacuum fuel cs p h st s es (ms + k) T Hb Ha HL He HF Ec HT Hm) with (2 := R) (3 := Hs)
    as (t & _ & Em & Bt); [lra|].
  rewrite (C26_reported fuel p h st s R Hs), Em, Hs0.
  exists (k - t * full_flow es). split; [xrs; apply (f_equal Fin); ring|].
  assert (0 <= t * full_flow es) by (apply Rmult_le_pos; lra).
  assert (t * full_flow es <= (T + 1 / 1000) * full_flow es) by (apply Rmult_le_compat_r; lra). lra.
Qed.
(** Such a flight is never aborted: it ends at its time, wherever it leads. *)
Theorem C49_vacuum_flight : forall fuel (cs : list (PhaseConfig N)) (p : Phase N) es m0 T K,
  begins cs p -> tables_accepted (ph_vehicle p) ->
  at_model (ph_atmosphere p) = NoAtmosphere -> ph_max_acceleration p = PInf ->
  engines_are (ph_vehicle p) es -> Forall (fun e => 0 <= thrust_vac e /\ 0 < isp e) es ->
  ph_end_criterion p = (TimeSinceEvent, Fin T) -> st_mass (ph_state p) = Fin m0 ->
  (T + 1) * full_flow es < m0 -> 0 <= T <= INR K -> (K + 2 <= fuel)%nat ->
  exists h q t, run fuel p = (h, Finished q) /\ (length h <= K + 2)%nat /\ h <> [] /\
    st_time_since_event (ph_state q) = Fin t /\ Rabs (t - T) < 1 / 1000 /\
    st_mass (ph_state q) = Fin (m0 - t * full_flow es).
Proof.
  intros fuel cs p es m0 T K Hb HT Ha HL He HF Ec Hm Hfu HK Hf.
  assert (FF := full_flow_nonneg es HF).
  assert (Hi : Forall (fun e => isp e <> 0) es).
  { rewrite Forall_forall in *. intros e He'. destruct (HF e He'). lra. }
  assert (P0 : 0 < m0).
  { assert (0 <= (T + 1) * full_flow es) by (apply Rmult_le_pos; lra). lra. }
  destruct (vacuum_system p (ph_state p) es m0 Ha HT He HL Hm P0) as (s0 & S0 & _).
  destruct (C34_duration cs p s0 T K fuel Hb HT Ec S0 HK Hf) as (h & st & R & L & D).
  destruct (run_chain _ _ _ _ R) as [[e [E _]]|[s1 [ps [Hi1 [Hc [Eh Hst]]]]]]; [congruence|].
  assert (I := burning_start cs p s1 es m0 T Hb Hi1 Hm (proj1 HK)).
  assert (F := chain_final_inv _ (burning_step p es m0 T Ha HL He HF Ec Hfu) _ _ Hc I).
  destruct D as [(q & t & -> & Et & Bt)| ->].
  - exists h, q, t. split; [exact R|]. split; [exact L|]. destruct Hst as [-> En]. split.
    { intros ->. destruct ps as [|p1 ps]; [|discriminate]. cbn [final last] in En.
      destruct (C32_counter_starts_at_zero cs p s1 Hb) as [_ G]. unfold final in En. cbn [last] in En. congruence. }
    split; [exact Et|]. split; [exact Bt|].
    destruct F as (_ & t' & k & Et' & Em & _). rewrite Et in Et'. injection Et' as <-. exact Em.
  - exfalso. set (q := final (set_ph_state p s1) ps) in *. clearbody q.
    destruct F as (P & t & k & Et & Em & Bt & Ek & Bk & G).
    assert (En : ph_ended q = false).
    { destruct (ph_ended q) eqn:En; [|reflexivity]. unfold step in Hst. rewrite En in Hst. discriminate. }
    destruct (burning_mass p q es m0 T t k HF Hfu Bk (G En)) as [B1 B2].
    destruct P as (Pv & _ & Pa & _ & _ & Pl & _ & _).
    destruct (vacuum_candidate q es k (m0 - t * full_flow es)) as [s C]; auto.
    { now rewrite Pa. } { now rewrite Pl. } { now rewrite Pv. } { unfold engines_are. now rewrite Pv. }
    destruct (C32_abort _ _ En Hst) as [X|(_ & _ & X)]; congruence.
Qed.
End Exact.

(** ** Non-vacuity: a launch with one engine that burns for 5/2 s in vacuum *)
Section Example.
Context {rot : mat3 xr -> mat3 xr}.
Notation N := (XR rot).
Definition burn_engine : engine := {| pitch := 0; yaw := 0; thrust_vac := 1000000; isp := 300; exit_area := 1 |}.
Definition burn_config : PhaseConfig N :=
  mkPhaseConfig (N := N) (Some (mkInitConfig (N := N) (Fin 28) (Fin 10) (Fin 90) (Fin 0)))
    (Some (mkVehicleConfig (N := N) (Some (Fin 1000)) (Some (Fin 9000)) None None None None (Some [finE burn_engine])))
    None None None None None (Some (TimeSinceEvent, Fin (5 / 2))).
Example ex_burn : exists (p : Phase N) h q s, begins [burn_config] p /\ run 5 p = (h, Finished q) /\ In s h /\
  engines_are (ph_vehicle p) [burn_engine] /\
  exists t, st_time_since_event s = Fin t /\ 2 < t /\ st_mass s = Fin (10000 - t * full_flow [burn_engine]) /\
    339 < full_flow [burn_engine].
Proof.
  set (c := burn_config). set (i := mkInitConfig (N := N) (Fin 28) (Fin 10) (Fin 90) (Fin 0)).
  set (q := configured default_phase c).
  assert (Hn : phase_new None c = Ret (phase_init q i)) by (rewrite phase_new_configured; reflexivity).
  set (p := reset (phase_init q i)) in *.
  assert (Hb : begins [c] p) by exact (begins_first c _ Hn).
  assert (FF : full_flow [burn_engine] = 1000000 / (300 * g0)) by (unfold full_flow, burn_engine; cbn; ring).
  assert (FB : 339 < full_flow [burn_engine] < 340).
  { rewrite FF. unfold g0. lra. }
  assert (Hm : st_mass (ph_state p) = Fin 10000).
  { change (Fin (1000 + 9000) = Fin 10000). apply (f_equal Fin). ring. }
  destruct (C49_vacuum_flight 5 [c] p [burn_engine] 10000 (5 / 2) 3 Hb) as (h & r & t & R & _ & Nh & Et & Bt & Em);
    try reflexivity; auto.
  - repeat split; apply C18_default_table_accepted.
  - repeat constructor; cbn; lra.
  - lra.
  - cbn. lra.
  - exists p, h, r, (ph_state r). split; [exact Hb|]. split; [exact R|]. split.
    + assert (En : ph_ended p = false) by reflexivity.
      destruct (finished_last _ _ _ _ R En) as [h' ->]. apply in_or_app. right. left. reflexivity.
    + split; [reflexivity|]. exists t. split; [exact Et|]. apply Rabs_def2 in Bt. split; [lra|]. split; [exact Em|]. lra.
Qed.
End Example.
