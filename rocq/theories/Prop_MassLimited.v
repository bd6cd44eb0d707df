(** * C25, C27, C49: the propellant used during a whole phase, in any atmosphere and with any
      acceleration limit *)
From Coq Require Import ZArith List Reals Lra Lia Bool.
From Verif Require Import Num Constants State Tables Config Planet Atmosphere Transformations
  Steering Vehicle RungeKutta Phase Simulation XR XRFacts SpecReal SystemFacts SystemTotal RKFacts RunFacts
  PhaseNew Prop_Run Prop_Tables Prop_Panics Prop_Throttle Prop_Limit Prop_Time Prop_Mass.
Import ListNotations.
Local Open Scope R_scope.

Section Exact.
Context {rot : mat3 xr -> mat3 xr}.
Notation N := (XR rot).

(** What holds of the phase [q] during a run that ends when the clock [v] (which shows [d] at the
    beginning) reaches [T]. *)
Definition consuming (p : Phase N) (es : list engine) (v : StateVariable) (m0 d T : R) (q : Phase N) : Prop :=
  same_parameters p q /\ exists t k m, st_time_since_event (ph_state q) = Fin t /\
    get_value v (ph_state q) = Fin (t + d) /\
    st_mass (ph_state q) = Fin m /\ m0 - t * full_flow es <= m <= m0 /\
    0 <= t /\ t + d < T + 1 / 1000 /\ ph_stepsize q = Fin k /\ 0 <= k /\
    (ph_ended q = false -> k = 1 /\ t + d <= T \/ t + d + k = T).
Lemma consuming_step : forall (p : Phase N) es v m0 d T, v = Time \/ v = TimeSinceEvent ->
  engines_are (ph_vehicle p) es -> Forall (fun e => 0 <= thrust_vac e /\ 0 < isp e) es ->
  ph_end_criterion p = (v, Fin T) ->
  forall q q', consuming p es v m0 d T q -> ph_ended q = false -> step q = Ret q' -> consuming p es v m0 d T q'.
Proof.
  intros p es v m0 d T Hv He HF Ec q q' (P & t & k & m & Et & Ev & Em & Bm & B0 & Bt & Ek & Bk & D) En St.
  specialize (D En). assert (K := full_flow_nonneg es HF).
  destruct (C32_iteration _ _ St) as [s1 [C [P' A]]].
  assert (P2 := P). destruct P2 as (Pv & _ & Pa & _ & _ & Pl & _ & Pc).
  destruct (C25_bounds q s1 es k m) as (m1 & M1 & Bm1); auto; [unfold engines_are; now rewrite Pv|].
  assert (T1 := candidate_clock q s1 v (t + d) k Hv C Ev Ek).
  assert (T2 := candidate_clock q s1 TimeSinceEvent t k (or_intror eq_refl) C Et Ek). cbn [get_value] in T2.
  assert (Bm2 : m0 - (t + k) * full_flow es <= m1 <= m0) by lra.
  split; [eapply same_parameters_trans; eassumption|].
  rewrite Ec in Pc. unfold attempt_overshoots in A. rewrite C in A.
  unfold meets, overshoots, crit, target in A. rewrite Pc in A. cbn [fst snd] in A.
  rewrite T1, Ev in A. revert A. xrs.
  rewrite (Rltb_false (t + d + k) (t + d)) by lra.
  destruct (Rltb (Rabs (t + d + k - T)) (1 / 1000)) eqn:M; cbn [negb andb].
  - intros (Es & En' & Ek' & _). apply Rltb_iff, Rabs_def2 in M.
    exists (t + k), k, m1. rewrite Es, Ek', En'. split; [exact T2|].
    split; [rewrite T1; apply (f_equal Fin); ring|]. split; [exact M1|]. split; [exact Bm2|].
    split; [lra|]. split; [lra|]. split; [exact Ek|]. split; [exact Bk|]. discriminate.
  - apply Rltb_iff_false in M.
    assert (G : k = 1 /\ t + d <= T).
    { destruct D as [D|D]; [exact D|]. exfalso. rewrite D in M. replace (T - T) with 0 in M by ring.
      rewrite Rabs_R0 in M. lra. }
    destruct (Rltb T (t + d + k)) eqn:O.
    + apply Rltb_iff in O. intros (Es & En' & Ek' & _). exists t, (T - (t + d)), m. rewrite Es, Ek'.
      split; [exact Et|]. split; [exact Ev|]. split; [exact Em|]. split; [exact Bm|]. split; [lra|]. split; [lra|]. split.
      * unfold time_to_go. rewrite Pc, Ek. cbn [fst snd]. rewrite T1, Ev. xrs. rewrite xdiv_fin by lra.
        apply (f_equal Fin). field. lra.
      * split; [lra|]. intros _. right. ring.
    + apply Rltb_iff_false in O. intros (Es & En' & Ek' & _). exists (t + k), k, m1. rewrite Es, Ek'.
      split; [exact T2|]. split; [rewrite T1; apply (f_equal Fin); ring|]. split; [exact M1|]. split; [exact Bm2|].
      split; [lra|]. split; [lra|]. split; [exact Ek|]. split; [exact Bk|]. intros _. left. lra.
Qed.
Lemma consuming_start : forall (cs : list (PhaseConfig N)) (p : Phase N) s0 es v m0 d T, v = Time \/ v = TimeSinceEvent ->
  begins cs p -> initial p s0 -> get_value v (ph_state p) = Fin d ->
  st_mass (ph_state p) = Fin m0 -> d <= T -> consuming p es v m0 d T (set_ph_state p s0).
Proof.
  intros cs p s0 es v m0 d T Hv Hb Hi Hd Hm HT.
  split; [repeat split|]. destruct (C36_start cs p Hb) as [G0 G]. destruct (G s0 Hi) as [G1 G3].
  destruct (C37_initial _ _ Hi) as (_ & _ & _ & _ & G2). destruct (C29_stepsize_is_one cs p Hb) as [H1 _].
  assert (Ev : get_value v s0 = Fin d).
  { destruct Hv as [-> | ->]; cbn [get_value] in *; [now rewrite G3|now rewrite G1, <- G0]. }
  exists 0, 1, m0. cbn [set_ph_state ph_state ph_stepsize ph_ended]. split; [exact G1|].
  split; [rewrite Ev; apply (f_equal Fin); ring|].
  split; [now rewrite G2|]. split; [lra|]. split; [lra|]. split; [lra|]. split; [exact H1|]. split; [lra|].
  intros _. left. lra.
Qed.

(** A whole phase with a time criterion, in any atmosphere and with any limit: by the time [t]
    after the start of the phase at most [t] times the full flow has been used, and the mass never
    exceeds the initial mass. *)
Theorem C25_run_bounds : forall fuel (cs : list (PhaseConfig N)) (p : Phase N) h st s es v m0 d T,
  v = Time \/ v = TimeSinceEvent -> begins cs p ->
  engines_are (ph_vehicle p) es -> Forall (fun e => 0 <= thrust_vac e /\ 0 < isp e) es ->
  ph_end_criterion p = (v, Fin T) -> get_value v (ph_state p) = Fin d -> d <= T ->
  st_mass (ph_state p) = Fin m0 -> run fuel p = (h, st) -> In s h ->
  exists t m, st_time_since_event s = Fin t /\ 0 <= t < T - d + 1 / 1000 /\
    st_mass s = Fin m /\ m0 - t * full_flow es <= m <= m0.
Proof.
  intros fuel cs p h st s es v m0 d T Hv Hb He HF Ec Hd HT Hm R Hs.
  destruct (run_chain _ _ _ _ R) as [[e [E [-> _]]]|[s0 [ps [Hi [Hc [-> _]]]]]]; [destruct Hs|].
  assert (F := chain_ind_inv _ (consuming_step p es v m0 d T Hv He HF Ec) _ _ Hc
    (consuming_start cs p s0 es v m0 d T Hv Hb Hi Hd Hm HT)).
  apply in_map_iff in Hs. destruct Hs as [q [<- Hq]]. rewrite Forall_forall in F.
  destruct (F q Hq) as (_ & t & k & m & A & _ & B & D & Z & G & _). exists t, m.
  split; [exact A|]. split; [lra|]. split; [exact B|exact D].
Qed.
(** If the configured propellant [k] suffices for the planned duration at full throttle, the
    reported propellant mass stays between zero and [k]: any atmosphere, any limit. *)
Theorem C27_sufficient_any_partial : forall fuel (cs : list (PhaseConfig N)) (p : Phase N) h st s es v ms k d T,
  v = Time \/ v = TimeSinceEvent -> begins cs p ->
  engines_are (ph_vehicle p) es -> Forall (fun e => 0 <= thrust_vac e /\ 0 < isp e) es ->
  ph_end_criterion p = (v, Fin T) -> get_value v (ph_state p) = Fin d -> d <= T ->
  st_mass (ph_state p) = Fin (ms + k) -> ve_structure_mass (ph_vehicle p) = Fin ms ->
  (T - d + 1 / 1000) * full_flow es <= k -> run fuel p = (h, st) -> In s h ->
  exists x, st_propellant_mass s = Fin x /\ 0 <= x <= k.
Proof.
  intros fuel cs p h st s es v ms k d T Hv Hb He HF Ec Hd HT Hm Hs0 Hk R Hs.
  assert (K := full_flow_nonneg es HF).
  destruct (C25_run_bounds fuel cs p h st s es v (ms + k) d T Hv Hb He HF Ec Hd HT Hm R Hs) as (t & m & _ & Bt & Em & Bm).
  rewrite (C26_reported fuel p h st s R Hs), Em, Hs0.
  exists (m - ms). split; [xrs; apply (f_equal Fin); ring|].
  assert (0 <= t * full_flow es) by (apply Rmult_le_pos; lra).
  assert (t * full_flow es <= (T - d + 1 / 1000) * full_flow es) by (apply Rmult_le_compat_r; lra). lra.
Qed.

(** ** No aborts in vacuum, with or without limit *)
(** The limit is absent or positive. *)
Definition limit_positive (p : Phase N) : Prop :=
  ph_max_acceleration p = PInf \/ exists L, ph_max_acceleration p = Fin L /\ 0 < L.
Lemma limited_system : forall (p : Phase N) (s0 : State N) es m, at_model (ph_atmosphere p) = NoAtmosphere ->
  tables_accepted (ph_vehicle p) -> engines_are (ph_vehicle p) es -> limit_positive p ->
  Forall (fun e => 0 <= thrust_vac e /\ 0 < isp e) es ->
  st_mass s0 = Fin m -> 0 < m -> exists s f, system p s0 = Ret s /\ st_massflow s = Fin (- f) /\ 0 <= f <= full_flow es.
Proof.
  intros p s0 es m Hm HT He HL HF Em Pm. assert (K := full_flow_nonneg es HF).
  assert (Hi : Forall (fun e => isp e <> 0) es).
  { rewrite Forall_forall in *. intros e He'. destruct (HF e He'). lra. }
  destruct (system_total p s0 (accepted_lookups p HT)) as [s [Q _]].
  destruct (no_atmosphere_forces _ _ _ Hm Q) as [P A].
  assert (Em' : st_mass s = Fin m) by (rewrite (q_mass _ _ _ Q); exact Em).
  assert (R : system p s0 = Ret s).
  { destruct HL as [HL|(L & HL & PL)].
    - destruct (C23_unlimited p s0 s es m 0 zeroR Q He HL Em' Pm P A) as (R & _). exact R.
    - destruct (C23_no_abort p s0 s es L m 0 zeroR Q HT He HL PL Em' Pm P A) as (R & _); [|exact R].
      rewrite normR_zeroR. nra. }
  destruct (throttle_fraction _ _ _ R) as (th & T & B).
  exists s, (th * full_flow es). split; [exact R|]. apply system_eom in R.
  rewrite (e_massflow _ _ _ R), T, (C24_massflow _ es) by assumption.
  split; [apply (f_equal Fin); ring|]. nra.
Qed.
Lemma limited_candidate : forall (p : Phase N) es h m,
  at_model (ph_atmosphere p) = NoAtmosphere -> limit_positive p -> tables_accepted (ph_vehicle p) ->
  engines_are (ph_vehicle p) es -> Forall (fun e => 0 <= thrust_vac e /\ 0 < isp e) es ->
  ph_stepsize p = Fin h -> 0 <= h -> st_mass (ph_state p) = Fin m -> 0 < m -> h * full_flow es < m ->
  exists s, candidate p = Ret s.
Proof.
  intros p es h m Ha HL HT He HF Hh Ph Hm Pm Hb. unfold candidate.
  assert (K := full_flow_nonneg es HF).
  assert (V := fun s0 m E P => limited_system p s0 es m Ha HT He HL HF E P).
  assert (HB : forall f, 0 <= f <= full_flow es -> 0 <= h * f <= h * full_flow es).
  { intros f [A B]. split; [now apply Rmult_le_pos|]. now apply Rmult_le_compat_l. }
  pose (y := to_primary_vec (ph_state p)).
  pose (t := fun c : N => (n_add (st_time (ph_state p)) (n_mul c (ph_stepsize p)),
                           n_add (st_time_since_event (ph_state p)) (n_mul c (ph_stepsize p)))).
  pose (z := v7_zero (N := N)). pose (half := n_lit (n := N) 5 (-1)). pose (o := n_lit (n := N) 0 0).
  pose (k := fun d : State N => v7_scale (ph_stepsize p) (to_differentials_vector d)).
  pose (sm := rk_sum (N := N) v7_zero v7_add v7_scale).
  assert (MK : forall (x : N * N) (l : list (N * vec7 N)) r, fold_left (@v7_add N)
       (map (fun q => v7_scale (fst q) (snd q)) l) v7_zero = r -> forall m', n_add (Fin m : N) (v7_mass r) = Fin m' ->
       st_mass (from_vec x (v7_add y r)) = Fin m').
  { intros x l r _ m' E. unfold from_vec, y, to_primary_vec. cbn [v7_add v7_mass st_mass set_mass]. rewrite Hm. exact E. }
  destruct (V (from_vec (t (n_lit 0 0)) (v7_add y (sm [o; o; o; o] [z; z; z; z]))) m) as (d0 & f0 & D0 & F0 & B0).
  { eapply MK; [reflexivity|]. unfold o, z. cbn [combine map fold_left fst snd v7_add v7_scale v7_mass v7_zero]. xrs.
    apply (f_equal Fin). ring. }
  { exact Pm. }
  assert (H0 := HB f0 B0).
  destruct (V (from_vec (t half) (v7_add y (sm [half; o; o; o] [k d0; z; z; z]))) (m - h * f0 / 2)) as (d1 & f1 & D1 & F1 & B1).
  { eapply MK; [reflexivity|]. unfold o, z, half, k, to_differentials_vector.
    cbn [combine map fold_left fst snd v7_add v7_scale v7_mass v7_zero]. rewrite F0, Hh. xrs. apply (f_equal Fin). field. }
  { lra. }
  assert (H1 := HB f1 B1).
  destruct (V (from_vec (t half) (v7_add y (sm [o; half; o; o] [k d0; k d1; z; z]))) (m - h * f1 / 2)) as (d2 & f2 & D2 & F2 & B2).
  { eapply MK; [reflexivity|]. unfold o, z, half, k, to_differentials_vector.
    cbn [combine map fold_left fst snd v7_add v7_scale v7_mass v7_zero]. rewrite F0, F1, Hh. xrs. apply (f_equal Fin). field. }
  { lra. }
  assert (H2 := HB f2 B2).
  destruct (V (from_vec (t (n_lit 1 0)) (v7_add y (sm [o; o; n_lit 1 0; o] [k d0; k d1; k d2; z]))) (m - h * f2))
    as (d3 & f3 & D3 & F3 & B3).
  { eapply MK; [reflexivity|]. unfold o, z, k, to_differentials_vector.
    cbn [combine map fold_left fst snd v7_add v7_scale v7_mass v7_zero]. rewrite F0, F1, F2, Hh. xrs. apply (f_equal Fin). field. }
  { lra. }
  assert (H3 := HB f3 B3).
  rewrite (integrator_step_intro (system p) (ph_state p) (ph_stepsize p) d0 d1 d2 d3 D0 D1 D2 D3).
  match goal with |- exists s, system p (from_vec ?x (v7_add _ ?r)) = _ =>
    destruct (V (from_vec x (v7_add y r)) (m - (h * f0 + 2 * (h * f1) + 2 * (h * f2) + h * f3) / 6)) as (d & f & D & _);
      [| |exists d; exact D] end; [|lra].
  eapply MK; [reflexivity|]. unfold to_differentials_vector.
  cbn [combine map fold_left fst snd v7_add v7_scale v7_mass v7_zero]. rewrite F0, F1, F2, F3, Hh.
  assert (D6 : n_div (n := N) (n_lit 1 0) (n_lit 6 0) = Fin (1 / 6)) by (apply xdiv_fin; lra).
  assert (D4 : n_div (n := N) (n_lit 1 0) (n_lit 3 0) = Fin (1 / 3)) by (apply xdiv_fin; lra).
  rewrite D6, D4. xrs. apply (f_equal Fin). field.
Qed.

(** A flight in vacuum for [T] seconds with enough mass is never aborted, whatever the (positive)
    acceleration limit: the throttle is reduced instead.  It ends at its time, at most [K + 2]
    records are written, and the final mass is within the full-throttle consumption. *)
Theorem C49_vacuum_limited_flight : forall fuel (cs : list (PhaseConfig N)) (p : Phase N) es m0 T K,
  begins cs p -> tables_accepted (ph_vehicle p) ->
  at_model (ph_atmosphere p) = NoAtmosphere -> limit_positive p ->
  engines_are (ph_vehicle p) es -> Forall (fun e => 0 <= thrust_vac e /\ 0 < isp e) es ->
  ph_end_criterion p = (TimeSinceEvent, Fin T) -> st_mass (ph_state p) = Fin m0 ->
  (T + 1) * full_flow es < m0 -> 0 <= T <= INR K -> (K + 2 <= fuel)%nat ->
  exists h q t m, run fuel p = (h, Finished q) /\ (length h <= K + 2)%nat /\ h <> [] /\
    st_time_since_event (ph_state q) = Fin t /\ Rabs (t - T) < 1 / 1000 /\
    st_mass (ph_state q) = Fin m /\ m0 - t * full_flow es <= m <= m0.
Proof.
  intros fuel cs p es m0 T K Hb HT Ha HL He HF Ec Hm Hfu HK Hf.
  assert (FF := full_flow_nonneg es HF).
  assert (P0 : 0 < m0).
  { assert (0 <= (T + 1) * full_flow es) by (apply Rmult_le_pos; lra). lra. }
  destruct (limited_system p (ph_state p) es m0 Ha HT He HL HF Hm P0) as (s0 & _ & S0 & _).
  destruct (C34_duration cs p s0 T K fuel Hb HT Ec S0 HK Hf) as (h & st & R & L & D).
  destruct (run_chain _ _ _ _ R) as [[e [E _]]|[s1 [ps [Hi1 [Hc [Eh Hst]]]]]]; [congruence|].
  assert (Hd : get_value TimeSinceEvent (ph_state p) = Fin 0).
  { cbn [get_value]. rewrite (proj1 (C36_start cs p Hb)). reflexivity. }
  assert (I := consuming_start cs p s1 es TimeSinceEvent m0 0 T (or_intror eq_refl) Hb Hi1 Hd Hm (proj1 HK)).
  assert (F := chain_final_inv _ (consuming_step p es TimeSinceEvent m0 0 T (or_intror eq_refl) He HF Ec) _ _ Hc I).
  destruct D as [(q & t & -> & Et & Bt)| ->].
  - destruct Hst as [-> En]. destruct F as (_ & t' & k & m & Et' & _ & Em & Bm & _).
    rewrite Et in Et'. injection Et' as <-.
    eexists h, _, t, m. split; [exact R|]. split; [exact L|]. split.
    { intros ->. destruct ps as [|p1 ps]; [|discriminate].
      destruct (C32_counter_starts_at_zero cs p s1 Hb) as [_ G]. unfold final in En. cbn [last] in En. congruence. }
    split; [exact Et|]. split; [exact Bt|]. split; [exact Em|exact Bm].
  - exfalso. set (q := final (set_ph_state p s1) ps) in *. clearbody q.
    destruct F as (P & t & k & m & Et & _ & Em & Bm & Bt & _ & Ek & Bk & G).
    assert (En : ph_ended q = false).
    { destruct (ph_ended q) eqn:En; [|reflexivity]. unfold step in Hst. rewrite En in Hst. discriminate. }
    specialize (G En). rewrite Rplus_0_r in G.
    assert (X1 : (t + k) * full_flow es <= (T + 1) * full_flow es) by (apply Rmult_le_compat_r; lra).
    assert (X2 : 0 <= k * full_flow es) by (apply Rmult_le_pos; lra).
    destruct P as (Pv & _ & Pa & _ & _ & Pl & _ & _).
    destruct (limited_candidate q es k m) as [s C]; auto; try lra.
    { now rewrite Pa. } { unfold limit_positive. now rewrite Pl. } { now rewrite Pv. } { unfold engines_are. now rewrite Pv. }
    destruct (C32_abort _ _ En Hst) as [X|(_ & _ & X)]; congruence.
Qed.

(** In vacuum the reported acceleration is exactly the smaller of the limit and what the engines
    can do: the throttle is never reduced more than necessary. *)
Theorem C22_vacuum_reported : forall (cs : list (PhaseConfig N)) (p : Phase N) (s : State N) es L m,
  reported cs p s -> at_model (ph_atmosphere p) = NoAtmosphere -> engines_are (ph_vehicle p) es ->
  ph_max_acceleration p = Fin L -> 0 < L -> st_mass s = Fin m -> 0 < m ->
  exists th a, st_throttle s = Fin th /\ 0 < th <= 1 /\
    st_vehicle_acceleration_body s = finv (scaleR a (full_thrust es 0)) /\ a * m = th /\
    normR (scaleR a (full_thrust es 0)) = Rmin L (normR (full_thrust es 0) / m).
Proof.
  intros cs p s es L m Hr Ha He HL PL Em Pm.
  destruct (C37_reported cs p s Hr) as [s0 X].
  assert (Q := eom_equations _ _ _ X).
  destruct (no_atmosphere_forces _ _ _ Ha Q) as [P A].
  assert (Lm : 0 < L * m) by now apply Rmult_lt_0_compat.
  destruct (C22_largest_throttle (ph_vehicle p) es 0 zeroR L m He) as (th & Et & B & C & D & E);
    [lra|rewrite normR_zeroR; lra|].
  assert (T : st_throttle s = Fin th) by (rewrite (q_throttle _ _ _ Q), HL, Em, P, A; exact Et).
  assert (LD : forall t, 0 <= t -> load zeroR (full_thrust es 0) t = t * normR (full_thrust es 0)).
  { intros t Pt. unfold load.
    replace (addR zeroR (scaleR t (full_thrust es 0))) with (scaleR t (full_thrust es 0))
      by (unfold addR, scaleR, zeroR; cbn [vx vy vz]; f_equal; ring).
    rewrite normR_scale, Rabs_pos_eq by exact Pt. reflexivity. }
  set (F := normR (full_thrust es 0)) in *.
  assert (PF : 0 <= F) by apply sqrt_pos.
  assert (Pth : 0 < th).
  { destruct (Rle_lt_dec F (L * m)) as [G|G].
    - assert (1 <= th) by (apply D; [lra|]; rewrite LD by lra; lra). lra.
    - assert (L * m / F <= th).
      { apply D.
        - split; [apply Rmult_le_pos; [lra|]; apply Rlt_le, Rinv_0_lt_compat; lra|].
          apply (Rmult_le_reg_r F); [lra|]. unfold Rdiv. rewrite Rmult_assoc, Rinv_l by lra. lra.
        - rewrite LD by (apply Rmult_le_pos; [lra|]; apply Rlt_le, Rinv_0_lt_compat; lra).
          unfold Rdiv. rewrite Rmult_assoc, Rinv_l by lra. lra. }
      assert (0 < L * m / F) by (apply Rmult_lt_0_compat; [lra|]; apply Rinv_0_lt_compat; lra). lra. }
  rewrite LD in C, E by lra.
  exists th, (th / m). split; [exact T|]. split; [lra|]. split.
  { rewrite (q_vehicle_acceleration _ _ _ Q), (q_thrust _ _ _ Q), T, P, A, Em, (C24_thrust _ es) by exact He.
    rewrite vadd_fin, vdiv_fin by lra. apply (f_equal finv). unfold addR, scaleR, zeroR. cbn [vx vy vz]. f_equal; field; lra. }
  split; [field; lra|].
  assert (Pi : 0 < / m) by now apply Rinv_0_lt_compat.
  rewrite normR_scale, Rabs_pos_eq by (unfold Rdiv; nra). fold F.
  unfold Rmin. destruct (Rle_dec L (F / m)) as [G|G].
  - assert (L * m <= F).
    { apply (Rmult_le_compat_r m) in G; [|lra]. unfold Rdiv in G. rewrite Rmult_assoc, Rinv_l in G by lra. lra. }
    assert (th * F = L * m).
    { destruct (Rlt_le_dec th 1) as [Z|Z]; [now apply E|]. assert (th = 1) by lra. subst th. lra. }
    unfold Rdiv. rewrite Rmult_assoc, (Rmult_comm (/ m)), <- Rmult_assoc, H0. field. lra.
  - assert (th = 1).
    { destruct (Rlt_le_dec th 1) as [Z|Z]; [|lra]. exfalso. apply G. assert (Y := E Z).
      apply (Rmult_le_reg_r m); [lra|]. unfold Rdiv. rewrite Rmult_assoc, Rinv_l by lra. nra. }
    subst th. field. lra.
Qed.
End Exact.

(** ** Non-vacuity: the launch of [ex_burn] with an acceleration limit of 50 m/s^2, half of what
       its engine could do *)
Section Example.
Context {rot : mat3 xr -> mat3 xr}.
Notation N := (XR rot).
Definition limited_config : PhaseConfig N :=
  mkPhaseConfig (N := N) (Some (mkInitConfig (N := N) (Fin 28) (Fin 10) (Fin 90) (Fin 0)))
    (Some (mkVehicleConfig (N := N) (Some (Fin 1000)) (Some (Fin 9000)) None None None None (Some [finE burn_engine])))
    None None None (Some (Fin 50)) None (Some (TimeSinceEvent, Fin (5 / 2))).
Example ex_limited_burn : exists (p : Phase N) h q t m th a, begins [limited_config] p /\ run 5 p = (h, Finished q) /\
  In (ph_state q) h /\ reported [limited_config] p (ph_state q) /\ ph_max_acceleration p = Fin 50 /\
  st_time_since_event (ph_state q) = Fin t /\ 2 < t /\ st_mass (ph_state q) = Fin m /\ 9000 < m <= 10000 /\
  st_throttle (ph_state q) = Fin th /\ th <= 1 / 2 /\
  st_vehicle_acceleration_body (ph_state q) = finv a /\ normR a = 50 /\
  engines_are (ph_vehicle p) [burn_engine] /\ at_model (ph_atmosphere p) = NoAtmosphere.
Proof.
  set (c := limited_config). set (i := mkInitConfig (N := N) (Fin 28) (Fin 10) (Fin 90) (Fin 0)).
  set (q := configured default_phase c).
  assert (Hn : phase_new None c = Ret (phase_init q i)) by (rewrite phase_new_configured; reflexivity).
  set (p := reset (phase_init q i)) in *.
  assert (Hb : begins [c] p) by exact (begins_first c _ Hn).
  assert (FF : full_flow [burn_engine] = 1000000 / (300 * g0)) by (unfold full_flow, burn_engine; cbn; ring).
  assert (FB : 339 < full_flow [burn_engine] < 340).
  { rewrite FF. unfold g0. lra. }
  assert (Hm : st_mass (ph_state p) = Fin 10000).
  { change (Fin (1000 + 9000) = Fin 10000). apply (f_equal Fin). ring. }
  assert (HL : ph_max_acceleration p = Fin 50).
  { change ((if Reqb 50 (- 1) then PInf else Fin 50) = Fin 50). rewrite Reqb_false by lra. reflexivity. }
  destruct (C49_vacuum_limited_flight 5 [c] p [burn_engine] 10000 (5 / 2) 3 Hb) as (h & r & t & m & R & _ & Nh & Et & Bt & Em & Bm);
    try reflexivity; auto.
  - repeat split; apply C18_default_table_accepted.
  - right. exists 50. split; [exact HL|lra].
  - repeat constructor; cbn; lra.
  - lra.
  - cbn. lra.
  - apply Rabs_def2 in Bt.
    assert (Bm2 : 9000 < m <= 10000).
    { assert (t * full_flow [burn_engine] <= t * 340) by (apply Rmult_le_compat_l; lra). lra. }
    assert (Hin : In (ph_state r) h).
    { assert (En : ph_ended p = false) by reflexivity.
      destruct (finished_last _ _ _ _ R En) as [h' ->]. apply in_or_app. right. left. reflexivity. }
    assert (Hr : reported [c] p (ph_state r)).
    { exists [c], [], 5%nat, h, (Finished r). split; [reflexivity|]. split; [exact Hb|]. split; [exact R|exact Hin]. }
    destruct (C22_vacuum_reported [c] p (ph_state r) [burn_engine] 50 m Hr eq_refl eq_refl HL)
      as (th & a & Eth & Bth & Ea & Eam & En); [lra|exact Em|lra|].
    assert (NF : normR (full_thrust [burn_engine] 0) = 1000000).
    { unfold full_thrust. cbn [map sumV fold_right burn_engine thrust_vac exit_area].
      replace (addR (scaleR (1000000 - 1 * 0) (axis_of burn_engine)) zeroR) with (scaleR 1000000 (axis_of burn_engine))
        by (unfold addR, scaleR, zeroR; cbn [vx vy vz]; f_equal; ring).
      rewrite normR_scale, C24_axis_unit, Rabs_pos_eq by lra. lra. }
    assert (NL : normR (scaleR a (full_thrust [burn_engine] 0)) = 50).
    { rewrite En, NF. apply Rmin_left. apply (Rmult_le_reg_r m); [lra|]. unfold Rdiv. rewrite Rmult_assoc, Rinv_l; lra. }
    exists p, h, r, t, m, th, (scaleR a (full_thrust [burn_engine] 0)).
    split; [exact Hb|]. split; [exact R|]. split; [exact Hin|]. split; [exact Hr|]. split; [exact HL|].
    split; [exact Et|]. split; [lra|]. split; [exact Em|]. split; [exact Bm2|]. split; [exact Eth|].
    split; [|split; [exact Ea|split; [exact NL|split; reflexivity]]].
    rewrite normR_scale, NF in NL. assert (0 < a).
    { apply (Rmult_lt_reg_r m); [lra|]. lra. }
    rewrite Rabs_pos_eq in NL by lra. rewrite <- Eam. assert (a = 1 / 20000) by lra. subst a. lra.
Qed.
End Example.
