(** * C63, exact arithmetic: coasting flight is the Runge-Kutta method for x'' = gradient of the potential

    In exact arithmetic the records of a phase without engines and without atmosphere are the [flight] of RK4Error:
    no force is added, none is lost, and the integrator is the classical one. *)
From Coq Require Import ZArith List Reals Lra Lia Bool.
From Coquelicot Require Import Coquelicot.
From Coq Require Import List.
From Verif Require Import Num Constants State Tables Config Planet Atmosphere Transformations
  Steering Vehicle RungeKutta Phase Simulation XR XRFacts SpecReal SystemFacts SystemTotal RKFacts RunFacts
  PhaseNew Prop_Run Prop_Gravity Prop_Mass Prop_Simulation Prop_Mission Prop_Plane FieldBounds RK4Error.
Import ListNotations.
Local Open Scope R_scope.

(** ** Steps of one second, for any arithmetic; [val] gives the value of a number *)
Section Seconds.
Context {N : Num} (val : N -> R).
Lemma full_step : forall p p' : Phase N, step p = Ret p' -> ph_stepsize p = n_lit 1 0 ->
  val (st_time_since_event (ph_state p')) <> val (st_time_since_event (ph_state p)) ->
  integrator_step (system p) (ph_state p) (n_lit 1 0) = Ret (ph_state p') /\ ph_stepsize p' = n_lit 1 0 /\ same_parameters p p'.
Proof.
  intros p p' H E D. destruct (C32_iteration _ _ H) as (s & C & S & K). destruct (attempt_overshoots p).
  - destruct K as (K & _). rewrite K in D. now destruct D.
  - destruct K as (K1 & _ & K2 & _). split; [|split; [congruence|exact S]]. unfold candidate in C. rewrite E in C. now rewrite K1.
Qed.
Lemma chain_seconds : forall n ps (p0 : Phase N) j, chain p0 ps -> ph_stepsize p0 = n_lit 1 0 -> val (st_time_since_event (ph_state p0)) = INR j ->
  (forall k s, (k <= n)%nat -> nth_error (map (@ph_state N) ps) k = Some s -> val (st_time_since_event s) = INR (j + k) + 1) ->
  forall k s s', (k < n)%nat -> nth_error (map (@ph_state N) ps) k = Some s -> nth_error (map (@ph_state N) ps) (S k) = Some s' ->
  exists q : Phase N, same_parameters p0 q /\ integrator_step (system q) s (n_lit 1 0) = Ret s'.
Proof.
  induction n as [|n IH]; intros ps p0 j Hc E T Ts k s s' Hk H H'; [lia|].
  inversion Hc as [|p p' l En St Cl]; subst; [destruct k; discriminate|].
  cbn [map] in *. assert (T1 := Ts 0%nat _ ltac:(lia) eq_refl). rewrite Nat.add_0_r in T1.
  destruct (full_step _ _ St E) as (C & E' & SP); [lra|].
  assert (Tl : forall k s, (k <= n)%nat -> nth_error (map (@ph_state N) l) k = Some s -> val (st_time_since_event s) = INR (S j + k) + 1).
  { intros k0 s0 Hk0 H0. replace (S j + k0)%nat with (j + S k0)%nat by lia. apply Ts; [lia|exact H0]. }
  rewrite <- S_INR in T1.
  destruct k as [|k].
  - cbn [nth_error] in H, H'. injection H as <-. inversion Cl as [|q p'' l' En' St' Cl']; subst; [discriminate|]. cbn [map nth_error] in H', Tl. injection H' as <-.
    assert (T2 := Tl 0%nat _ ltac:(lia) eq_refl). rewrite Nat.add_0_r in T2.
    destruct (full_step _ _ St' E') as (C' & _ & _); [lra|]. exists p'. split; assumption.
  - cbn [nth_error] in H, H'. destruct (IH l p' (S j) Cl E' T1 Tl k s s' ltac:(lia) H H') as (q & Q1 & Q2).
    exists q. split; [exact (same_parameters_trans _ _ _ SP Q1)|exact Q2].
Qed.
(** The consecutive records of a phase whose reported time advances by whole seconds are connected by steps of one second,
    each with the settings in effect. *)
Theorem record_seconds : forall fuel (cs : list (PhaseConfig N)) ev st a i h b n, val (n_lit 0 0) = 0 ->
  simulate fuel cs = (ev, st) -> block ev a i h b ->
  (forall k s, (k <= n)%nat -> nth_error h k = Some s -> val (st_time_since_event s) = INR k + 1) ->
  forall k s s', (k < n)%nat -> nth_error h k = Some s -> nth_error h (S k) = Some s' ->
  exists p q : Phase N, begins (firstn i cs) p /\ same_parameters p q /\ integrator_step (system q) s (n_lit 1 0) = Ret s'.
Proof.
  intros fuel cs ev st a i h b n V0 H Bl T k s s' Hk Hs Hs'.
  destruct (simulate_blocks _ _ _ _ _ _ _ _ H Bl) as [_ [(X & _)|(p & st1 & Bp & R & _)]]; [subst h; destruct k; discriminate|].
  destruct (run_chain _ _ _ _ R) as [[e [_ [E _]]]|[s0 [ps [Hi [Hc [E _]]]]]]; [subst h; destruct k; discriminate|].
  assert (Sz : ph_stepsize (set_ph_state p s0) = n_lit 1 0) by (destruct (C29_stepsize_is_one _ _ Bp) as [Z _]; exact Z).
  assert (T0 : val (st_time_since_event (ph_state (set_ph_state p s0))) = INR 0).
  { change (ph_state (set_ph_state p s0)) with s0. destruct (C36_start _ _ Bp) as [_ Z]. destruct (Z s0 Hi) as [-> _]. exact V0. }
  assert (TS : forall k s, (k <= n)%nat -> nth_error (map (@ph_state N) ps) k = Some s -> val (st_time_since_event s) = INR (0 + k) + 1).
  { intros k1 s4 Y1 Y2. rewrite Nat.add_0_l. rewrite <- E in Y2. exact (T k1 s4 Y1 Y2). }
  rewrite E in Hs, Hs'. destruct (chain_seconds n ps (set_ph_state p s0) 0 Hc Sz T0 TS k s s' Hk Hs Hs') as (q & Z1 & Z2).
  exists p, q. split; [exact Bp|]. split; [exact Z1|exact Z2].
Qed.
End Seconds.

Section Exact.
Context {rot : mat3 xr -> mat3 xr}.
Notation N := (XR rot).
Local Notation add := (vadd (N := N)).
Local Notation scale := (vscale (N := N)).

Lemma finv_inj : forall a b, finv a = finv b -> a = b.
Proof. intros [a0 a1 a2] [b0 b1 b2] H. unfold finv in H. cbn [vx vy vz] in H. now injection H as -> -> ->. Qed.
Lemma addR_zero_l : forall a, addR zeroR a = a.
Proof. intros [a b c]. unfold addR, zeroR. cbn [vx vy vz]. f_equal; ring. Qed.

(** ** No force but gravity *)
Lemma coast_acceleration : forall (p : Phase N) s0 s Re Rp mu J2 J3 J4 w a, ve_engines (ph_vehicle p) = [] -> at_model (ph_atmosphere p) = NoAtmosphere ->
  real_planet (ph_planet p) Re Rp mu J2 J3 J4 w -> system p s0 = Ret s -> st_acceleration s = finv a ->
  exists r, st_position s0 = finv r /\ r <> zeroR /\ a = grav mu J2 J3 J4 Re r.
Proof.
  intros p s0 s Re Rp mu0 J2 J3 J4 w a He Hm Hp H F. apply system_eom in H.
  destruct (no_atmosphere_forces _ _ _ Hm (eom_equations _ _ _ H)) as [_ A].
  rewrite (e_acceleration _ _ _ H) in F. apply vadd_inv in F. destruct F as (t & g & Et & Eg & ->).
  rewrite (e_gravity _ _ _ H), (e_position _ _ _ H) in Eg.
  destruct (gravity_inv _ _ _ _ _ _ _ _ _ _ Hp Eg) as (r & Er & R0). exists r. split; [exact Er|]. split; [exact R0|].
  rewrite Er, (gravity_real _ _ _ _ _ _ _ _ r Hp R0) in Eg. apply finv_inj in Eg. rewrite <- Eg.
  enough (Z : t = zeroR) by (rewrite Z; apply addR_zero_l).
  rewrite (e_vehicle_acceleration _ _ _ H), A, (e_thrust _ _ _ H) in Et. unfold thrust_force in Et. rewrite He in Et.
  cbn [map] in Et. change (vsum (N := N) []) with (vzero (N := N)) in Et.
  revert Et. generalize (transpose (inertial_to_body (ph_launch p) (st_euler_angles s))), (st_throttle s), (st_mass s). clear. intros M th m E.
  assert (Z : forall a : xr, xdiv (xadd (Fin 0) (xmul a (Fin 0))) m = Fin 0 \/ xdiv (xadd (Fin 0) (xmul a (Fin 0))) m = NaN).
  { intros a. assert (Q : xadd (Fin 0) (xmul a (Fin 0)) = Fin 0 \/ xadd (Fin 0) (xmul a (Fin 0)) = NaN).
    { destruct a as [y| | |]; cbn.
      - left. apply (f_equal Fin). ring.
      - unfold inf_sign. rewrite !Rltb_false by lra. now right.
      - unfold inf_sign. rewrite !Rltb_false by lra. now right.
      - now right. }
    destruct Q as [-> | ->]; [|right; destruct m; reflexivity].
    destruct m as [y| | |]; cbn; auto. unfold Reqb. destruct (Req_EM_T y 0).
    - unfold inf_sign. rewrite !Rltb_false by lra. now right.
    - left. apply (f_equal Fin). field. assumption. }
  change (vzero (N := N)) with (finv zeroR) in E. unfold vscale, zeroR, finv, vadd, vdiv in E. cbn [vx vy vz n_mul n_add n_div XR] in E.
  specialize (Z th). revert Z E. generalize (xdiv (xadd (Fin 0) (xmul th (Fin 0))) m). intros q Z E.
  unfold mulv, vdot in E. cbn [vx vy vz n_mul n_add XR] in E.
  assert (W : forall a b c y, xadd (xadd (xmul a q) (xmul b q)) (xmul c q) = Fin y -> y = 0).
  { intros a b c y G. destruct (xadd_inv _ _ _ G) as (u & u3 & G1 & G2 & ->). destruct (xadd_inv _ _ _ G1) as (u1 & u2 & G3 & G4 & ->).
    destruct (xmul_inv _ _ _ G2) as (k1 & l1 & _ & L1 & ->). destruct (xmul_inv _ _ _ G3) as (k2 & l2 & _ & L2 & ->).
    destruct (xmul_inv _ _ _ G4) as (k3 & l3 & _ & L3 & ->). destruct Z as [-> | ->]; [|discriminate].
    injection L1 as <-. injection L2 as <-. injection L3 as <-. ring. }
  destruct t as [x0 x1 x2]. injection E as E0 E1 E2. apply W in E0, E1, E2. now subst.
Qed.

(** ** One step *)
Local Ltac vlin := unfold addR, scaleR, zeroR; cbn [vx vy vz]; f_equal; lra.
Definition sumR (a b c d : vec3 R) : vec3 R := addR (addR (addR (addR zeroR a) b) c) d.
Local Notation O := (scaleR 0 zeroR).
Lemma sum_0 : forall x, addR x (sumR O O O O) = x.
Proof. intros [a b c]. unfold sumR. vlin. Qed.
Lemma sum_1 : forall x k a, addR x (sumR (scaleR k (scaleR 1 a)) O O O) = addR x (scaleR k a).
Proof. intros [x0 x1 x2] k [a b c]. unfold sumR, addR, scaleR, zeroR; cbn [vx vy vz]; f_equal; ring. Qed.
Lemma sum_2 : forall x k a b, addR x (sumR (scaleR 0 (scaleR 1 a)) (scaleR k (scaleR 1 b)) O O) = addR x (scaleR k b).
Proof. intros [x0 x1 x2] k [a0 a1 a2] [b0 b1 b2]. unfold sumR, addR, scaleR, zeroR; cbn [vx vy vz]; f_equal; ring. Qed.
Lemma sum_3 : forall x a b c, addR x (sumR (scaleR 0 (scaleR 1 a)) (scaleR 0 (scaleR 1 b)) (scaleR 1 (scaleR 1 c)) O) = addR x c.
Proof. intros [x0 x1 x2] [a0 a1 a2] [b0 b1 b2] [c0 c1 c2]. unfold sumR, addR, scaleR, zeroR; cbn [vx vy vz]; f_equal; ring. Qed.
Lemma sum_4 : forall x a b c d, addR x (sumR (scaleR (1 / 6) (scaleR 1 a)) (scaleR (1 / 3) (scaleR 1 b)) (scaleR (1 / 3) (scaleR 1 c)) (scaleR (1 / 6) (scaleR 1 d))) =
  addR x (scaleR (1 / 6) (addR (addR a (scaleR 2 b)) (addR (scaleR 2 c) d))).
Proof. intros [x0 x1 x2] [a0 a1 a2] [b0 b1 b2] [c0 c1 c2] [d0 d1 d2]. unfold sumR, addR, scaleR, zeroR; cbn [vx vy vz]; f_equal; field. Qed.
Lemma lit_fin : (n_lit 0 0 : N) = Fin 0 /\ (n_lit 1 0 : N) = Fin 1 /\ (n_lit 5 (-1) : N) = Fin (1 / 2) /\
  n_div (n_lit 1 0 : N) (n_lit 6 0) = Fin (1 / 6) /\ n_div (n_lit 1 0 : N) (n_lit 3 0) = Fin (1 / 3).
Proof.
  cbn [n_lit n_div XR]. unfold xlit. cbn. rewrite !Reqb_false by lra. repeat split; apply (f_equal Fin); try field.
Qed.
Theorem exact_second : forall (p : Phase N) s s' Re Rp mu J2 J3 J4 w x v v', ve_engines (ph_vehicle p) = [] -> at_model (ph_atmosphere p) = NoAtmosphere ->
  real_planet (ph_planet p) Re Rp mu J2 J3 J4 w -> integrator_step (system p) s (n_lit 1 0) = Ret s' ->
  st_position s = finv x -> st_velocity s = finv v -> st_velocity s' = finv v' ->
  forall g, (forall y, y <> zeroR -> gradient (potential mu J2 J3 J4 Re) y (g y)) ->
  st_position s' = finv (fst (rk4_second g (x, v))) /\ st_velocity s' = finv (snd (rk4_second g (x, v))).
Proof.
  intros p s s' Re Rp mu0 J2 J3 J4 w x v v' He Ha Hp H Ex Ev Ev' g Hg. destruct lit_fin as (L0 & L1 & L5 & L6 & L3).
  apply integrator_step_inv in H. destruct H as (d0 & d1 & d2 & d3 & H0 & H1 & H2 & H3 & H4).
  unfold rk_sum in H0, H1, H2, H3, H4. cbn [combine map fold_left fst snd] in H0, H1, H2, H3, H4.
  assert (VEL : forall (i d : State N), system p i = Ret d -> st_velocity d = st_velocity i) by (intros i d E; apply system_eom in E; exact (e_velocity _ _ _ E)).
  assert (POS : forall (i d : State N), system p i = Ret d -> st_position d = st_position i) by (intros i d E; apply system_eom in E; exact (e_position _ _ _ E)).
  assert (V0 := VEL _ _ H0). assert (V1 := VEL _ _ H1). assert (V2 := VEL _ _ H2). assert (V3' := VEL _ _ H3). assert (V4 := VEL _ _ H4).
  assert (X0 := POS _ _ H0). assert (X1 := POS _ _ H1). assert (X2 := POS _ _ H2). assert (X3 := POS _ _ H3). assert (X4 := POS _ _ H4).
  assert (FP : forall (t : N * N) (u : vec7 N), st_position (from_vec t u) = v7_pos u) by reflexivity.
  assert (FV : forall (t : N * N) (u : vec7 N), st_velocity (from_vec t u) = v7_vel u) by reflexivity.
  rewrite FV in V0. rewrite FV in V1. rewrite FV in V2. rewrite FV in V3'. rewrite FV in V4. rewrite FP in X0. rewrite FP in X1. rewrite FP in X2. rewrite FP in X3. rewrite FP in X4. clear FP FV.
  cbn [v7_pos v7_vel v7_add v7_scale v7_zero to_primary_vec to_differentials_vector] in V0, V1, V2, V3', V4, X0, X1, X2, X3, X4.
  assert (FA : forall (i d : State N) a, system p i = Ret d -> st_acceleration d = finv a -> exists r, st_position d = finv r /\ a = g r).
  { intros i d a Hd Fa. destruct (coast_acceleration p i d Re Rp mu0 J2 J3 J4 w a He Ha Hp Hd Fa) as (r & Er & R0 & E). exists r. rewrite (POS _ _ Hd). split; [exact Er|].
    rewrite E. apply (gradient_unique (potential mu0 J2 J3 J4 Re) r); [now apply grav_gradient|now apply Hg]. }
  assert (FF : (exists a, st_acceleration d0 = finv a) /\ (exists a, st_acceleration d1 = finv a) /\ (exists a, st_acceleration d2 = finv a) /\ (exists a, st_acceleration d3 = finv a)).
  { assert (Q := V4). rewrite Ev' in Q. symmetry in Q. apply vadd_inv in Q. destruct Q as (? & ? & _ & Q & _). apply vadd_inv in Q. destruct Q as (? & ? & Q & Q3 & _).
    apply vadd_inv in Q. destruct Q as (? & ? & Q & Q2 & _). apply vadd_inv in Q. destruct Q as (? & ? & Q & Q1 & _). apply vadd_inv in Q. destruct Q as (? & ? & _ & Q0 & _).
    apply vscale_inv in Q0, Q1, Q2, Q3. destruct Q0 as (? & ? & _ & Q0 & _), Q1 as (? & ? & _ & Q1 & _), Q2 as (? & ? & _ & Q2 & _), Q3 as (? & ? & _ & Q3 & _).
    apply vscale_inv in Q0, Q1, Q2, Q3. destruct Q0 as (? & a0 & _ & Q0 & _), Q1 as (? & a1 & _ & Q1 & _), Q2 as (? & a2 & _ & Q2 & _), Q3 as (? & a3 & _ & Q3 & _).
    split; [exists a0; exact Q0|]. split; [exists a1; exact Q1|]. split; [exists a2; exact Q2|exists a3; exact Q3]. }
  destruct FF as ((a0 & A0) & (a1 & A1) & (a2 & A2) & (a3 & A3)).
  destruct (FA _ _ _ H0 A0) as (r0 & P0 & ->). destruct (FA _ _ _ H1 A1) as (r1 & P1 & ->). destruct (FA _ _ _ H2 A2) as (r2 & P2 & ->). destruct (FA _ _ _ H3 A3) as (r3 & P3 & ->).
  clear FA POS VEL H0 H1 H2 H3 H4 Hg Ev'. change (vzero (N := N)) with (finv zeroR) in *.
  rewrite ?L0, ?L1, ?L5, ?L6, ?L3 in *.
  rewrite Ev in V0, V1, V2, V3', V4. rewrite Ex in X0, X1, X2, X3, X4.
  rewrite ?A0 in V1, V2, V3', V4. rewrite ?A1 in V2, V3', V4. rewrite ?A2 in V3', V4. rewrite ?A3 in V4.
  rewrite ?vscale_fin, ?vadd_fin in V0. rewrite ?vscale_fin, ?vadd_fin in V1. rewrite ?vscale_fin, ?vadd_fin in V2. rewrite ?vscale_fin, ?vadd_fin in V3'. rewrite ?vscale_fin, ?vadd_fin in V4.
  match type of V0 with _ = finv (addR ?y _) => change (st_velocity d0 = finv (addR y (sumR O O O O))) in V0 end. rewrite sum_0 in V0.
  match type of V1 with _ = finv (addR ?y (addR (addR (addR (addR _ ?a) ?b) ?c) ?d)) => change (st_velocity d1 = finv (addR y (sumR a b c d))) in V1 end. rewrite sum_1 in V1.
  match type of V2 with _ = finv (addR ?y (addR (addR (addR (addR _ ?a) ?b) ?c) ?d)) => change (st_velocity d2 = finv (addR y (sumR a b c d))) in V2 end. rewrite sum_2 in V2.
  match type of V3' with _ = finv (addR ?y (addR (addR (addR (addR _ ?a) ?b) ?c) ?d)) => change (st_velocity d3 = finv (addR y (sumR a b c d))) in V3' end. rewrite sum_3 in V3'.
  match type of V4 with _ = finv (addR ?y (addR (addR (addR (addR _ ?a) ?b) ?c) ?d)) => change (st_velocity s' = finv (addR y (sumR a b c d))) in V4 end. rewrite sum_4 in V4.
  rewrite ?V0 in X1, X2, X3, X4. rewrite ?V1 in X2, X3, X4. rewrite ?V2 in X3, X4. rewrite ?V3' in X4.
  rewrite ?vscale_fin, ?vadd_fin in X0. rewrite ?vscale_fin, ?vadd_fin in X1. rewrite ?vscale_fin, ?vadd_fin in X2. rewrite ?vscale_fin, ?vadd_fin in X3. rewrite ?vscale_fin, ?vadd_fin in X4.
  rewrite P0 in X0. rewrite P1 in X1. rewrite P2 in X2. rewrite P3 in X3. apply finv_inj in X0, X1, X2, X3.
  match type of X0 with _ = addR ?y _ => change (r0 = addR y (sumR O O O O)) in X0 end. rewrite sum_0 in X0.
  match type of X1 with _ = addR ?y (addR (addR (addR (addR _ ?a) ?b) ?c) ?d) => change (r1 = addR y (sumR a b c d)) in X1 end. rewrite sum_1 in X1.
  match type of X2 with _ = addR ?y (addR (addR (addR (addR _ ?a) ?b) ?c) ?d) => change (r2 = addR y (sumR a b c d)) in X2 end. rewrite sum_2 in X2.
  match type of X3 with _ = addR ?y (addR (addR (addR (addR _ ?a) ?b) ?c) ?d) => change (r3 = addR y (sumR a b c d)) in X3 end. rewrite sum_3 in X3.
  match type of X4 with _ = finv (addR ?y (addR (addR (addR (addR _ ?a) ?b) ?c) ?d)) => change (st_position s' = finv (addR y (sumR a b c d))) in X4 end. rewrite sum_4 in X4.
  subst r0. rewrite X4, V4. unfold rk4_second. cbn [fst snd]. rewrite <- X2, <- X1, <- X3. split; reflexivity.
Qed.

(** ** C63, exact arithmetic *)
(** Every record of every mission: in a phase without engines and without atmosphere, as long as the reported time advances by
    whole seconds and the numbers stay finite, the records are exactly the flight computed from the first of them. *)
Theorem C63_exact : forall fuel (cs : list (PhaseConfig N)) ev st a i h b n Re Rp mu J2 J3 J4 w (g : vec3 R -> vec3 R) s1 x1 v1,
  simulate fuel cs = (ev, st) -> block ev a i h b -> engines_in_effect cs i = [] -> atmosphere_in_effect cs i = false ->
  planet_data (planet_in_effect cs i) Re Rp mu J2 J3 J4 w ->
  (forall x, x <> zeroR -> gradient (potential mu J2 J3 J4 Re) x (g x)) ->
  (forall k s, (k <= n)%nat -> nth_error h k = Some s -> st_time_since_event s = Fin (INR k + 1) /\ exists v, st_velocity s = finv v) ->
  nth_error h 0 = Some s1 -> st_position s1 = finv x1 -> st_velocity s1 = finv v1 ->
  forall k s, (k <= n)%nat -> nth_error h k = Some s ->
    st_position s = finv (fst (flight g k (x1, v1))) /\ st_velocity s = finv (snd (flight g k (x1, v1))).
Proof.
  intros fuel cs ev st a i h b n Re Rp mu0 J2 J3 J4 w g s1 x1 v1 H Bl He Ha D Hg Hr H1 Ex Ev.
  induction k as [|k IH]; intros s Hk Hs.
  { rewrite H1 in Hs. injection Hs as <-. split; [exact Ex|exact Ev]. }
  assert (Hq : exists s0, nth_error h k = Some s0).
  { destruct (nth_error h k) as [s0|] eqn:E0; [now exists s0|]. apply nth_error_None in E0. assert (nth_error h (S k) = None) by (apply nth_error_None; lia). congruence. }
  destruct Hq as [s0 H0]. destruct (IH s0 ltac:(lia) H0) as [X0 V0].
  pose (val := fun t : N => match t with Fin r => r | _ => 0 end).
  assert (L0 : val (n_lit 0 0) = 0) by (destruct lit_fin as [E _]; rewrite E; reflexivity).
  assert (TS : forall k s, (k <= n)%nat -> nth_error h k = Some s -> val (st_time_since_event s) = INR k + 1).
  { intros k0 s2 Q1 Q2. destruct (Hr k0 s2 Q1 Q2) as [E _]. rewrite E. reflexivity. }
  destruct (record_seconds val fuel cs ev st a i h b n L0 H Bl TS k s0 s ltac:(lia) H0 Hs) as (p & q & Bp & Z1 & Z2).
  destruct Z1 as (P1 & _ & P3 & P4 & _). destruct (Hr _ _ Hk Hs) as [_ [v Ev']].
  assert (Q1 : ve_engines (ph_vehicle q) = []) by (rewrite P1, (f_engines _ _ (C28_effective _ _ Bp)); exact He).
  assert (Q2 : at_model (ph_atmosphere q) = NoAtmosphere) by (now rewrite P3, (atmosphere_effective _ _ _ Bp), Ha).
  assert (Q3 : real_planet (ph_planet q) Re Rp mu0 J2 J3 J4 w) by (unfold real_planet; rewrite P4, (planet_effective _ _ _ Bp); now apply planet_data_is).
  cbn [flight]. destruct (flight g k (x1, v1)) as [X V]. cbn [fst snd] in X0, V0.
  exact (exact_second q s0 s Re Rp mu0 J2 J3 J4 w X V v Q1 Q2 Q3 Z2 X0 V0 Ev' g Hg).
Qed.
End Exact.
