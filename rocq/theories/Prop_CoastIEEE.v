(** * C63: coasting flight in double precision stays near the trajectory of exact arithmetic

    IEEE binary64. A phase without engines and without atmosphere, flown in steps of one second. The specification is
    [flight] (RK4Error): the classical Runge-Kutta method for x'' = gradient of the potential, on real numbers. *)
From Coq Require Import ZArith List Reals Lra Lia Bool.
From Coquelicot Require Import Coquelicot.
From Coq Require Import List.
From Flocq Require Import Core BinarySingleNaN.
From Verif Require Import Num Constants State Tables Config Planet Atmosphere Transformations Steering Vehicle RungeKutta Phase Simulation
  XR XRFacts SpecReal SystemFacts SystemTotal B64 B64Facts RKFacts RunFacts PhaseNew Prop_Run Prop_Simulation Prop_Gravity Prop_InterpIEEE Prop_IEEE Rounding
  Prop_Mission Prop_GravityIEEE FieldBounds RK4Error Prop_CoastExact StepIEEE CoastStep.
Import ListNotations.
Local Open Scope R_scope.

(** How far rounding can carry the flight away in [k] seconds, at distances up to [M] and speeds up to [W]. *)
Definition drift (M W G lam : R) (k : nat) : R := INR k * exp (lam * INR k) * (4 * M + (16 * W + 160 * G) / lam) * bpow radix2 (-53).

Lemma drift_pos : forall M W G lam k, 0 <= M -> 0 <= W -> 0 <= G -> 0 < lam -> 0 <= drift M W G lam k.
Proof.
  intros M W G lam k HM HW HG Hl. unfold drift. assert (A := pos_INR k). assert (B := exp_pos (lam * INR k)). assert (C := bpow_gt_0 radix2 (-53)).
  assert (D : 0 <= (16 * W + 160 * G) / lam) by (apply Rmult_le_pos; [lra|left; now apply Rinv_0_lt_compat]).
  repeat apply Rmult_le_pos; lra.
Qed.
Lemma drift_step : forall M W G lam k w, 0 <= M -> 0 <= W -> 0 <= G -> 0 < lam ->
  w <= lam * drift M W G lam k ->
  exp lam * w + 11 / 10 * (lam * (3 * M * u53) + 14 * W * u53 + 140 * G * u53) <= lam * drift M W G lam (S k).
Proof.
  intros M W G lam k w HM HW HG Hl Hw. unfold drift in *. change (bpow radix2 (-53)) with u53 in *. assert (U := u53_pos).
  rewrite S_INR. set (n := INR k) in *. assert (Pn : 0 <= n) by apply pos_INR.
  set (D := (4 * M + (16 * W + 160 * G) / lam)) in *.
  assert (LD : lam * D = 4 * (lam * M) + 16 * W + 160 * G) by (unfold D; field; lra).
  assert (LM : 0 <= lam * M) by (apply Rmult_le_pos; lra).
  assert (P : exp (lam * (n + 1)) = exp lam * exp (lam * n)) by (rewrite <- exp_plus; f_equal; ring).
  assert (X1 : exp lam * w <= exp lam * (lam * (n * exp (lam * n) * D * u53))) by (apply Rmult_le_compat_l; [left; apply exp_pos|exact Hw]).
  assert (X2 : 11 / 10 * (lam * (3 * M * u53) + 14 * W * u53 + 140 * G * u53) <= lam * D * u53).
  { rewrite LD. replace (11 / 10 * (lam * (3 * M * u53) + 14 * W * u53 + 140 * G * u53)) with (11 / 10 * (3 * (lam * M) + 14 * W + 140 * G) * u53) by ring.
    apply Rmult_le_compat_r; lra. }
  assert (Q : 0 <= lam * D * u53) by (apply Rmult_le_pos; [rewrite LD; lra|lra]).
  assert (X3 : 1 <= exp (lam * (n + 1))).
  { assert (Z : 0 < lam * (n + 1)) by (apply Rmult_lt_0_compat; lra). apply exp_increasing in Z. rewrite exp_0 in Z. lra. }
  assert (X4 : 1 * (lam * D * u53) <= exp (lam * (n + 1)) * (lam * D * u53)) by (apply Rmult_le_compat_r; assumption).
  replace (lam * ((n + 1) * exp (lam * (n + 1)) * D * u53)) with (exp lam * (lam * (n * exp (lam * n) * D * u53)) + exp (lam * (n + 1)) * (lam * D * u53)); [lra|].
  rewrite P. ring.
Qed.
Lemma drift_mono : forall M W G lam k n, 0 <= M -> 0 <= W -> 0 <= G -> 0 < lam -> (k <= n)%nat -> drift M W G lam k <= drift M W G lam n.
Proof.
  intros M W G lam k n HM HW HG Hl H. unfold drift. apply le_INR in H. assert (A := pos_INR k). assert (C := bpow_gt_0 radix2 (-53)).
  assert (D : 0 <= (16 * W + 160 * G) / lam) by (apply Rmult_le_pos; [lra|left; now apply Rinv_0_lt_compat]).
  apply Rmult_le_compat_r; [lra|]. apply Rmult_le_compat_r; [lra|]. apply Rmult_le_compat; try lra.
  - left. apply exp_pos.
  - assert (E : lam * INR k <= lam * INR n) by (apply Rmult_le_compat_l; lra). destruct E as [E|E]; [left; now apply exp_increasing|rewrite E; lra].
Qed.

Section IEEE.
Variable lm : libm.
Notation N := (B64 lm).
Local Notation lit m := (b64_lit m 0).

(** ** C63 *)
(** The circumstances: gravity [mu / R0^2] small against the speed, speeds small against the distance, as in every flight
    above the surface of the Earth; the flattening terms small, as they are in both built-in Earth models. *)
Record circumstances (planet : Planet N) (Re mu J2 J3 J4 R0 M W lam : R) : Prop := {
  c_planet : ordinary_planet lm planet Re mu J2 J3 J4;
  c_J2 : Rabs J2 <= 1 / 500; c_J3 : Rabs J3 <= 1 / 10000; c_J4 : Rabs J4 <= 1 / 10000;
  c_R0 : bpow radix2 (-90) <= R0 <= bpow radix2 90; c_M : bpow radix2 (-90) <= M <= bpow radix2 90; c_W : bpow radix2 (-90) <= W <= bpow radix2 90;
  c_Re : Re <= 21 / 20 * R0; c_RM : R0 <= M <= 1000000 * R0; c_WR : 2 * (mu / R0 ^ 2) <= W <= R0 / 50;
  c_lam : 0 < lam <= / 10; c_rate : lam ^ 2 = 7 * mu / R0 ^ 3 }.
(** Finite numbers, not closer than [R0] nor farther than [M], not faster than [W]. *)
Definition in_range (R0 M W : R) (s : State N) : Prop :=
  finite_vector (st_position s) /\ finite_vector (st_velocity s) /\ R0 <= normR (realv (st_position s)) <= M /\ normR (realv (st_velocity s)) <= W.

(** Finite numbers. *)
Definition finite_state (s : State N) : Prop := finite_vector (st_position s) /\ finite_vector (st_velocity s).

Lemma seconds_near : forall (planet : Planet N) Re mu J2 J3 J4 R0 M W lam (g : vec3 R -> vec3 R) n (h : list (State N)) s1,
  circumstances planet Re mu J2 J3 J4 R0 M W lam -> (forall x, x <> zeroR -> gradient (potential mu J2 J3 J4 Re) x (g x)) ->
  (forall k s, (k <= n)%nat -> nth_error h k = Some s -> finite_state s) ->
  (forall k s, (k < n)%nat -> nth_error h k = Some s -> in_range R0 M W s) ->
  (forall k s s', (k < n)%nat -> nth_error h k = Some s -> nth_error h (S k) = Some s' -> exists q : Phase N,
     ve_engines (ph_vehicle q) = [] /\ at_model (ph_atmosphere q) = NoAtmosphere /\ ph_planet q = planet /\ integrator_step (system q) s (lit 1 : N) = Ret s') ->
  drift M W (mu / R0 ^ 2) lam n <= R0 / 100 -> nth_error h 0 = Some s1 ->
  forall k s, (k <= n)%nat -> nth_error h k = Some s -> exists a b,
    close a (realv (st_position s)) (fst (flight g k (realv (st_position s1), realv (st_velocity s1)))) /\
    close b (realv (st_velocity s)) (snd (flight g k (realv (st_position s1), realv (st_velocity s1)))) /\
    lam * a + b <= lam * drift M W (mu / R0 ^ 2) lam k.
Proof.
  intros planet Re mu J2 J3 J4 R0 M W lam g n h s1 C Hg Hf Hr Hs Hd H1.
  destruct C as [OP HJ2 HJ3 HJ4 BR BM BW ReR [RM MR] [GW WR] Hl Hl2].
  change (between 90 R0) in BR. change (between 90 M) in BM. change (between 90 W) in BW.
  assert (PR := between_pos _ _ BR). assert (PW := between_pos _ _ BW). assert (PM := between_pos _ _ BM).
  assert (Pm : 0 < mu) by (apply (between_pos 300); apply OP).
  assert (GP : 0 < mu / R0 ^ 2) by (apply Rdiv_lt_0_compat; [exact Pm|now apply pow_lt]).
  set (G := mu / R0 ^ 2) in *. set (fg := grav mu J2 J3 J4 Re).
  assert (Eg : forall x, 24 / 25 * R0 <= normR x -> fg x = g x).
  { intros x Hx. assert (x <> zeroR) by (intros ->; rewrite normR_zeroR in Hx; lra).
    apply (gradient_unique (potential mu J2 J3 J4 Re) x); [now apply grav_gradient|now apply Hg]. }
  induction k as [|k IH]; intros s Hk H.
  { rewrite H1 in H. injection H as <-. exists 0, 0. cbn [flight fst snd]. split; [apply close_refl|split; [apply close_refl|]].
    assert (X := drift_pos M W G lam 0 ltac:(lra) ltac:(lra) ltac:(lra) ltac:(lra)). assert (0 <= lam * drift M W G lam 0) by (apply Rmult_le_pos; lra). lra. }
  assert (Hq : exists s0, nth_error h k = Some s0).
  { destruct (nth_error h k) as [s0|] eqn:E0; [now exists s0|]. apply nth_error_None in E0. assert (nth_error h (S k) = None) by (apply nth_error_None; lia). congruence. }
  destruct Hq as [s0 H0]. destruct (IH s0 ltac:(lia) H0) as (a & b & Ca & Cb & L).
  destruct (Hr k s0 ltac:(lia) H0) as (Fx & Fv & Rx & Rv). destruct (Hf (S k) s Hk H) as (_ & Fv').
  destruct (Hs k s0 s ltac:(lia) H0 H) as (q & He & Ha & Ep & St).
  assert (OPq : ordinary_planet lm (ph_planet q) Re mu J2 J3 J4) by (rewrite Ep; exact OP).
  destruct (coast_step lm q Re mu J2 J3 J4 R0 M W lam He Ha OPq HJ2 HJ3 HJ4 BR BM BW RM WR GW ReR MR Hl Hl2 s0 s St Fx Fv Fv' Rx Rv)
    as (a1 & x2 & v2 & a2 & x3 & v3 & a3 & x4 & v4 & a4 & I & S2 & S3 & S4).
  cbn [flight]. set (XV := flight g k (realv (st_position s1), realv (st_velocity s1))) in *. destruct XV as [X V]. cbn [fst snd] in Ca, Cb.
  set (x := realv (st_position s0)) in *. set (v := realv (st_velocity s0)) in *.
  assert (Pa : 0 <= a) by (unfold close in Ca; assert (Z := normR_ge0 (subR x X)); lra).
  assert (Pb : 0 <= b) by (unfold close in Cb; assert (Z := normR_ge0 (subR v V)); lra).
  assert (DD : drift M W G lam k <= R0 / 100).
  { eapply Rle_trans; [apply (drift_mono M W G lam k n); try lra; lia|exact Hd]. }
  assert (La : a <= R0 / 100).
  { apply (Rmult_le_reg_l lam); [lra|]. assert (lam * drift M W G lam k <= lam * (R0 / 100)) by (apply Rmult_le_compat_l; lra). lra. }
  assert (Lb : b <= R0 / 1000).
  { assert (lam * drift M W G lam k <= / 10 * (R0 / 100)) by (apply Rmult_le_compat; try lra; apply drift_pos; lra).
    assert (0 <= lam * a) by (apply Rmult_le_pos; lra). lra. }
  destruct (close_far _ _ _ Ca) as [Xlo _]. destruct (close_far _ _ _ Cb) as [_ Vhi].
  assert (Glim : G <= R0 / 700).
  { assert (Y : lam ^ 2 <= (/ 10) ^ 2) by (apply pow_incr; lra). rewrite Hl2 in Y.
    unfold G. replace (mu / R0 ^ 2) with (7 * mu / R0 ^ 3 * (R0 / 7)) by (field; lra). replace (R0 / 700) with ((/ 10) ^ 2 * (R0 / 7)) by field.
    apply Rmult_le_compat_r; lra. }
  assert (FM : forall y, 24 / 25 * R0 <= normR y -> normR (fg y) <= 131 / 100 * G).
  { intros y Hy. apply (field_max lm q Re mu J2 J3 J4 R0 M) with (1 := OPq); try assumption. }
  assert (FL : forall y z, 24 / 25 * R0 <= normR y -> 24 / 25 * R0 <= normR z -> normR (subR (fg y) (fg z)) <= lam ^ 2 * normR (subR y z)).
  { intros y z Hy Hz. apply (field_lip lm q Re mu J2 J3 J4 R0 M lam) with (1 := OPq); assumption. }
  assert (OUT : forall d, normR d <= 3 / 100 * R0 -> 24 / 25 * R0 <= normR (addR X d)).
  { intros d Hdd. assert (A := norm_from X (addR X d)).
    assert (E : subR (addR X d) X = d) by (destruct d as [d0 d1 d2]; unfold subR, addR; cbn [vx vy vz]; f_equal; ring).
    rewrite norm_sub_comm, E in A. lra. }
  assert (Q1 : 24 / 25 * R0 <= normR X) by lra.
  assert (HS : forall y, normR (scaleR (1 / 2) y) = 1 / 2 * normR y) by (intros y; rewrite normR_scale, Rabs_pos_eq by lra; reflexivity).
  assert (Q2 : 24 / 25 * R0 <= normR (addR X (scaleR (1 / 2) V))) by (apply OUT; rewrite HS; lra).
  assert (Q3 : 24 / 25 * R0 <= normR (addR X (scaleR (1 / 2) (addR V (scaleR (1 / 2) (fg X)))))).
  { apply OUT. rewrite HS. assert (A := norm_add V (scaleR (1 / 2) (fg X))). rewrite HS in A. assert (B := FM X Q1). lra. }
  assert (Q4 : 24 / 25 * R0 <= normR (addR X (addR V (scaleR (1 / 2) (fg (addR X (scaleR (1 / 2) V))))))).
  { apply OUT. assert (A := norm_add V (scaleR (1 / 2) (fg (addR X (scaleR (1 / 2) V))))). rewrite HS in A. assert (B := FM _ Q2). lra. }
  assert (U := u53_pos).
  destruct (second_error fg (24 / 25 * R0) lam (3 * M * u53) (14 * W * u53) (140 * G * u53) FL Hl
    ltac:(apply Rmult_le_pos; lra) ltac:(apply Rmult_le_pos; lra) ltac:(apply Rmult_le_pos; lra)
    _ _ _ _ _ _ _ _ _ _ _ _ _ _ X V a b I Ca Cb ltac:(lra) S2 S3 S4 Q1 Q2 Q3 Q4) as (a' & b' & Ca' & Cb' & L').
  rewrite <- (rk4_ext fg g X V); [|now apply Eg..].
  exists a', b'. split; [exact Ca'|split; [exact Cb'|]]. eapply Rle_trans; [exact L'|].
  apply drift_step; lra.
Qed.

(** Every record of every mission: in a phase without engines and without atmosphere, as long as the reported time advances
    by whole seconds, the reported positions and velocities stay within [drift k] metres and [lam * drift k] metres per second
    of the flight computed without rounding from the first record. The record itself may be out of range. *)
Theorem C63_next : forall fuel (cs : list (PhaseConfig N)) ev st a i h b n Re mu J2 J3 J4 R0 M W lam (g : vec3 R -> vec3 R) s1,
  simulate fuel cs = (ev, st) -> block ev a i h b -> engines_in_effect cs i = [] -> atmosphere_in_effect cs i = false ->
  circumstances (planet_update_with_config (planet_in_effect cs i)) Re mu J2 J3 J4 R0 M W lam ->
  (forall x, x <> zeroR -> gradient (potential mu J2 J3 J4 Re) x (g x)) ->
  (forall k s, (k <= n)%nat -> nth_error h k = Some s -> B2R (st_time_since_event s) = INR k + 1 /\ finite_state s) ->
  (forall k s, (k < n)%nat -> nth_error h k = Some s -> in_range R0 M W s) ->
  drift M W (mu / R0 ^ 2) lam n <= R0 / 100 -> nth_error h 0 = Some s1 ->
  forall k s, (k <= n)%nat -> nth_error h k = Some s ->
    let exact := flight g k (realv (st_position s1), realv (st_velocity s1)) in
    normR (subR (realv (st_position s)) (fst exact)) <= drift M W (mu / R0 ^ 2) lam k /\
    normR (subR (realv (st_velocity s)) (snd exact)) <= lam * drift M W (mu / R0 ^ 2) lam k.
Proof.
  intros fuel cs ev st a i h b n Re mu J2 J3 J4 R0 M W lam g s1 H Bl He Ha C Hg Hr IR Hd H1 k s Hk Hs exact_.
  assert (FS : forall k s, (k <= n)%nat -> nth_error h k = Some s -> finite_state s) by (intros k0 s2 Q1 Q2; exact (proj2 (Hr k0 s2 Q1 Q2))).
  assert (TS : forall k s, (k <= n)%nat -> nth_error h k = Some s -> B2R (st_time_since_event s) = INR k + 1) by (intros k0 s2 Q1 Q2; exact (proj1 (Hr k0 s2 Q1 Q2))).
  assert (ST : forall k s s', (k < n)%nat -> nth_error h k = Some s -> nth_error h (S k) = Some s' -> exists q : Phase N,
     ve_engines (ph_vehicle q) = [] /\ at_model (ph_atmosphere q) = NoAtmosphere /\ ph_planet q = planet_update_with_config (planet_in_effect cs i) /\
     integrator_step (system q) s (lit 1 : N) = Ret s').
  { intros k0 s2 s3 Q1 Q2 Q3.
    destruct (record_seconds (N := N) (fun x : N => B2R (x : b64)) fuel cs ev st a i h b n (proj2 val_0) H Bl TS k0 s2 s3 Q1 Q2 Q3) as (p & q & Bp & Z1 & Z2).
    exists q. destruct Z1 as (P1 & _ & P3 & P4 & _). rewrite P1, P3, P4.
    split; [rewrite (f_engines _ _ (C28_effective _ _ Bp)); exact He|]. split; [now rewrite (atmosphere_effective _ _ _ Bp), Ha|]. split; [|exact Z2].
    rewrite (f_planet _ _ (C28_effective _ _ Bp)). change EARTH_SPHERICAL with (planet_update_with_config (N := N) Spherical). apply last_configured_map. }
  destruct (seconds_near _ Re mu J2 J3 J4 R0 M W lam g n h s1 C Hg FS IR ST Hd H1 k s Hk Hs) as (da & db & K1 & K2 & K3).
  assert (Hl := c_lam _ _ _ _ _ _ _ _ _ _ C). fold exact_ in K1, K2. unfold close in K1, K2.
  assert (Pa := normR_ge0 (subR (realv (st_position s)) (fst exact_))). assert (Pb := normR_ge0 (subR (realv (st_velocity s)) (snd exact_))).
  assert (0 <= lam * da) by (apply Rmult_le_pos; lra).
  split; [|lra]. eapply Rle_trans; [exact K1|]. apply (Rmult_le_reg_l lam); lra.
Qed.
(** In particular as long as the records are in range. *)
Theorem C63_records : forall fuel (cs : list (PhaseConfig N)) ev st a i h b n Re mu J2 J3 J4 R0 M W lam (g : vec3 R -> vec3 R) s1,
  simulate fuel cs = (ev, st) -> block ev a i h b -> engines_in_effect cs i = [] -> atmosphere_in_effect cs i = false ->
  circumstances (planet_update_with_config (planet_in_effect cs i)) Re mu J2 J3 J4 R0 M W lam ->
  (forall x, x <> zeroR -> gradient (potential mu J2 J3 J4 Re) x (g x)) ->
  (forall k s, (k <= n)%nat -> nth_error h k = Some s -> B2R (st_time_since_event s) = INR k + 1 /\ in_range R0 M W s) ->
  drift M W (mu / R0 ^ 2) lam n <= R0 / 100 -> nth_error h 0 = Some s1 ->
  forall k s, (k <= n)%nat -> nth_error h k = Some s ->
    let exact := flight g k (realv (st_position s1), realv (st_velocity s1)) in
    normR (subR (realv (st_position s)) (fst exact)) <= drift M W (mu / R0 ^ 2) lam k /\
    normR (subR (realv (st_velocity s)) (snd exact)) <= lam * drift M W (mu / R0 ^ 2) lam k.
Proof.
  intros fuel cs ev st a i h b n Re mu J2 J3 J4 R0 M W lam g s1 H Bl He Ha C Hg Hr Hd H1.
  apply (C63_next fuel cs ev st a i h b n Re mu J2 J3 J4 R0 M W lam g s1); auto.
  - intros k s Hk Hs. destruct (Hr k s Hk Hs) as (T & F1 & F2 & _). split; [exact T|split; assumption].
  - intros k s Hk Hs. now apply (Hr k s ltac:(lia)).
Qed.
End IEEE.
