(** * C67: coasting flight obeys Kepler's laws

    Around a planet without oblateness the records of a coasting phase are near the ellipse that starts at the first
    record. The specification is in Kepler.v; [drift] and [gap] are the bounds of C63 and C65. *)
From Coq Require Import ZArith List Reals Lra Lia Bool.
From Coquelicot Require Import Coquelicot.
From Coq Require Import List.
From Flocq Require Import Core BinarySingleNaN.
From Verif Require Import Num Constants State Tables Config Planet Atmosphere Transformations Steering Vehicle RungeKutta Phase Simulation
  XR XRFacts SpecReal SystemFacts B64 B64Facts Prop_Run Prop_Simulation Prop_Gravity Prop_InterpIEEE Prop_IEEE Rounding
  Prop_Mission Prop_RealSim Prop_GravityIEEE FieldBounds RK4Error Prop_CoastExact StepIEEE CoastStep Prop_CoastIEEE Motion Prop_Motion Prop_MotionNewton Kepler.
Import ListNotations.
Local Open Scope R_scope.

(** The state [x0], [v0] is on an ellipse that stays between the distances [R0] and [M]; a body there with its energy is not
    faster than [W]. *)
Definition elliptic (mu R0 M W : R) (x0 v0 : vec3 R) : Prop :=
  x0 <> zeroR /\ energy mu x0 v0 < 0 /\ momentum x0 v0 <> zeroR /\ R0 <= perigee mu x0 v0 /\ apogee mu x0 v0 <= M /\
  0 <= W /\ 2 * (energy mu x0 v0 + mu / R0) <= W ^ 2.
(** The motion on the ellipse. *)
Definition kepler_orbit (mu : R) (x0 v0 : vec3 R) (x v : R -> vec3 R) : Prop := x 0 = x0 /\ v 0 = v0 /\
  (forall t, is_derive3 x t (v t) /\ is_derive3 v t (newton mu (x t))) /\
  (forall t, perigee mu x0 v0 <= normR (x t) <= apogee mu x0 v0) /\
  (forall t, energy mu (x t) (v t) = energy mu x0 v0 /\ momentum (x t) (v t) = momentum x0 v0) /\
  (forall t, let T := 2 * PI * sqrt (semi_major mu x0 v0 ^ 3 / mu) in x (t + T) = x t /\ v (t + T) = v t).

Lemma orbit_exists : forall mu R0 M W x0 v0, 0 < mu -> elliptic mu R0 M W x0 v0 -> exists x v, kepler_orbit mu x0 v0 x v.
Proof. intros mu R0 M W x0 v0 Pm (H1 & H2 & H3 & _). exact (kepler_motion mu x0 v0 Pm H1 H2 H3). Qed.
Lemma orbit_between : forall mu R0 M W x0 v0 x v, 0 < mu -> 0 < R0 -> elliptic mu R0 M W x0 v0 -> kepler_orbit mu x0 v0 x v ->
  forall t, R0 <= normR (x t) <= M /\ normR (v t) <= W.
Proof.
  intros mu R0 M W x0 v0 x v Pm P0 (_ & _ & _ & Hp & Ha & PW & HW) (_ & _ & _ & D & E & _) t.
  destruct (D t) as [D1 D2]. destruct (E t) as [E1 _]. split; [lra|].
  apply Rsqr_incr_0_var; [|exact PW]. unfold Rsqr. rewrite normR_sq.
  assert (Ed : dotR (v t) (v t) = 2 * (energy mu (x t) (v t) + mu / normR (x t))) by (unfold energy; field; lra).
  assert (mu / normR (x t) <= mu / R0). { apply Rmult_le_compat_l; [lra|]. apply Rinv_le_contravar; lra. }
  rewrite Ed, E1. lra.
Qed.
Lemma orbit_falls : forall mu x0 v0 x v T, kepler_orbit mu x0 v0 x v -> free_fall (newton mu) T x v.
Proof. intros mu x0 v0 x v T (_ & _ & D & _) t _. apply D. Qed.

(** How much energy and angular momentum differ between near states. *)
Lemma energy_near : forall mu R0 W x v y w, 0 < mu -> 0 < R0 -> R0 <= normR x -> R0 <= normR y -> normR v <= W -> normR w <= W ->
  Rabs (energy mu x v - energy mu y w) <= W * normR (subR v w) + mu / R0 ^ 2 * normR (subR x y).
Proof.
  intros mu R0 W x v y w Pm P0 Hx Hy Hv Hw. unfold energy.
  replace (dotR v v / 2 - mu / normR x - (dotR w w / 2 - mu / normR y)) with ((dotR v v - dotR w w) / 2 + (mu / normR y - mu / normR x)) by lra.
  eapply Rle_trans; [apply Rabs_triang|]. apply Rplus_le_compat.
  - replace ((dotR v v - dotR w w) / 2) with (dotR (subR v w) (addR v w) * / 2) by (unfold dotR, subR, addR; cbn [vx vy vz]; field).
    rewrite Rabs_mult, (Rabs_pos_eq (/ 2)) by lra. assert (C := cauchy_abs (subR v w) (addR v w)). assert (A := norm_add v w). assert (Z := normR_ge0 (subR v w)).
    assert (normR (subR v w) * normR (addR v w) <= normR (subR v w) * (2 * W)) by (apply Rmult_le_compat_l; lra). lra.
  - replace (mu / normR y - mu / normR x) with (mu * (/ normR y * / normR x) * (normR x - normR y)) by (field; lra).
    rewrite Rabs_mult. assert (J : 0 < / normR y * / normR x) by (apply Rmult_lt_0_compat; apply Rinv_0_lt_compat; lra).
    rewrite (Rabs_pos_eq (mu * _)) by (apply Rmult_le_pos; lra).
    assert (Q : Rabs (normR x - normR y) <= normR (subR x y)).
    { assert (A := norm_from x y). assert (B := norm_from y x). rewrite (norm_sub_comm y x) in B. apply Rabs_le. lra. }
    replace (mu / R0 ^ 2) with (mu * (/ R0 * / R0)) by (field; lra).
    apply Rmult_le_compat; [apply Rmult_le_pos; lra|apply Rabs_pos| |exact Q]. apply Rmult_le_compat_l; [lra|].
    apply Rmult_le_compat; try (left; apply Rinv_0_lt_compat; lra); apply Rinv_le_contravar; lra.
Qed.
Lemma momentum_near : forall M W x v y w, normR y <= M -> normR v <= W ->
  normR (subR (momentum x v) (momentum y w)) <= W * normR (subR x y) + M * normR (subR v w).
Proof.
  assert (N : forall a b, normR (crossR a b) <= normR a * normR b).
  { intros a b. apply Rsqr_incr_0_var; [|apply Rmult_le_pos; apply normR_ge0]. unfold Rsqr. rewrite normR_sq, lagrange_identity.
    replace (normR a * normR b * (normR a * normR b)) with ((normR a * normR a) * (normR b * normR b)) by ring. rewrite !normR_sq. assert (X := Rle_0_sqr (dotR a b)). unfold Rsqr in X. lra. }
  intros M W x v y w Hy Hv. unfold momentum.
  replace (subR (crossR x v) (crossR y w)) with (addR (crossR (subR x y) v) (crossR y (subR v w))) by (unfold crossR, subR, addR; cbn [vx vy vz]; f_equal; ring).
  eapply Rle_trans; [apply norm_add|]. apply Rplus_le_compat; (eapply Rle_trans; [apply N|]).
  - rewrite Rmult_comm. apply Rmult_le_compat_r; [apply normR_ge0|exact Hv].
  - apply Rmult_le_compat_r; [apply normR_ge0|exact Hy].
Qed.

(** ** C67 *)
Section IEEE.
Variable lm : libm.
Notation N := (B64 lm).
(** How far the records are from the ellipse after [k] seconds. *)
Definition spread (mu R0 M W lam : R) (k : nat) : R :=
  drift M W (mu / R0 ^ 2) lam k + gap W (mu / R0 ^ 2) (mu * (6 * W ^ 2 / R0 ^ 4 + 2 * mu / R0 ^ 5)) lam 0 k / lam.

Lemma spread_pos : forall (planet : Planet N) Re mu R0 M W lam k, circumstances lm planet Re mu 0 0 0 R0 M W lam ->
  0 <= mu * (6 * W ^ 2 / R0 ^ 4 + 2 * mu / R0 ^ 5) /\ 0 <= spread mu R0 M W lam k.
Proof.
  intros planet Re mu R0 M W lam k C. assert (O := circumstances_data lm _ _ _ _ _ _ _ _ _ _ C).
  assert (Pm := o_mu _ _ _ _ _ _ _ _ O). assert (P0 := o_R0 _ _ _ _ _ _ _ _ O). assert (Hl := o_lam _ _ _ _ _ _ _ _ O). destruct (o_WR _ _ _ _ _ _ _ _ O) as [GW WR].
  assert (PG : 0 < mu / R0 ^ 2) by (apply Rdiv_lt_0_compat; [exact Pm|now apply pow_lt]).
  assert (PM : 0 <= M) by (assert (Z := c_RM _ _ _ _ _ _ _ _ _ _ _ C); lra). unfold spread.
  set (KK := mu * (6 * W ^ 2 / R0 ^ 4 + 2 * mu / R0 ^ 5)).
  assert (PK : 0 <= KK).
  { unfold KK. apply Rmult_le_pos; [lra|]. apply Rplus_le_le_0_compat; (apply Rmult_le_pos; [|left; apply Rinv_0_lt_compat; now apply pow_lt]).
    - assert (Z := pow2_ge_0 W). lra.
    - lra. }
  split; [exact PK|]. apply Rplus_le_le_0_compat; [assert (Y := drift_pos); apply Y; lra|]. apply Rmult_le_pos; [|left; apply Rinv_0_lt_compat; lra].
  unfold gap. apply Rmult_le_pos; [left; apply exp_pos|]. assert (T := gap_rate W (mu / R0 ^ 2) KK lam ltac:(lra) ltac:(lra) PK).
  assert (0 <= INR k * (2 / 5 * KK + lam ^ 2 * (6 / 5 * (mu / R0 ^ 2) + lam ^ 2 * W) / 10)) by (apply Rmult_le_pos; [apply pos_INR|exact T]). lra.
Qed.
(** In double precision: if the first record of a coasting phase is on an ellipse that stays between [R0] and [M], the records
    are near it, as long as they are numbers and one second apart. *)
Theorem C67_ellipse : forall fuel (cs : list (PhaseConfig N)) ev st a i h b n Re mu R0 M W lam s1,
  simulate fuel cs = (ev, st) -> block ev a i h b -> engines_in_effect cs i = [] -> atmosphere_in_effect cs i = false ->
  circumstances lm (planet_update_with_config (planet_in_effect cs i)) Re mu 0 0 0 R0 M W lam ->
  (forall k s, (k <= n)%nat -> nth_error h k = Some s -> B2R (st_time_since_event s) = INR k + 1 /\ finite_state lm s) ->
  let e := spread mu R0 M W lam n in e <= R0 / 100 ->
  nth_error h 0 = Some s1 -> elliptic mu (R0 + e) (M - e) (W - lam * e) (realv (st_position s1)) (realv (st_velocity s1)) ->
  exists x v, kepler_orbit mu (realv (st_position s1)) (realv (st_velocity s1)) x v /\
  forall k s, (k <= n)%nat -> nth_error h k = Some s -> in_range lm R0 M W s /\
    normR (subR (realv (st_position s)) (x (INR k))) <= spread mu R0 M W lam k /\
    normR (subR (realv (st_velocity s)) (v (INR k))) <= lam * spread mu R0 M W lam k.
Proof.
  intros fuel cs ev st a i h b n Re mu R0 M W lam s1 H Bl He Ha C Hr e Hs H1 El.
  assert (O := circumstances_data lm _ _ _ _ _ _ _ _ _ _ C).
  assert (Pm := o_mu _ _ _ _ _ _ _ _ O). assert (P0 := o_R0 _ _ _ _ _ _ _ _ O). assert (Hl := o_lam _ _ _ _ _ _ _ _ O). destruct (o_WR _ _ _ _ _ _ _ _ O) as [GW WR].
  assert (PG : 0 < mu / R0 ^ 2) by (apply Rdiv_lt_0_compat; [exact Pm|now apply pow_lt]).
  destruct (orbit_exists _ _ _ _ _ _ Pm El) as (x & v & K). exists x, v. split; [exact K|].
  set (KK := mu * (6 * W ^ 2 / R0 ^ 4 + 2 * mu / R0 ^ 5)) in *.
  destruct (spread_pos _ _ _ _ _ _ _ n C) as [PK Pe]. fold KK in PK. fold e in Pe.
  assert (Ple : 0 <= lam * e) by (apply Rmult_le_pos; lra).
  assert (D0 : lam * normR (subR (realv (st_position s1)) (x 0)) + normR (subR (realv (st_velocity s1)) (v 0)) <= 0).
  { destruct K as (-> & -> & _). assert (Z : forall y, normR (subR y y) = 0).
    { intros [y1 y2 y3]. replace (subR (V3 y1 y2 y3) (V3 y1 y2 y3)) with zeroR by (unfold subR, zeroR; cbn [vx vy vz]; f_equal; ring). apply normR_zeroR. }
    rewrite !Z. lra. }
  assert (P0' : 0 < R0 + e) by lra.
  assert (Out := orbit_between _ _ _ _ _ _ _ _ Pm P0' El K).
  assert (Mo : motion (newton mu) (INR n) KK x v).
  { apply newton_motion; auto.
    - now apply (orbit_falls _ _ _ _ _ _ K).
    - intros t _. destruct (Out t) as [A B]. lra. }
  assert (Hg : forall y, y <> zeroR -> gradient (potential mu 0 0 0 Re) y (newton mu y)) by (intros y Hy; now apply newton_gradient).
  intros k s Hk Hn.
  destruct (C65_whole lm fuel cs ev st a i h b n Re mu 0 0 0 R0 M W lam (newton mu) s1 KK x v 0 H Bl He Ha C Hg Hr H1 Mo D0 Hs (fun t _ => Out t) k s Hk Hn) as (A & B & V).
  unfold spread. fold KK. split; [exact A|split; [exact B|]]. eapply Rle_trans; [exact V|]. right. field. lra.
Qed.
(** Their energy and angular momentum are near those of the first record. *)
Theorem C67_conserved : forall fuel (cs : list (PhaseConfig N)) ev st a i h b n Re mu R0 M W lam s1,
  simulate fuel cs = (ev, st) -> block ev a i h b -> engines_in_effect cs i = [] -> atmosphere_in_effect cs i = false ->
  circumstances lm (planet_update_with_config (planet_in_effect cs i)) Re mu 0 0 0 R0 M W lam ->
  (forall k s, (k <= n)%nat -> nth_error h k = Some s -> B2R (st_time_since_event s) = INR k + 1 /\ finite_state lm s) ->
  let e := spread mu R0 M W lam n in e <= R0 / 100 ->
  nth_error h 0 = Some s1 -> elliptic mu (R0 + e) (M - e) (W - lam * e) (realv (st_position s1)) (realv (st_velocity s1)) ->
  forall k s, (k <= n)%nat -> nth_error h k = Some s ->
    Rabs (energy mu (realv (st_position s)) (realv (st_velocity s)) - energy mu (realv (st_position s1)) (realv (st_velocity s1)))
      <= (W * lam + mu / R0 ^ 2) * spread mu R0 M W lam k /\
    normR (subR (momentum (realv (st_position s)) (realv (st_velocity s))) (momentum (realv (st_position s1)) (realv (st_velocity s1))))
      <= (W + M * lam) * spread mu R0 M W lam k.
Proof.
  intros fuel cs ev st a i h b n Re mu R0 M W lam s1 H Bl He Ha C Hr e Hs H1 El k s Hk Hn.
  assert (K0 := C67_ellipse fuel cs ev st a i h b n Re mu R0 M W lam s1 H Bl He Ha C Hr Hs H1 El). cbv zeta in K0. destruct K0 as (x & v & K & Near).
  assert (O := circumstances_data lm _ _ _ _ _ _ _ _ _ _ C).
  assert (Pm := o_mu _ _ _ _ _ _ _ _ O). assert (P0 := o_R0 _ _ _ _ _ _ _ _ O). assert (Hl := o_lam _ _ _ _ _ _ _ _ O). destruct (o_WR _ _ _ _ _ _ _ _ O) as [GW WR].
  assert (PG : 0 < mu / R0 ^ 2) by (apply Rdiv_lt_0_compat; [exact Pm|now apply pow_lt]).
  destruct (Near k s Hk Hn) as ((_ & _ & [X1 X2] & X3) & A & B).
  assert (PM : 0 <= M) by (assert (Z := c_RM _ _ _ _ _ _ _ _ _ _ _ C); lra).
  destruct (Near 0%nat s1 ltac:(lia) H1) as (_ & E0 & _). assert (Z0 := normR_ge0 (subR (realv (st_position s1)) (x (INR 0)))).
  destruct (spread_pos _ _ _ _ _ _ _ n C) as [_ Pe]. fold e in Pe.
  assert (Ple : 0 <= lam * e) by (apply Rmult_le_pos; lra).
  assert (P0' : 0 < R0 + e) by lra.
  destruct (orbit_between _ _ _ _ _ _ _ _ Pm P0' El K (INR k)) as [[Y0 Y1] Y2].
  destruct K as (_ & _ & _ & _ & E & _). destruct (E (INR k)) as [E1 E2].
  split.
  - rewrite <- E1. eapply Rle_trans; [apply (energy_near mu R0 W); lra|].
    assert (W * normR (subR (realv (st_velocity s)) (v (INR k))) <= W * (lam * spread mu R0 M W lam k)) by (apply Rmult_le_compat_l; lra).
    assert (mu / R0 ^ 2 * normR (subR (realv (st_position s)) (x (INR k))) <= mu / R0 ^ 2 * spread mu R0 M W lam k) by (apply Rmult_le_compat_l; lra). lra.
  - rewrite <- E2. eapply Rle_trans; [apply (momentum_near M W); [lra|exact X3]|].
    assert (W * normR (subR (realv (st_position s)) (x (INR k))) <= W * spread mu R0 M W lam k) by (apply Rmult_le_compat_l; lra).
    assert (M * normR (subR (realv (st_velocity s)) (v (INR k))) <= M * (lam * spread mu R0 M W lam k)) by (apply Rmult_le_compat_l; lra). lra.
Qed.
End IEEE.

Section Exact.
Context {rot : mat3 xr -> mat3 xr}.
Notation N := (XR rot).
(** In exact arithmetic only the error of the Runge-Kutta method remains. *)
Theorem C67_exact : forall fuel (cs : list (PhaseConfig N)) ev st a i h b n Re Rp mu w R0 M W lam s1 x1 v1,
  simulate fuel cs = (ev, st) -> block ev a i h b -> engines_in_effect cs i = [] -> atmosphere_in_effect cs i = false ->
  planet_data (planet_in_effect cs i) Re Rp mu 0 0 0 w -> orbit_data Re mu 0 0 0 R0 W lam ->
  (forall k s, (k <= n)%nat -> nth_error h k = Some s -> st_time_since_event s = Fin (INR k + 1) /\ exists v, st_velocity s = finv v) ->
  nth_error h 0 = Some s1 -> st_position s1 = finv x1 -> st_velocity s1 = finv v1 -> elliptic mu R0 M W x1 v1 ->
  let K := mu * (6 * W ^ 2 / R0 ^ 4 + 2 * mu / R0 ^ 5) in gap W (mu / R0 ^ 2) K lam 0 n <= lam * (R0 / 100) ->
  exists x v, kepler_orbit mu x1 v1 x v /\
  forall k s, (k <= n)%nat -> nth_error h k = Some s -> exists xk vk, st_position s = finv xk /\ st_velocity s = finv vk /\
    lam * normR (subR xk (x (INR k))) + normR (subR vk (v (INR k))) <= gap W (mu / R0 ^ 2) K lam 0 k.
Proof.
  intros fuel cs ev st a i h b n Re Rp mu w R0 M W lam s1 x1 v1 H Bl He Ha PD O Hr H1 E1 E2 El K Hn.
  assert (Pm := o_mu _ _ _ _ _ _ _ _ O). assert (P0 := o_R0 _ _ _ _ _ _ _ _ O). assert (Hl := o_lam _ _ _ _ _ _ _ _ O).
  destruct (orbit_exists _ _ _ _ _ _ Pm El) as (x & v & Or). exists x, v. split; [exact Or|].
  assert (Out : outside (INR n) R0 W x v).
  { intros t _. destruct (orbit_between _ _ _ _ _ _ _ _ Pm P0 El Or t) as [A B]. lra. }
  assert (D0 : lam * normR (subR x1 (x 0)) + normR (subR v1 (v 0)) <= 0).
  { destruct Or as (-> & -> & _). assert (Z : forall y, normR (subR y y) = 0).
    { intros [y1 y2 y3]. replace (subR (V3 y1 y2 y3) (V3 y1 y2 y3)) with zeroR by (unfold subR, zeroR; cbn [vx vy vz]; f_equal; ring). apply normR_zeroR. }
    rewrite !Z. lra. }
  assert (Hg : forall y, y <> zeroR -> gradient (potential mu 0 0 0 Re) y (newton mu y)) by (intros y Hy; now apply newton_gradient).
  apply (C65_exact fuel cs ev st a i h b n Re Rp mu 0 0 0 w R0 W lam (newton mu) s1 x1 v1 K x v 0); auto.
  apply newton_motion; auto. exact (orbit_falls _ _ _ _ _ _ Or).
Qed.
End Exact.
