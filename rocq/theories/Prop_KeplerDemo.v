(** * C67: a mission that meets the hypotheses

    The orbit of Prop_MotionDemo. Nothing is assumed of its records but that they are numbers, and the first is on an ellipse. *)
From Coq Require Import ZArith List Reals Lra Lia Bool.
From Coquelicot Require Import Coquelicot.
From Coq Require Import List.
From Flocq Require Import Core BinarySingleNaN.
From Verif Require Import Num Constants State Tables Config Planet Atmosphere Transformations Steering Vehicle RungeKutta Phase Simulation
  XR XRFacts SpecReal SystemFacts B64 B64Facts Prop_Run Prop_Simulation Prop_Gravity Prop_InterpIEEE Prop_IEEE Rounding
  Prop_Mission Prop_GravityIEEE Prop_AltitudeIEEE FieldBounds RK4Error StepIEEE CoastStep Demo Prop_CoastIEEE Prop_CoastDemo Motion Prop_Motion Prop_MotionDemo
  Prop_MotionNewton Kepler Prop_Kepler.
Import ListNotations.
Local Open Scope R_scope.

(** A state near the circle is on an ellipse with an eccentricity of at most 1/10000. *)
Lemma near_circle : forall x v e l, normR (subR x (circle 0)) <= 3 / 2000 -> normR (subR v (circle_v 0)) <= 3 / 1000000 -> 0 <= e <= 1000 -> 0 <= l <= 1 ->
  elliptic 250000000000000 (6370000 + e) (13000000 - e) (14000 - l * e) x v.
Proof.
  intros x v e l Hx Hv He Hl. set (mu := 250000000000000).
  assert (Nx : normR (circle 0) = 6400000) by apply circle_norm. assert (Nv : normR (circle_v 0) = 6250) by apply circle_v_norm.
  destruct (close_far _ _ _ Hx) as [X1 X2]. destruct (close_far _ _ _ Hv) as [V1 V2]. rewrite Nx in X1, X2. rewrite Nv in V1, V2.
  assert (Ec : energy mu (circle 0) (circle_v 0) = - 19531250) by (unfold energy; rewrite <- normR_sq, Nx, Nv; unfold mu; lra).
  assert (A := energy_near mu 6000000 7000 x v (circle 0) (circle_v 0) ltac:(unfold mu; lra) ltac:(lra) ltac:(lra) ltac:(lra) ltac:(lra) ltac:(lra)). rewrite Ec in A.
  assert (B := momentum_near 7000000 7000 x v (circle 0) (circle_v 0) ltac:(lra) ltac:(lra)).
  assert (E1 : Rabs (energy mu x v - - 19531250) <= / 10) by (unfold mu in *; lra). clear A.
  apply Rabs_le_inv in E1. set (E := energy mu x v) in *.
  assert (Hc : normR (momentum (circle 0) (circle_v 0)) = 40000000000).
  { unfold momentum, normR. rewrite lagrange_identity, <- !normR_sq, Nx, Nv. assert (D : dotR (circle 0) (circle_v 0) = 0) by (unfold dotR, circle, circle_v; cbn [vx vy vz]; ring).
    rewrite D. replace (6400000 * 6400000 * (6250 * 6250) - 0 * 0) with (40000000000 * 40000000000) by ring. apply R_sqrt.sqrt_square. lra. }
  assert (Hm : 39999999900 <= normR (momentum x v)).
  { assert (Q := norm_from (momentum (circle 0) (circle_v 0)) (momentum x v)). rewrite norm_sub_comm in Q. lra. }
  assert (Hh : 39999999900 * 39999999900 <= dotR (momentum x v) (momentum x v)) by (rewrite <- normR_sq; apply Rmult_le_compat; lra).
  assert (Ea : semi_major mu x v = mu / (2 * - E)) by (unfold semi_major; fold E; field; lra).
  assert (Ba : 6399999 <= semi_major mu x v <= 6400001).
  { rewrite Ea. unfold mu. split.
    - apply (Rmult_le_reg_r (2 * - E)); [lra|]. unfold Rdiv. rewrite Rmult_assoc, Rinv_l by lra. lra.
    - apply (Rmult_le_reg_r (2 * - E)); [lra|]. unfold Rdiv. rewrite Rmult_assoc, Rinv_l by lra. lra. }
  assert (Be : 0 <= eccentricity mu x v <= / 1000).
  { unfold eccentricity. split; [apply sqrt_pos|]. rewrite <- (R_sqrt.sqrt_square (/ 1000)) by lra. apply sqrt_le_1_alt.
    assert (1 - / 1000000 <= dotR (momentum x v) (momentum x v) / (mu * semi_major mu x v)); [|lra].
    assert (Pd : 0 < mu * semi_major mu x v) by (apply Rmult_lt_0_compat; [unfold mu|]; lra).
    apply (Rmult_le_reg_r (mu * semi_major mu x v)); [exact Pd|]. unfold Rdiv. rewrite Rmult_assoc, Rinv_l by lra. rewrite Rmult_1_r.
    eapply Rle_trans; [|exact Hh]. assert (mu * semi_major mu x v <= mu * 6400001) by (apply Rmult_le_compat_l; [unfold mu|]; lra). unfold mu in *. lra. }
  assert (Z : 0 <= semi_major mu x v * eccentricity mu x v <= 6400001 * / 1000).
  { split; [apply Rmult_le_pos; lra|apply Rmult_le_compat; lra]. }
  assert (L : 0 <= l * e <= 1000) by (split; [apply Rmult_le_pos; lra|replace 1000 with (1 * 1000) by ring; apply Rmult_le_compat; lra]).
  unfold elliptic. fold E. repeat split.
  - intros Q. rewrite Q, normR_zeroR in X2. lra.
  - lra.
  - intros Q. rewrite Q, normR_zeroR in Hm. lra.
  - unfold perigee. lra.
  - unfold apogee. lra.
  - lra.
  - assert (Y : mu / (6370000 + e) <= mu / 6370000). { apply Rmult_le_compat_l; [unfold mu; lra|]. apply Rinv_le_contravar; lra. }
    assert (13000 ^ 2 <= (14000 - l * e) ^ 2) by (apply pow_incr; lra). unfold mu in *. lra.
Qed.
Example C67_nonvacuous : exists q a b c d x v,
  simulate 10 [orbit] = ([EPhase 1%nat; ERecord a; ERecord b; ERecord c; ERecord d], Finished q) /\
  kepler_orbit 250000000000000 (realv (st_position a)) (realv (st_velocity a)) x v /\
  normR (subR (realv (st_position d)) (x 3)) <= / 10 /\
  Rabs (energy 250000000000000 (realv (st_position d)) (realv (st_velocity d)) - energy 250000000000000 (realv (st_position a)) (realv (st_velocity a))) <= 5.
Proof.
  destruct orbit_circumstances as (C & RR). assert (CK := orbit_checked). unfold orbit_check in CK.
  destruct (simulate 10 [orbit]) as [ev st] eqn:S.
  destruct ev as [|[n|?] [|[?|a] [|[?|b] [|[?|c] [|[?|d] [|? ?]]]]]]; try discriminate CK; destruct n as [|[|n]]; try discriminate CK; destruct st as [q|?|?]; try discriminate CK.
  apply andb_prop in CK. destruct CK as [CK K5]. apply andb_prop in CK. destruct CK as [CK K4]. apply andb_prop in CK. destruct CK as [CK K3]. apply andb_prop in CK. destruct CK as [K1 K2].
  apply orbit_range in K1, K2, K3, K4; try reflexivity. apply first_near in K5.
  exists q, a, b, c, d. set (rate := sqrt (7 * 250000000000000 / 6370000 ^ 3)) in *.
  assert (B : block (N := DN) [EPhase 1%nat; ERecord a; ERecord b; ERecord c; ERecord d] [] 1 [a; b; c; d] []) by (split; [reflexivity|now left]).
  assert (HR : forall k s, (k <= 3)%nat -> nth_error [a; b; c; d] k = Some s -> B2R (st_time_since_event s) = INR k + 1 /\ finite_state demo_lm s).
  { assert (FS : forall (z : R) (s : State DN), B2R (st_time_since_event s) = z /\ in_range demo_lm 6370000 13000000 14000 s -> B2R (st_time_since_event s) = z /\ finite_state demo_lm s).
    { intros z s (T & F1 & F2 & _). split; [exact T|now split]. }
    intros k s Hk H. destruct k as [|[|[|[|k]]]]; try lia; cbn [nth_error] in H; injection H as <-; cbn [INR]; apply FS.
    - destruct K1 as [T R1]. split; [rewrite T; lra|exact R1].
    - destruct K2 as [T R1]. split; [rewrite T; lra|exact R1].
    - destruct K3 as [T R1]. split; [rewrite T; lra|exact R1].
    - destruct K4 as [T R1]. split; [rewrite T; lra|exact R1]. }
  assert (E3 : exp (rate * (1 + 1 + 1)) <= 101 / 100).
  { assert (Y := exp_ineq1_le (- (rate * (1 + 1 + 1)))). rewrite exp_Ropp in Y. assert (P := exp_pos (rate * (1 + 1 + 1))). set (t := exp _) in *.
    assert (Q : / t * t = 1) by (apply Rinv_l; lra). apply (Rmult_le_compat_r t) in Y; [|lra]. rewrite Q in Y.
    assert (9921 / 10000 * t <= (1 + - (rate * (1 + 1 + 1))) * t) by (apply Rmult_le_compat_r; lra). lra. }
  assert (X0 := exp_pos (rate * (1 + 1 + 1))).
  set (G := 250000000000000 / 6370000 ^ 2) in *. assert (GB : 6 <= G <= 62 / 10) by (unfold G; lra).
  assert (D3 : drift 13000000 14000 G rate 3 <= / 10000000).
  { unfold drift. cbn [INR]. change (bpow radix2 (-53)) with (/ 9007199254740992).
    assert (X2 : (16 * 14000 + 160 * G) / rate <= (16 * 14000 + 160 * 10) * 400).
    { apply Rmult_le_compat; [lra|left; apply Rinv_0_lt_compat; lra|lra|]. replace 400 with (/ / 400) by field. apply Rinv_le_contravar; lra. }
    assert (X3 : 0 <= (16 * 14000 + 160 * G) / rate) by (apply Rmult_le_pos; [lra|left; apply Rinv_0_lt_compat; lra]).
    apply Rle_trans with ((1 + 1 + 1) * (101 / 100) * (4 * 13000000 + (16 * 14000 + 160 * 10) * 400) * / 9007199254740992); [|lra].
    apply Rmult_le_compat_r; [lra|]. apply Rmult_le_compat; try lra. }
  set (K := 250000000000000 * (6 * 14000 ^ 2 / 6370000 ^ 4 + 2 * 250000000000000 / 6370000 ^ 5)) in *. assert (KB : 0 <= K <= 191 / 1000000) by (unfold K; lra).
  assert (G3 : gap 14000 G K rate 0 3 <= 248 / 1000000).
  { unfold gap. cbn [INR]. assert (L2 : 0 <= rate ^ 2 <= (261 / 100000) ^ 2) by (split; [apply pow2_ge_0|apply pow_incr; lra]).
    assert (L3 : 0 <= rate ^ 2 * (6 / 5 * G + rate ^ 2 * 14000) <= (261 / 100000) ^ 2 * (7540 / 1000)).
    { split; [apply Rmult_le_pos; lra|]. apply Rmult_le_compat; lra. }
    eapply Rle_trans; [apply Rmult_le_compat; [lra| |exact E3|]|].
    - lra.
    - instantiate (1 := (1 + 1 + 1) * (2 / 5 * (191 / 1000000) + (261 / 100000) ^ 2 * (7540 / 1000) / 10)). lra.
    - lra. }
  assert (G4 : gap 14000 G K rate 0 3 / rate <= 99 / 1000).
  { apply (Rmult_le_reg_r rate); [lra|]. unfold Rdiv at 1. rewrite Rmult_assoc, Rinv_l by lra. lra. }
  assert (SP : spread 250000000000000 6370000 13000000 14000 rate 3 <= / 10) by (unfold spread; fold G; fold K; lra).
  destruct (spread_pos demo_lm _ _ _ _ _ _ _ 3 C) as [_ SP0].
  assert (EL : elliptic 250000000000000 (6370000 + spread 250000000000000 6370000 13000000 14000 rate 3) (13000000 - spread 250000000000000 6370000 13000000 14000 rate 3)
    (14000 - rate * spread 250000000000000 6370000 13000000 14000 rate 3) (realv (st_position a)) (realv (st_velocity a))).
  { assert (Z1 := normR_ge0 (subR (realv (st_position a)) (circle 0))). assert (Z2 := normR_ge0 (subR (realv (st_velocity a)) (circle_v 0))).
    assert (0 <= rate * normR (subR (realv (st_position a)) (circle 0))) by (apply Rmult_le_pos; lra).
    apply near_circle; try lra.
    apply (Rmult_le_reg_l rate); [lra|]. lra. }
  assert (T := C67_ellipse demo_lm 10 [orbit] _ _ _ _ _ _ 3 6400000 250000000000000 6370000 13000000 14000 rate a S B eq_refl eq_refl C HR ltac:(lra) eq_refl EL).
  assert (U := C67_conserved demo_lm 10 [orbit] _ _ _ _ _ _ 3 6400000 250000000000000 6370000 13000000 14000 rate a S B eq_refl eq_refl C HR ltac:(lra) eq_refl EL).
  cbv zeta in T, U. destruct T as (x & v & Or & Near). exists x, v. split; [reflexivity|split; [exact Or|]].
  destruct (Near 3%nat d ltac:(lia) eq_refl) as (_ & R1 & _). cbn [INR] in R1. replace (1 + 1 + 1) with 3 in R1 by ring.
  split; [lra|].
  destruct (U 3%nat d ltac:(lia) eq_refl) as [E1 _]. eapply Rle_trans; [exact E1|]. fold G.
  apply Rle_trans with ((14000 * (261 / 100000) + 62 / 10) * / 10); [|lra]. apply Rmult_le_compat; lra.
Qed.
