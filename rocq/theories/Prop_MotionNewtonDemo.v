(** * C65 for spherical planets: a mission that meets the hypotheses

    The circular orbit of Prop_MotionDemo, now only as a solution of the differential equation. *)
From Coq Require Import ZArith List Reals Lra Lia Bool.
From Coquelicot Require Import Coquelicot.
From Coq Require Import List.
From Flocq Require Import Core BinarySingleNaN.
From Verif Require Import Num Constants State Tables Config Planet Atmosphere Transformations Steering Vehicle RungeKutta Phase Simulation
  XR XRFacts SpecReal SystemFacts B64 B64Facts Prop_Run Prop_Simulation Prop_Gravity Prop_InterpIEEE Prop_IEEE Rounding
  Prop_Mission Prop_GravityIEEE Prop_AltitudeIEEE FieldBounds RK4Error StepIEEE CoastStep Demo Prop_CoastIEEE Prop_CoastDemo Motion Prop_Motion Prop_MotionDemo Prop_MotionNewton.
Import ListNotations.
Local Open Scope R_scope.

Lemma circle_falls : forall T, free_fall (newton 250000000000000) T circle circle_v.
Proof.
  intros T t Ht. destruct (circle_motion T) as (j & s & M). destruct (M t Ht) as (D & B & _). split; [exact D|exact B].
Qed.
Example C65_spherical_nonvacuous : exists q a b c d,
  simulate 10 [orbit] = ([EPhase 1%nat; ERecord a; ERecord b; ERecord c; ERecord d], Finished q) /\
  free_fall (newton 250000000000000) 3 circle circle_v /\
  normR (subR (realv (st_position d)) (circle 3)) <= / 10.
Proof.
  destruct orbit_circumstances as (C & RR). assert (CK := orbit_checked). unfold orbit_check in CK.
  destruct (simulate 10 [orbit]) as [ev st] eqn:S.
  destruct ev as [|[n|?] [|[?|a] [|[?|b] [|[?|c] [|[?|d] [|? ?]]]]]]; try discriminate CK; destruct n as [|[|n]]; try discriminate CK; destruct st as [q|?|?]; try discriminate CK.
  apply andb_prop in CK. destruct CK as [CK K5]. apply andb_prop in CK. destruct CK as [CK K4]. apply andb_prop in CK. destruct CK as [CK K3]. apply andb_prop in CK. destruct CK as [K1 K2].
  apply orbit_range in K1, K2, K3, K4; try reflexivity. apply first_near in K5.
  exists q, a, b, c, d. set (rate := sqrt (7 * 250000000000000 / 6370000 ^ 3)) in *. split; [reflexivity|split; [apply circle_falls|]].
  assert (B : block (N := DN) [EPhase 1%nat; ERecord a; ERecord b; ERecord c; ERecord d] [] 1 [a; b; c; d] []) by (split; [reflexivity|now left]).
  assert (HR : forall k s, (k <= 3)%nat -> nth_error [a; b; c; d] k = Some s -> B2R (st_time_since_event s) = INR k + 1 /\ in_range demo_lm 6370000 13000000 14000 s).
  { intros k s Hk H. destruct k as [|[|[|[|k]]]]; try lia; cbn [nth_error] in H; injection H as <-; cbn [INR].
    - destruct K1 as [T R1]. split; [rewrite T; lra|exact R1].
    - destruct K2 as [T R1]. split; [rewrite T; lra|exact R1].
    - destruct K3 as [T R1]. split; [rewrite T; lra|exact R1].
    - destruct K4 as [T R1]. split; [rewrite T; lra|exact R1]. }
  assert (E3 : exp (rate * (1 + 1 + 1)) <= 101 / 100).
  { assert (Y := exp_ineq1_le (- (rate * (1 + 1 + 1)))). rewrite exp_Ropp in Y. assert (P := exp_pos (rate * (1 + 1 + 1))). set (t := exp _) in *.
    assert (Q : / t * t = 1) by (apply Rinv_l; lra). apply (Rmult_le_compat_r t) in Y; [|lra]. rewrite Q in Y.
    assert (9921 / 10000 * t <= (1 + - (rate * (1 + 1 + 1))) * t) by (apply Rmult_le_compat_r; lra). lra. }
  assert (X0 := exp_pos (rate * (1 + 1 + 1))).
  set (G := 250000000000000 / 6370000 ^ 2) in *. assert (GB : 6 <= G <= 62 / 10) by (unfold G; lra).
  assert (D3 : drift 13000000 14000 G rate 3 <= / 10000000).
  { unfold drift. cbn [INR]. change (bpow radix2 (-53)) with (/ 9007199254740992).
    assert (X2 : (16 * 14000 + 160 * G) / rate <= (16 * 14000 + 160 * 10) * 400).
    { apply Rmult_le_compat; [lra|left; apply Rinv_0_lt_compat; lra|lra|]. replace 400 with (/ / 400) by field. apply Rinv_le_contravar; lra. }
    assert (X3 : 0 <= (16 * 14000 + 160 * G) / rate) by (apply Rmult_le_pos; [lra|left; apply Rinv_0_lt_compat; lra]).
    apply Rle_trans with ((1 + 1 + 1) * (101 / 100) * (4 * 13000000 + (16 * 14000 + 160 * 10) * 400) * / 9007199254740992); [|lra].
    apply Rmult_le_compat_r; [lra|]. apply Rmult_le_compat; try lra. }
  set (K := 250000000000000 * (6 * 14000 ^ 2 / 6370000 ^ 4 + 2 * 250000000000000 / 6370000 ^ 5)) in *. assert (KB : 0 <= K <= 191 / 1000000) by (unfold K; lra).
  assert (G3 : gap 14000 G K rate (3 / 1000000) 3 <= 251 / 1000000).
  { unfold gap. cbn [INR]. assert (L2 : 0 <= rate ^ 2 <= (261 / 100000) ^ 2) by (split; [apply pow2_ge_0|apply pow_incr; lra]).
    assert (L3 : 0 <= rate ^ 2 * (6 / 5 * G + rate ^ 2 * 14000) <= (261 / 100000) ^ 2 * (7540 / 1000)).
    { split; [apply Rmult_le_pos; lra|]. apply Rmult_le_compat; lra. }
    eapply Rle_trans; [apply Rmult_le_compat; [lra| |exact E3|]|].
    - lra.
    - instantiate (1 := 3 / 1000000 + (1 + 1 + 1) * (2 / 5 * (191 / 1000000) + (261 / 100000) ^ 2 * (7540 / 1000) / 10)). lra.
    - lra. }
  destruct (C65_spherical demo_lm 10 [orbit] _ _ _ _ _ _ 3 6400000 250000000000000 6370000 13000000 14000 rate a circle circle_v (3 / 1000000) S B eq_refl eq_refl C HR
    ltac:(fold G; lra) eq_refl (circle_falls (INR 3)) ltac:(intros t _; rewrite circle_norm, circle_v_norm; lra) K5 ltac:(fold G; fold K; lra) 3%nat d ltac:(lia) eq_refl) as [R1 _].
  fold G in R1. fold K in R1. cbn [INR] in R1. replace (1 + 1 + 1) with 3 in R1 by ring.
  assert (gap 14000 G K rate (3 / 1000000) 3 / rate <= 999 / 10000); [|lra].
  apply (Rmult_le_reg_r rate); [lra|]. unfold Rdiv at 1. rewrite Rmult_assoc, Rinv_l by lra. lra.
Qed.
