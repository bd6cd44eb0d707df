(** * Rounding errors of binary64 expressions

    [near M k x r]: the number [x] stands for the real number [r], which is at most [M] in size, with an error of
    at most [k] units of 2^-53 relative to [M]. *)
From Coq Require Import ZArith List Reals Lra Lia Bool.
From Flocq Require Import Core Relative BinarySingleNaN.
From Verif Require Import Num B64 B64Facts Prop_InterpIEEE.
Local Open Scope R_scope.

Definition near (M k : R) (x : b64) (r : R) : Prop :=
  is_finite x = true /\ Rabs r <= M /\ Rabs (B2R x - r) <= k * u53 * M.
(** Magnitudes far from overflow and underflow. *)
Definition ordinary_size (M : R) : Prop := bpow radix2 (-900) <= M <= bpow radix2 900.
(** Numbers of roundings for which the second-order terms are negligible. *)
Definition few (k : R) : Prop := 0 <= k <= 2000.

Lemma u53_pos : 0 < u53.
Proof. unfold u53. lra. Qed.
Lemma u53_le : u53 <= / 1000000000000000.
Proof. unfold u53. lra. Qed.
Lemma size_pos : forall M, ordinary_size M -> 0 < M.
Proof. intros M [H _]. eapply Rlt_le_trans; [apply bpow_gt_0|exact H]. Qed.
Lemma eta_size : forall M, ordinary_size M -> eta <= / 1000000 * u53 * M.
Proof.
  intros M [H _]. unfold eta. change (-1075)%Z with (-175 + -900)%Z. rewrite bpow_plus.
  assert (P := bpow_gt_0 radix2 (-900)). assert (Q : bpow radix2 (-175) <= / 1000000 * u53).
  { apply Rle_trans with (bpow radix2 (-73)); [apply bpow_le; lia|]. unfold u53.
    change (bpow radix2 (-73)) with (/ 9444732965739290427392). lra. }
  apply Rle_trans with (/ 1000000 * u53 * bpow radix2 (-900)); [apply Rmult_le_compat_r; lra|].
  apply Rmult_le_compat_l; [|exact H]. assert (U := u53_pos). lra.
Qed.
Lemma big_enough : forall M, ordinary_size M -> 4 * M < bpow radix2 1024.
Proof.
  intros M [_ H]. apply Rle_lt_trans with (bpow radix2 2 * bpow radix2 900); [change (bpow radix2 2) with 4; lra|].
  rewrite <- bpow_plus. apply bpow_lt. lia.
Qed.

(** Rounding a value close to [r]. *)
Lemma round_near : forall M k t r, ordinary_size M -> few k -> Rabs r <= M -> Rabs (t - r) <= k * u53 * M ->
  Rlt_bool (Rabs (rnd t)) (bpow radix2 1024) = true /\ Rabs (rnd t - r) <= (k + 1001 / 1000) * u53 * M.
Proof.
  intros M k t r HM [K0 K1] Hr Ht. assert (PM := size_pos M HM). assert (U := u53_pos). assert (U1 := u53_le).
  assert (E := round_error t). assert (E0 := eta_size M HM).
  assert (KU : k * u53 <= 2 / 1000000000000).
  { apply Rle_trans with (2000 * u53); [apply Rmult_le_compat_r; lra|lra]. }
  assert (KM : k * u53 * M <= 2 / 1000000000000 * M) by (apply Rmult_le_compat_r; lra).
  assert (Bt : Rabs t <= (1 + 2 / 1000000000000) * M).
  { replace t with (r + (t - r)) by ring. eapply Rle_trans; [apply Rabs_triang|]. lra. }
  assert (UT : u53 * Rabs t <= u53 * ((1 + 2 / 1000000000000) * M)) by (apply Rmult_le_compat_l; lra).
  assert (UM : 0 < u53 * M) by (apply Rmult_lt_0_compat; lra).
  assert (F : Rabs (rnd t - r) <= (k + 1001 / 1000) * u53 * M).
  { replace (rnd t - r) with ((rnd t - t) + (t - r)) by ring. eapply Rle_trans; [apply Rabs_triang|]. lra. }
  split; [|exact F]. apply Rlt_bool_true. eapply Rle_lt_trans; [|exact (big_enough M HM)].
  replace (rnd t) with (r + (rnd t - r)) by ring. eapply Rle_trans; [apply Rabs_triang|].
  assert (1001 / 1000 * u53 * M <= M).
  { rewrite <- (Rmult_1_l M) at 2. apply Rmult_le_compat_r; lra. }
  lra.
Qed.

Lemma near_le : forall M k M' k' x r, near M k x r -> Rabs r <= M' -> k * M <= k' * M' -> near M' k' x r.
Proof.
  intros M k M' k' x r (F & _ & E) H L. split; [exact F|]. split; [exact H|]. eapply Rle_trans; [exact E|].
  assert (U := u53_pos). replace (k * u53 * M) with (u53 * (k * M)) by ring. replace (k' * u53 * M') with (u53 * (k' * M')) by ring.
  apply Rmult_le_compat_l; lra.
Qed.
Lemma near_more : forall M k k' x r, near M k x r -> k <= k' -> near M k' x r.
Proof.
  intros M k k' x r H L. destruct H as (F & B & E). apply (near_le M k); [split; [exact F|split; [exact B|exact E]]|exact B|].
  apply Rmult_le_compat_r; [|exact L]. assert (P := Rabs_pos r). lra.
Qed.
Lemma near_exact : forall M x, is_finite x = true -> Rabs (B2R x) <= M -> near M 0 x (B2R x).
Proof.
  intros M x F B. split; [exact F|]. split; [exact B|]. replace (B2R x - B2R x) with 0 by ring. rewrite Rabs_R0. lra.
Qed.
Lemma near_bound : forall M k x r, near M k x r -> 0 <= M -> few k -> Rabs (B2R x) <= (1 + / 100000000000) * M.
Proof.
  intros M k x r (_ & B & E) HM [K0 K1]. assert (U := u53_pos). assert (U1 := u53_le).
  assert (KU : k * u53 <= / 100000000000) by (apply Rle_trans with (2000 * u53); [apply Rmult_le_compat_r; lra|lra]).
  assert (k * u53 * M <= / 100000000000 * M) by (apply Rmult_le_compat_r; lra).
  replace (B2R x) with (r + (B2R x - r)) by ring. eapply Rle_trans; [apply Rabs_triang|]. lra.
Qed.

Lemma near_plus : forall M1 M2 k x y r s, near M1 k x r -> near M2 k y s -> few k -> 0 <= M1 -> 0 <= M2 -> ordinary_size (M1 + M2) ->
  near (M1 + M2) (k + 1001 / 1000) (Bplus mode_NE x y) (r + s).
Proof.
  intros M1 M2 k x y r s (F1 & B1 & E1) (F2 & B2 & E2) K P1 P2 O.
  assert (B : Rabs (r + s) <= M1 + M2) by (eapply Rle_trans; [apply Rabs_triang|lra]).
  assert (E : Rabs ((B2R x + B2R y) - (r + s)) <= k * u53 * (M1 + M2)).
  { replace (B2R x + B2R y - (r + s)) with ((B2R x - r) + (B2R y - s)) by ring. eapply Rle_trans; [apply Rabs_triang|lra]. }
  destruct (round_near _ _ _ _ O K B E) as [G1 G2].
  assert (C := Bplus_correct 53 1024 Hprec64 Hmax64 mode_NE x y F1 F2). unfold round_mode in C. change (SpecFloat.fexp 53 1024) with fexp64 in C.
  rewrite G1 in C. destruct C as (C1 & C2 & _). split; [exact C2|]. split; [exact B|]. rewrite C1. exact G2.
Qed.
Lemma near_opp : forall M k x r, near M k x r -> near M k (Bopp x) (- r).
Proof.
  intros M k x r (F & B & E). split; [now rewrite is_finite_Bopp|]. split; [now rewrite Rabs_Ropp|].
  rewrite B2R_Bopp. replace (- B2R x - - r) with (- (B2R x - r)) by ring. now rewrite Rabs_Ropp.
Qed.
Lemma near_minus : forall M1 M2 k x y r s, near M1 k x r -> near M2 k y s -> few k -> 0 <= M1 -> 0 <= M2 -> ordinary_size (M1 + M2) ->
  near (M1 + M2) (k + 1001 / 1000) (Bminus mode_NE x y) (r - s).
Proof.
  intros M1 M2 k x y r s (F1 & B1 & E1) (F2 & B2 & E2) K P1 P2 O.
  assert (B : Rabs (r - s) <= M1 + M2) by (unfold Rminus; eapply Rle_trans; [apply Rabs_triang|rewrite Rabs_Ropp; lra]).
  assert (E : Rabs ((B2R x - B2R y) - (r - s)) <= k * u53 * (M1 + M2)).
  { replace (B2R x - B2R y - (r - s)) with ((B2R x - r) + - (B2R y - s)) by ring. eapply Rle_trans; [apply Rabs_triang|rewrite Rabs_Ropp; lra]. }
  destruct (round_near _ _ _ _ O K B E) as [G1 G2].
  assert (C := Bminus_correct 53 1024 Hprec64 Hmax64 mode_NE x y F1 F2). unfold round_mode in C. change (SpecFloat.fexp 53 1024) with fexp64 in C.
  rewrite G1 in C. destruct C as (C1 & C2 & _). split; [exact C2|]. split; [exact B|]. rewrite C1. exact G2.
Qed.
Lemma near_mult : forall M1 M2 k1 k2 x y r s, near M1 k1 x r -> near M2 k2 y s -> few k1 -> few k2 -> few (k1 + k2 + / 1000) ->
  0 <= M1 -> 0 <= M2 -> ordinary_size (M1 * M2) ->
  near (M1 * M2) (k1 + k2 + 1002 / 1000) (Bmult mode_NE x y) (r * s).
Proof.
  intros M1 M2 k1 k2 x y r s H1 H2 [K1 K1'] [K2 K2'] K P1 P2 O.
  destruct H1 as (F1 & B1 & E1), H2 as (F2 & B2 & E2).
  assert (U := u53_pos). assert (U1 := u53_le).
  assert (B : Rabs (r * s) <= M1 * M2) by (rewrite Rabs_mult; apply Rmult_le_compat; auto using Rabs_pos).
  assert (E : Rabs ((B2R x * B2R y) - (r * s)) <= (k1 + k2 + / 1000) * u53 * (M1 * M2)).
  { replace (B2R x * B2R y - r * s) with ((B2R x - r) * s + r * (B2R y - s) + (B2R x - r) * (B2R y - s)) by ring.
    assert (T1 : Rabs ((B2R x - r) * s) <= (k1 * u53 * M1) * M2) by (rewrite Rabs_mult; apply Rmult_le_compat; auto using Rabs_pos).
    assert (T2 : Rabs (r * (B2R y - s)) <= M1 * (k2 * u53 * M2)) by (rewrite Rabs_mult; apply Rmult_le_compat; auto using Rabs_pos).
    assert (T3 : Rabs ((B2R x - r) * (B2R y - s)) <= (k1 * u53 * M1) * (k2 * u53 * M2)) by (rewrite Rabs_mult; apply Rmult_le_compat; auto using Rabs_pos).
    assert (PM := Rmult_le_pos _ _ P1 P2).
    assert (T4 : (k1 * u53 * M1) * (k2 * u53 * M2) <= / 1000 * u53 * (M1 * M2)).
    { replace ((k1 * u53 * M1) * (k2 * u53 * M2)) with ((k1 * k2 * u53) * (u53 * (M1 * M2))) by ring.
      replace (/ 1000 * u53 * (M1 * M2)) with (/ 1000 * (u53 * (M1 * M2))) by ring.
      apply Rmult_le_compat_r; [apply Rmult_le_pos; lra|].
      assert (k1 * k2 <= 2000 * 2000) by (apply Rmult_le_compat; lra).
      apply Rle_trans with ((2000 * 2000) * u53); [apply Rmult_le_compat_r; lra|lra]. }
    eapply Rle_trans; [eapply Rle_trans; [apply Rabs_triang|apply Rplus_le_compat; [apply Rabs_triang|apply Rle_refl]]|]. lra. }
  destruct (round_near _ _ _ _ O K B E) as [G1 G2].
  assert (C := Bmult_correct 53 1024 Hprec64 Hmax64 mode_NE x y). unfold round_mode in C. change (SpecFloat.fexp 53 1024) with fexp64 in C.
  rewrite G1 in C. destruct C as (C1 & C2 & _). split; [now rewrite C2, F1, F2|]. split; [exact B|]. rewrite C1.
  eapply Rle_trans; [exact G2|]. right. lra.
Qed.
(** Division by a positive number known to relative precision. *)
Lemma near_div : forall M1 k1 k2 x y r s, near M1 k1 x r -> near s k2 y s -> 0 < s -> few k1 -> few k2 -> few (k1 + k2 + / 1000) ->
  0 <= M1 -> ordinary_size (M1 / s) ->
  near (M1 / s) (k1 + k2 + 1002 / 1000) (Bdiv mode_NE x y) (r / s).
Proof.
  intros M1 k1 k2 x y r s (F1 & B1 & E1) (F2 & _ & E2) Ps [K1 K1'] [K2 K2'] K P1 O.
  assert (U := u53_pos). assert (U1 := u53_le).
  assert (B : Rabs (r / s) <= M1 / s).
  { unfold Rdiv. rewrite Rabs_mult, (Rabs_pos_eq (/ s)) by (left; now apply Rinv_0_lt_compat). apply Rmult_le_compat_r; [left; now apply Rinv_0_lt_compat|exact B1]. }
  assert (KU : k2 * u53 <= / 100000000000) by (apply Rle_trans with (2000 * u53); [apply Rmult_le_compat_r; lra|lra]).
  assert (Ly : (1 - / 100000000000) * s <= B2R y).
  { assert (k2 * u53 * s <= / 100000000000 * s) by (apply Rmult_le_compat_r; lra). apply Rabs_le_inv in E2. lra. }
  assert (Py : 0 < B2R y). { eapply Rlt_le_trans; [|exact Ly]. apply Rmult_lt_0_compat; lra. }
  assert (E : Rabs (B2R x / B2R y - r / s) <= (k1 + k2 + / 1000) * u53 * (M1 / s)).
  { replace (B2R x / B2R y - r / s) with (((B2R x - r) * s - r * (B2R y - s)) * / (B2R y * s)) by (field; lra).
    rewrite Rabs_mult, (Rabs_pos_eq (/ (B2R y * s))) by (left; apply Rinv_0_lt_compat, Rmult_lt_0_compat; lra).
    assert (T : Rabs ((B2R x - r) * s - r * (B2R y - s)) <= (k1 + k2) * u53 * M1 * s).
    { unfold Rminus at 1. eapply Rle_trans; [apply Rabs_triang|]. rewrite Rabs_Ropp, !Rabs_mult, (Rabs_pos_eq s) by lra.
      assert (Rabs (B2R x - r) * s <= k1 * u53 * M1 * s) by (apply Rmult_le_compat_r; lra).
      assert (Rabs r * Rabs (B2R y - s) <= M1 * (k2 * u53 * s)) by (apply Rmult_le_compat; auto using Rabs_pos). lra. }
    assert (I : / (B2R y * s) <= (1 + / 10000000000) * / (s * s)).
    { replace ((1 + / 10000000000) * / (s * s)) with (/ (s * s / (1 + / 10000000000))) by (field; lra).
      apply Rinv_le_contravar; [apply Rdiv_lt_0_compat; [apply Rmult_lt_0_compat; lra|lra]|].
      replace (s * s / (1 + / 10000000000)) with (s / (1 + / 10000000000) * s) by (field; lra).
      apply Rmult_le_compat_r; [lra|]. eapply Rle_trans; [|exact Ly]. apply (Rmult_le_reg_r (1 + / 10000000000)); [lra|].
      unfold Rdiv. rewrite Rmult_assoc, Rinv_l by lra. lra. }
    assert (QP : 0 <= (k1 + k2) * u53 * M1 * s) by (repeat apply Rmult_le_pos; lra).
    eapply Rle_trans; [apply Rmult_le_compat; [apply Rabs_pos|left; apply Rinv_0_lt_compat, Rmult_lt_0_compat; lra|exact T|exact I]|].
    replace ((k1 + k2) * u53 * M1 * s * ((1 + / 10000000000) * / (s * s))) with (((k1 + k2) * (1 + / 10000000000)) * (u53 * (M1 / s))) by (field; lra).
    replace ((k1 + k2 + / 1000) * u53 * (M1 / s)) with ((k1 + k2 + / 1000) * (u53 * (M1 / s))) by ring.
    apply Rmult_le_compat_r; [apply Rmult_le_pos; [lra|]; apply Rmult_le_pos; [lra|left; now apply Rinv_0_lt_compat]|]. lra. }
  destruct (round_near _ _ _ _ O K B E) as [G1 G2].
  assert (C := Bdiv_correct 53 1024 Hprec64 Hmax64 mode_NE x y ltac:(lra)). unfold round_mode in C. change (SpecFloat.fexp 53 1024) with fexp64 in C.
  rewrite G1 in C. destruct C as (C1 & C2 & _). split; [now rewrite C2|]. split; [exact B|]. rewrite C1.
  eapply Rle_trans; [exact G2|]. right. lra.
Qed.
Lemma near_sqrt : forall k x s, near s k x s -> ordinary_size s -> ordinary_size (sqrt s) -> few k ->
  near (sqrt s) (501 / 1000 * k + 1002 / 1000) (Bsqrt mode_NE x) (sqrt s).
Proof.
  intros k x s (F & _ & E) Os O [K0 K1]. assert (Ps := size_pos s Os).
  assert (U := u53_pos). assert (U1 := u53_le). assert (PS := sqrt_lt_R0 s Ps). assert (SS := sqrt_sqrt s ltac:(lra)).
  assert (KU : k * u53 <= / 100000000000) by (apply Rle_trans with (2000 * u53); [apply Rmult_le_compat_r; lra|lra]).
  assert (Lx : (1 - / 100000000000) * s <= B2R x).
  { assert (k * u53 * s <= / 100000000000 * s) by (apply Rmult_le_compat_r; lra). apply Rabs_le_inv in E. lra. }
  assert (Px : 0 < B2R x). { eapply Rlt_le_trans; [|exact Lx]. apply Rmult_lt_0_compat; lra. }
  assert (Lq : (1 - / 100000000000) * sqrt s <= sqrt (B2R x)).
  { rewrite <- (sqrt_Rsqr ((1 - / 100000000000) * sqrt s)) by (apply Rmult_le_pos; lra). apply sqrt_le_1_alt. unfold Rsqr.
    replace ((1 - / 100000000000) * sqrt s * ((1 - / 100000000000) * sqrt s)) with ((1 - / 100000000000) * ((1 - / 100000000000) * (sqrt s * sqrt s))) by ring.
    rewrite SS. eapply Rle_trans; [|exact Lx]. assert (0 <= (1 - / 100000000000) * s) by (apply Rmult_le_pos; lra). lra. }
  assert (B : Rabs (sqrt s) <= sqrt s) by (rewrite Rabs_pos_eq; lra).
  assert (E2 : Rabs (sqrt (B2R x) - sqrt s) <= (501 / 1000 * k) * u53 * sqrt s).
  { assert (SX := sqrt_sqrt (B2R x) ltac:(lra)). assert (PX := sqrt_lt_R0 _ Px).
    replace (sqrt (B2R x) - sqrt s) with ((B2R x - s) * / (sqrt (B2R x) + sqrt s)).
    2:{ apply (Rmult_eq_reg_r (sqrt (B2R x) + sqrt s)); [|lra]. rewrite Rmult_assoc, Rinv_l by lra.
        rewrite Rmult_1_r. replace ((sqrt (B2R x) - sqrt s) * (sqrt (B2R x) + sqrt s)) with (sqrt (B2R x) * sqrt (B2R x) - sqrt s * sqrt s) by ring.
        now rewrite SX, SS. }
    rewrite Rabs_mult, (Rabs_pos_eq (/ _)) by (left; apply Rinv_0_lt_compat; lra).
    assert (I : / (sqrt (B2R x) + sqrt s) <= 501 / 1000 * / sqrt s).
    { replace (501 / 1000 * / sqrt s) with (/ (1000 / 501 * sqrt s)) by (field; lra). apply Rinv_le_contravar; lra. }
    eapply Rle_trans; [apply Rmult_le_compat; [apply Rabs_pos|left; apply Rinv_0_lt_compat; lra|exact E|exact I]|].
    replace (k * u53 * s * (501 / 1000 * / sqrt s)) with (501 / 1000 * k * u53 * (s * / sqrt s)) by ring.
    rewrite <- SS at 1. right. field. lra. }
  assert (KF : few (501 / 1000 * k)) by (split; lra).
  destruct (round_near _ _ _ _ O KF B E2) as [_ G2].
  destruct (Bsqrt_correct 53 1024 Hprec64 Hmax64 mode_NE x) as (C1 & C2 & _). unfold round_mode in C1. change (SpecFloat.fexp 53 1024) with fexp64 in C1.
  split; [|split; [exact B|]].
  - rewrite C2. destruct x as [b|b| |[|] m e he]; try reflexivity; try discriminate F.
    exfalso. cbn [B2R] in Px. revert Px. apply Rle_not_lt. left. apply F2R_lt_0. cbn. lia.
  - rewrite C1. eapply Rle_trans; [exact G2|]. assert (u53 * sqrt s > 0) by (apply Rmult_lt_0_compat; lra).
    replace ((501 / 1000 * k + 1001 / 1000) * u53 * sqrt s) with ((501 / 1000 * k + 1001 / 1000) * (u53 * sqrt s)) by ring.
    replace ((501 / 1000 * k + 1002 / 1000) * u53 * sqrt s) with ((501 / 1000 * k + 1002 / 1000) * (u53 * sqrt s)) by ring.
    apply Rmult_le_compat_r; lra.
Qed.
(** Small integers are exact. *)
Lemma near_int : forall m, (Z.abs m <=? 2 ^ 53)%Z = true -> near (IZR (Z.abs m)) 0 (b64_lit m 0) (IZR m).
Proof.
  intros m H. destruct (int_B2R m H) as [F E]. unfold b64_lit. cbn [Z.eqb]. rewrite <- E. apply near_exact; [exact F|].
  rewrite E, abs_IZR. lra.
Qed.
(** Sums of terms of different precision. *)
Lemma near_to : forall M k k' x r, near M k x r -> 0 <= M -> k <= k' -> near M k' x r.
Proof. intros M k k' x r H _ L. exact (near_more _ _ _ _ _ H L). Qed.
Lemma near_plus2 : forall M1 M2 k1 k2 k x y r s, near M1 k1 x r -> near M2 k2 y s -> k1 * M1 + k2 * M2 <= k * (M1 + M2) ->
  few k -> 0 <= M1 -> 0 <= M2 -> ordinary_size (M1 + M2) ->
  near (M1 + M2) (k + 1001 / 1000) (Bplus mode_NE x y) (r + s).
Proof.
  intros M1 M2 k1 k2 k x y r s (F1 & B1 & E1) (F2 & B2 & E2) L K P1 P2 O. assert (U := u53_pos).
  assert (B : Rabs (r + s) <= M1 + M2) by (eapply Rle_trans; [apply Rabs_triang|lra]).
  assert (E : Rabs ((B2R x + B2R y) - (r + s)) <= k * u53 * (M1 + M2)).
  { replace (B2R x + B2R y - (r + s)) with ((B2R x - r) + (B2R y - s)) by ring. eapply Rle_trans; [apply Rabs_triang|].
    replace (k * u53 * (M1 + M2)) with (u53 * (k * (M1 + M2))) by ring.
    apply Rle_trans with (u53 * (k1 * M1 + k2 * M2)); [lra|]. apply Rmult_le_compat_l; lra. }
  destruct (round_near _ _ _ _ O K B E) as [G1 G2].
  assert (C := Bplus_correct 53 1024 Hprec64 Hmax64 mode_NE x y F1 F2). unfold round_mode in C. change (SpecFloat.fexp 53 1024) with fexp64 in C.
  rewrite G1 in C. destruct C as (C1 & C2 & _). split; [exact C2|]. split; [exact B|]. rewrite C1. exact G2.
Qed.
Lemma near_minus2 : forall M1 M2 k1 k2 k x y r s, near M1 k1 x r -> near M2 k2 y s -> k1 * M1 + k2 * M2 <= k * (M1 + M2) ->
  few k -> 0 <= M1 -> 0 <= M2 -> ordinary_size (M1 + M2) ->
  near (M1 + M2) (k + 1001 / 1000) (Bminus mode_NE x y) (r - s).
Proof.
  intros M1 M2 k1 k2 k x y r s (F1 & B1 & E1) (F2 & B2 & E2) L K P1 P2 O. assert (U := u53_pos).
  assert (B : Rabs (r - s) <= M1 + M2) by (unfold Rminus; eapply Rle_trans; [apply Rabs_triang|rewrite Rabs_Ropp; lra]).
  assert (E : Rabs ((B2R x - B2R y) - (r - s)) <= k * u53 * (M1 + M2)).
  { replace (B2R x - B2R y - (r - s)) with ((B2R x - r) + - (B2R y - s)) by ring. eapply Rle_trans; [apply Rabs_triang|]. rewrite Rabs_Ropp.
    replace (k * u53 * (M1 + M2)) with (u53 * (k * (M1 + M2))) by ring.
    apply Rle_trans with (u53 * (k1 * M1 + k2 * M2)); [lra|]. apply Rmult_le_compat_l; lra. }
  destruct (round_near _ _ _ _ O K B E) as [G1 G2].
  assert (C := Bminus_correct 53 1024 Hprec64 Hmax64 mode_NE x y F1 F2). unfold round_mode in C. change (SpecFloat.fexp 53 1024) with fexp64 in C.
  rewrite G1 in C. destruct C as (C1 & C2 & _). split; [exact C2|]. split; [exact B|]. rewrite C1. exact G2.
Qed.
(** Operations without rounding. *)
Lemma round_self : forall x : b64, rnd (B2R x) = B2R x.
Proof. intros x. apply round_generic; [apply valid_rnd_N|]. apply (generic_format_B2R 53 1024). Qed.
Lemma abs_lt_max : forall x : b64, Rlt_bool (Rabs (B2R x)) (bpow radix2 1024) = true.
Proof. intros x. apply Rlt_bool_true, abs_B2R_lt_emax. Qed.
Lemma near_one_mult : forall M k x r, near M k x r -> near M k (Bmult mode_NE (b64_lit 1 0) x) r.
Proof.
  intros M k x r (F & B & E). assert (C := Bmult_correct 53 1024 Hprec64 Hmax64 mode_NE (b64_lit 1 0) x).
  unfold round_mode in C. change (SpecFloat.fexp 53 1024) with fexp64 in C.
  destruct (int_B2R 1 eq_refl) as [F1 E1]. change (b64_of_Z 1) with (b64_lit 1 0) in F1, E1. rewrite E1, Rmult_1_l, round_self, abs_lt_max in C.
  destruct C as (C1 & C2 & _). split; [now rewrite C2, F1, F|]. split; [exact B|]. now rewrite C1.
Qed.
Lemma near_zero_plus : forall M k x r, near M k x r -> near M k (Bplus mode_NE (b64_lit 0 0) x) r.
Proof.
  intros M k x r (F & B & E). destruct (int_B2R 0 eq_refl) as [F1 E1]. change (b64_of_Z 0) with (b64_lit 0 0) in F1, E1.
  assert (C := Bplus_correct 53 1024 Hprec64 Hmax64 mode_NE (b64_lit 0 0) x F1 F).
  unfold round_mode in C. change (SpecFloat.fexp 53 1024) with fexp64 in C.
  rewrite E1, Rplus_0_l, round_self, abs_lt_max in C.
  destruct C as (C1 & C2 & _). split; [exact C2|]. split; [exact B|]. now rewrite C1.
Qed.
(** Squares of components that may be tiny compared with [S]. *)
Lemma near_square : forall x S, is_finite x = true -> ordinary_size S -> B2R x * B2R x <= S ->
  near (B2R x * B2R x + S / 1000) (1001 / 1000) (Bmult mode_NE x x) (B2R x * B2R x).
Proof.
  intros x S F O L. assert (P := size_pos S O). assert (U := u53_pos). assert (U1 := u53_le).
  set (q := B2R x * B2R x) in *. assert (Pq : 0 <= q) by (unfold q; apply Rle_0_sqr).
  assert (E := round_error q). rewrite (Rabs_pos_eq q Pq) in E. assert (E0 := eta_size S O).
  assert (EE : Rabs (rnd q - q) <= 1001 / 1000 * u53 * (q + S / 1000)).
  { eapply Rle_trans; [exact E|].
    assert (0 <= u53 * q) by (apply Rmult_le_pos; lra). assert (0 < u53 * S) by (apply Rmult_lt_0_compat; lra). lra. }
  assert (C := Bmult_correct 53 1024 Hprec64 Hmax64 mode_NE x x). fold q in C. unfold round_mode in C. change (SpecFloat.fexp 53 1024) with fexp64 in C.
  assert (G1 : Rlt_bool (Rabs (rnd q)) (bpow radix2 1024) = true).
  { apply Rlt_bool_true. eapply Rle_lt_trans; [|exact (big_enough S O)].
    replace (rnd q) with (q + (rnd q - q)) by ring. eapply Rle_trans; [apply Rabs_triang|]. rewrite (Rabs_pos_eq q Pq).
    assert (1001 / 1000 * u53 * (q + S / 1000) <= 1 * (q + S / 1000)) by (apply Rmult_le_compat_r; lra). lra. }
  rewrite G1 in C. destruct C as (C1 & C2 & _). split; [now rewrite C2, F|]. split; [rewrite Rabs_pos_eq; lra|]. now rewrite C1.
Qed.
Lemma size_range : forall M, bpow radix2 (-900) <= M -> M <= bpow radix2 900 -> ordinary_size M.
Proof. intros M H1 H2. split; assumption. Qed.
Lemma size_num : forall M, / 1000000000 <= M <= 1000000000 -> ordinary_size M.
Proof.
  intros M [H1 H2]. split.
  - apply Rle_trans with (bpow radix2 (-30)); [apply bpow_le; lia|]. change (bpow radix2 (-30)) with (/ 1073741824). lra.
  - apply Rle_trans with (bpow radix2 30); [|apply bpow_le; lia]. change (bpow radix2 30) with 1073741824. lra.
Qed.
(** Numbers between powers of two; their products and quotients. *)
Definition between (a : Z) (M : R) : Prop := bpow radix2 (- a) <= M <= bpow radix2 a.
Lemma between_size : forall a M, between a M -> (a <= 900)%Z -> ordinary_size M.
Proof.
  intros a M [H1 H2] L. split; [eapply Rle_trans; [|exact H1]; apply bpow_le; lia|eapply Rle_trans; [exact H2|]; apply bpow_le; lia].
Qed.
Lemma between_pos : forall a M, between a M -> 0 < M.
Proof. intros a M [H _]. eapply Rlt_le_trans; [apply bpow_gt_0|exact H]. Qed.
Lemma between_mult : forall a b x y, between a x -> between b y -> between (a + b) (x * y).
Proof.
  intros a b x y Hx Hy. assert (Px := between_pos _ _ Hx). assert (Py := between_pos _ _ Hy). destruct Hx as [X1 X2], Hy as [Y1 Y2].
  assert (A := bpow_gt_0 radix2 (- a)). assert (B := bpow_gt_0 radix2 (- b)).
  split; [replace (- (a + b))%Z with (- a + - b)%Z by ring|]; rewrite bpow_plus; apply Rmult_le_compat; lra.
Qed.
Lemma between_inv : forall a x, between a x -> between a (/ x).
Proof.
  intros a x Hx. assert (Px := between_pos _ _ Hx). destruct Hx as [X1 X2]. split.
  - rewrite bpow_opp. now apply Rinv_le_contravar.
  - replace (bpow radix2 a) with (/ bpow radix2 (- a)).
    + apply Rinv_le_contravar; [apply bpow_gt_0|exact X1].
    + rewrite bpow_opp. apply Rinv_inv.
Qed.
Lemma between_div : forall a b x y, between a x -> between b y -> between (a + b) (x / y).
Proof. intros a b x y Hx Hy. apply between_mult; [exact Hx|now apply between_inv]. Qed.
Lemma between_num : forall M, / 1000000000 <= M <= 1000000000 -> between 30 M.
Proof.
  intros M [H1 H2]. unfold between. change (bpow radix2 (- (30))) with (/ 1073741824). change (bpow radix2 30) with 1073741824. lra.
Qed.
