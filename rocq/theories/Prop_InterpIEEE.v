(** * C19, C20 in IEEE arithmetic: accuracy of the interpolation

    In binary64 the table nodes are not reproduced bit for bit ([C19_ieee_refuted]); here is how
    far the computed value can be from the exact interpolant: for every well-formed table of
    ordinary magnitude and every argument in its range. *)
From Coq Require Import ZArith List Arith Reals Lra Lia Bool.
From Coquelicot Require Import Coquelicot.
From Flocq Require Import Core Relative BinarySingleNaN.
From Verif Require Import Num State Tables TablesFacts Prop_Tables XR XRFacts B64 B64Facts Prop_TimeIEEE Prop_Interp.
Import ListNotations.
Local Open Scope R_scope.

(** ** One linear interpolation *)
Definition eta : R := bpow radix2 (-1075).
Definition u53 : R := / 9007199254740992.
Lemma round_error : forall x, Rabs (rnd x - x) <= u53 * Rabs x + eta.
Proof.
  intros x. destruct (error_N_FLT radix2 (-1074) 53 ltac:(lia) (fun z => negb (Z.even z)) x) as (e & h & He & Hh & _ & E).
  change (rnd x) with (round radix2 (FLT_exp (-1074) 53) ZnearestE x). rewrite E.
  replace (x * (1 + e) + h - x) with (e * x + h) by ring.
  eapply Rle_trans; [apply Rabs_triang|]. rewrite Rabs_mult. apply Rplus_le_compat.
  - apply Rmult_le_compat_r; [apply Rabs_pos|]. eapply Rle_trans; [exact He|]. unfold u53. change (bpow radix2 (- (53) + 1)) with (/ 4503599627370496). lra.
  - eapply Rle_trans; [exact Hh|]. unfold eta. change (-1075)%Z with (-1 + -1074)%Z. rewrite bpow_plus.
    change (bpow radix2 (-1)) with (/ 2). lra.
Qed.

(** Real arithmetic: error of the quotient etc., with [W] the width of the cell, [X] the offset,
    [D] the difference of the values. *)
Lemma lerp_error : forall M w tau X W D y0 a b c d e r,
  0 <= M -> 0 < w -> 0 < eta -> eta <= u53 * w -> eta <= tau -> eta <= tau * w ->
  w <= W -> 0 <= X <= W -> Rabs y0 <= M -> Rabs (y0 + D) <= M ->
  Rabs (a - X) <= u53 * Rabs X + eta -> Rabs (b - D) <= u53 * Rabs D + eta ->
  Rabs (c - a * b) <= u53 * Rabs (a * b) + eta -> Rabs (d - W) <= u53 * Rabs W + eta ->
  Rabs (e - c / d) <= u53 * Rabs (c / d) + eta -> Rabs (r - (y0 + e)) <= u53 * Rabs (y0 + e) + eta ->
  0 < d /\ Rabs (c / d) <= 3 * M + 5 * tau /\ Rabs (y0 + e) <= 2 * M + 8 * tau /\ Rabs (r - (y0 + X * D / W)) <= 32 * u53 * M + 16 * tau.
Proof.
  intros M w tau X W D y0 a b c d e r HM Hw He E1 E2 E3 HW HX Hy HyD Ha Hb Hc Hd He' Hr.
  assert (Hu : 0 < u53 < / 1000000) by (unfold u53; lra).
  assert (HD : Rabs D <= 2 * M).
  { replace D with ((y0 + D) + - y0) by ring. eapply Rle_trans; [apply Rabs_triang|]. rewrite Rabs_Ropp. lra. }
  rewrite (Rabs_pos_eq X) in Ha by lra. rewrite (Rabs_pos_eq W) in Hd by lra.
  assert (PW : 0 < W) by lra.
  assert (UW : eta <= u53 * W) by nra.
  assert (Ht : 0 < tau) by lra.
  assert (UM0 : 0 <= u53 * M) by (apply Rmult_le_pos; lra).
  assert (UT0 : 0 <= u53 * tau) by (apply Rmult_le_pos; lra).
  assert (U1 : u53 * M <= M * / 1000000) by (rewrite Rmult_comm; apply Rmult_le_compat_l; lra).
  assert (UT : u53 * tau <= tau * / 1000000) by (rewrite Rmult_comm; apply Rmult_le_compat_l; lra).
  assert (UUM : u53 * (u53 * M) <= / 1000000 * (u53 * M)) by (apply Rmult_le_compat_r; lra).
  assert (UUT : u53 * (u53 * tau) <= / 1000000 * (u53 * tau)) by (apply Rmult_le_compat_r; lra).
  assert (Ha2 : Rabs (a - X) <= 2 * u53 * W) by nra.
  assert (Hd2 : Rabs (d - W) <= 2 * u53 * W) by lra.
  apply Rabs_le_inv in Hd2.
  assert (Pd : W * (1 - 2 * u53) <= d) by lra.
  assert (WU : 2 * u53 * W <= W / 1000) by (assert (u53 * W <= / 1000000 * W) by (apply Rmult_le_compat_r; lra); lra).
  assert (Pd0 : 0 < d) by lra. split; [exact Pd0|].
  assert (Wd : W / d <= 1 + 3 * u53).
  { apply Rmult_le_reg_r with d; [exact Pd0|]. unfold Rdiv. rewrite Rmult_assoc, Rinv_l, Rmult_1_r by lra.
    apply Rle_trans with ((1 + 3 * u53) * (W * (1 - 2 * u53))); [|apply Rmult_le_compat_l; lra]. nra. }
  assert (Wd0 : 0 <= W / d) by (apply Rmult_le_pos; [lra|left; now apply Rinv_0_lt_compat]).
  set (p := X / W). assert (Hp : 0 <= p <= 1).
  { unfold p. split; [apply Rmult_le_pos; [lra|left; now apply Rinv_0_lt_compat]|].
    apply Rmult_le_reg_r with W; [exact PW|]. unfold Rdiv. rewrite Rmult_assoc, Rinv_l, Rmult_1_r by lra. lra. }
  assert (EX : X = p * W) by (unfold p; field; lra).
  set (q := a / d).
  assert (Hq : Rabs (q - p) <= 5 * u53).
  { assert (E : q - p = ((a - X) + p * (W - d)) / d) by (unfold q; rewrite EX; field; lra).
    rewrite E. unfold Rdiv. rewrite Rabs_mult, (Rabs_pos_eq (/ d)) by (left; now apply Rinv_0_lt_compat).
    assert (K : Rabs (a - X + p * (W - d)) <= 4 * u53 * W).
    { eapply Rle_trans; [apply Rabs_triang|]. rewrite Rabs_mult, (Rabs_pos_eq p) by lra.
      assert (Rabs (W - d) <= 2 * u53 * W) by (apply Rabs_le; lra).
      assert (P := Rabs_pos (W - d)). nra. }
    apply Rle_trans with (4 * u53 * W * / d).
    - apply Rmult_le_compat_r; [left; now apply Rinv_0_lt_compat|exact K].
    - replace (4 * u53 * W * / d) with (4 * u53 * (W / d)) by (unfold Rdiv; ring). nra. }
  assert (Hqb : Rabs q <= 1 + 5 * u53).
  { replace q with (p + (q - p)) by ring. eapply Rle_trans; [apply Rabs_triang|]. rewrite (Rabs_pos_eq p) by lra. lra. }
  assert (Hb2 : Rabs (b - D) <= 2 * u53 * M + tau) by (assert (u53 * Rabs D <= u53 * (2 * M)) by (apply Rmult_le_compat_l; lra); lra).
  assert (HbM : Rabs b <= 2 * M + 2 * u53 * M + tau).
  { replace b with (D + (b - D)) by ring. eapply Rle_trans; [apply Rabs_triang|]. lra. }
  (* b q against D p *)
  assert (K1 : Rabs (b * q - D * p) <= 13 * u53 * M + 2 * tau).
  { replace (b * q - D * p) with ((b - D) * q + D * (q - p)) by ring.
    eapply Rle_trans; [apply Rabs_triang|]. rewrite !Rabs_mult.
    assert (P1 := Rabs_pos (b - D)). assert (P2 := Rabs_pos q). assert (P3 := Rabs_pos D). assert (P4 := Rabs_pos (q - p)).
    assert (Q1 : Rabs (b - D) * Rabs q <= (2 * u53 * M + tau) * (1 + 5 * u53)) by (apply Rmult_le_compat; assumption).
    assert (Q2 : Rabs D * Rabs (q - p) <= 2 * M * (5 * u53)) by (apply Rmult_le_compat; assumption).
    lra. }
  assert (Dp : D * p = X * D / W) by (unfold p; field; lra).
  assert (DpM : Rabs (D * p) <= 2 * M).
  { rewrite Rabs_mult, (Rabs_pos_eq p) by lra. apply Rle_trans with (Rabs D * 1); [apply Rmult_le_compat_l; [apply Rabs_pos|lra]|lra]. }
  (* c / d against b q *)
  assert (K2 : Rabs (c / d - b * q) <= 3 * u53 * M + 3 * tau).
  { replace (c / d - b * q) with ((c - a * b) / d) by (unfold q; field; lra).
    unfold Rdiv. rewrite Rabs_mult, (Rabs_pos_eq (/ d)) by (left; now apply Rinv_0_lt_compat).
    apply Rle_trans with ((u53 * Rabs (a * b) + eta) * / d); [apply Rmult_le_compat_r; [left; now apply Rinv_0_lt_compat|exact Hc]|].
    rewrite Rmult_plus_distr_r.
    assert (Q1 : u53 * Rabs (a * b) * / d = u53 * (Rabs b * Rabs q)).
    { unfold q, Rdiv. rewrite !Rabs_mult, (Rabs_pos_eq (/ d)) by (left; now apply Rinv_0_lt_compat). ring. }
    assert (Q2 : eta * / d <= 2 * tau).
    { apply Rmult_le_reg_r with d; [exact Pd0|]. rewrite Rmult_assoc, Rinv_l, Rmult_1_r by lra.
      apply Rle_trans with (tau * w); [exact E3|].
      apply Rle_trans with (tau * (2 * d)); [apply Rmult_le_compat_l; lra|lra]. }
    rewrite Q1.
    assert (P1 := Rabs_pos b). assert (P2 := Rabs_pos q).
    assert (Q3 : Rabs b * Rabs q <= (2 * M + 2 * u53 * M + tau) * (1 + 5 * u53)) by (apply Rmult_le_compat; assumption).
    assert (Q4 : Rabs b * Rabs q <= 3 * M + 2 * tau) by lra.
    assert (u53 * (Rabs b * Rabs q) <= u53 * (3 * M + 2 * tau)) by (apply Rmult_le_compat_l; lra).
    lra. }
  assert (K3 : Rabs (c / d - D * p) <= 16 * u53 * M + 5 * tau).
  { replace (c / d - D * p) with ((c / d - b * q) + (b * q - D * p)) by ring.
    eapply Rle_trans; [apply Rabs_triang|]. lra. }
  assert (CM : Rabs (c / d) <= 2 * M + 16 * u53 * M + 5 * tau).
  { replace (c / d) with (D * p + (c / d - D * p)) by ring. eapply Rle_trans; [apply Rabs_triang|]. lra. }
  split; [lra|].
  assert (K4 : Rabs (e - D * p) <= 19 * u53 * M + 7 * tau).
  { replace (e - D * p) with ((e - c / d) + (c / d - D * p)) by ring.
    eapply Rle_trans; [apply Rabs_triang|].
    assert (u53 * Rabs (c / d) <= u53 * (2 * M + 16 * u53 * M + 5 * tau)) by (apply Rmult_le_compat_l; lra).
    lra. }
  assert (Cx : Rabs (y0 + D * p) <= M).
  { replace (y0 + D * p) with ((1 - p) * y0 + p * (y0 + D)) by ring.
    eapply Rle_trans; [apply Rabs_triang|]. rewrite !Rabs_mult, (Rabs_pos_eq p), (Rabs_pos_eq (1 - p)) by lra.
    assert (Z1 : (1 - p) * Rabs y0 <= (1 - p) * M) by (apply Rmult_le_compat_l; lra).
    assert (Z2 : p * Rabs (y0 + D) <= p * M) by (apply Rmult_le_compat_l; lra). lra. }
  assert (K5 : Rabs (y0 + e) <= M + 19 * u53 * M + 7 * tau).
  { replace (y0 + e) with ((y0 + D * p) + (e - D * p)) by ring. eapply Rle_trans; [apply Rabs_triang|]. lra. }
  split; [lra|].
  rewrite <- Dp. replace (r - (y0 + D * p)) with ((r - (y0 + e)) + (e - D * p)) by ring.
  eapply Rle_trans; [apply Rabs_triang|].
  assert (u53 * Rabs (y0 + e) <= u53 * (M + 19 * u53 * M + 7 * tau)) by (apply Rmult_le_compat_l; lra).
  lra.
Qed.

(** The same on floating-point numbers. *)
Definition w500 : R := bpow radix2 (-500).
Definition tau : R := bpow radix2 (-570).
Lemma small_numbers : 0 < w500 /\ 0 < eta /\ eta <= u53 * w500 /\ eta <= tau /\ eta <= tau * w500.
Proof.
  assert (Eu : u53 = bpow radix2 (-53)) by (unfold u53; reflexivity).
  rewrite Eu. unfold w500, eta, tau. rewrite <- !bpow_plus.
  repeat split; try apply bpow_gt_0; apply bpow_le; lia.
Qed.
Lemma tau_le : tau <= bpow radix2 0.
Proof. apply bpow_le. lia. Qed.
Definition lerp_b (x x0 x1 y0 y1 : b64) : b64 :=
  Bplus mode_NE y0 (Bdiv mode_NE (Bmult mode_NE (Bminus mode_NE x x0) (Bminus mode_NE y1 y0)) (Bminus mode_NE x1 x0)).
Definition fin (x : b64) : Prop := is_finite x = true.
Definition mag (x : b64) : Prop := Rabs (B2R x) <= bpow radix2 400.
Lemma bpow_double : forall e, bpow radix2 (e + 1) = 2 * bpow radix2 e.
Proof. intros e. rewrite bpow_plus. change (bpow radix2 1) with 2. ring. Qed.
Lemma lerp_ieee : forall M (x x0 x1 y0 y1 : b64), fin x -> fin x0 -> fin x1 -> fin y0 -> fin y1 ->
  mag x -> mag x0 -> mag x1 -> Rabs (B2R y0) <= M -> Rabs (B2R y1) <= M -> M <= bpow radix2 400 ->
  B2R x0 <= B2R x <= B2R x1 -> w500 <= B2R x1 - B2R x0 ->
  fin (lerp_b x x0 x1 y0 y1) /\
  Rabs (B2R (lerp_b x x0 x1 y0 y1) - line (B2R x0, B2R y0) (B2R x1, B2R y1) (B2R x)) <= 32 * u53 * M + 16 * tau.
Proof.
  intros M x x0 x1 y0 y1 Fx Fx0 Fx1 Fy0 Fy1 Mx Mx0 Mx1 H0 H1 HM Hx HW. unfold fin, mag in *.
  destruct small_numbers as (Pw & Pe & S1 & S2 & S3).
  assert (P400 : 0 < bpow radix2 400) by apply bpow_gt_0.
  assert (D401 := bpow_double 400). assert (D402 := bpow_double 401). assert (D403 := bpow_double 402). assert (D404 := bpow_double 403).
  cbn [Z.add Pos.add Pos.succ] in D401, D402, D403, D404.
  assert (One : bpow radix2 0 <= bpow radix2 400) by (apply bpow_le; lia).
  assert (Ht := tau_le).
  assert (HM0 : 0 <= M) by (eapply Rle_trans; [apply Rabs_pos|exact H0]).
  apply Rabs_le_inv in Mx, Mx0, Mx1. assert (H0' := H0). assert (H1' := H1). apply Rabs_le_inv in H0', H1'.
  set (a := Bminus mode_NE x x0). set (b := Bminus mode_NE y1 y0). set (c := Bmult mode_NE a b).
  set (d := Bminus mode_NE x1 x0). set (e := Bdiv mode_NE c d). set (r := Bplus mode_NE y0 e).
  change (lerp_b x x0 x1 y0 y1) with r.
  assert (Ba : Rabs (B2R x - B2R x0) <= bpow radix2 401) by (apply Rabs_le; lra).
  destruct (minus_rnd 401 x x0 ltac:(lia) Fx Fx0 Ba) as [Fa Ea]. fold a in Fa, Ea.
  assert (Bb : Rabs (B2R y1 - B2R y0) <= bpow radix2 401) by (apply Rabs_le; lra).
  destruct (minus_rnd 401 y1 y0 ltac:(lia) Fy1 Fy0 Bb) as [Fb Eb]. fold b in Fb, Eb.
  assert (Bd : Rabs (B2R x1 - B2R x0) <= bpow radix2 401) by (apply Rabs_le; lra).
  destruct (minus_rnd 401 x1 x0 ltac:(lia) Fx1 Fx0 Bd) as [Fd Ed]. fold d in Fd, Ed.
  assert (Ra : Rabs (B2R a) <= bpow radix2 401) by (rewrite Ea; apply rnd_le_bpow; [lia|exact Ba]).
  assert (Rb : Rabs (B2R b) <= bpow radix2 401) by (rewrite Eb; apply rnd_le_bpow; [lia|exact Bb]).
  assert (Bc : Rabs (B2R a * B2R b) <= bpow radix2 802).
  { rewrite Rabs_mult. change 802%Z with (401 + 401)%Z. rewrite bpow_plus.
    apply Rmult_le_compat; auto using Rabs_pos. }
  destruct (mult_rnd 802 a b ltac:(lia) Fa Fb Bc) as [Fc Ec]. fold c in Fc, Ec.
  assert (Xa := round_error (B2R x - B2R x0)). rewrite <- Ea in Xa.
  assert (Xb := round_error (B2R y1 - B2R y0)). rewrite <- Eb in Xb.
  assert (Xc := round_error (B2R a * B2R b)). rewrite <- Ec in Xc.
  assert (Xd := round_error (B2R x1 - B2R x0)). rewrite <- Ed in Xd.
  assert (Hy : Rabs (B2R y0 + (B2R y1 - B2R y0)) <= M) by (replace (B2R y0 + (B2R y1 - B2R y0)) with (B2R y1) by ring; exact H1).
  (* the quotient *)
  destruct (lerp_error M w500 tau (B2R x - B2R x0) (B2R x1 - B2R x0) (B2R y1 - B2R y0) (B2R y0)
    (B2R a) (B2R b) (B2R c) (B2R d) (rnd (B2R c / B2R d)) (rnd (B2R y0 + rnd (B2R c / B2R d)))
    HM0 Pw Pe S1 S2 S3 HW ltac:(lra) H0 Hy Xa Xb Xc Xd (round_error _) (round_error _)) as (Pd & Q1 & Q2 & Q3).
  assert (Be : Rabs (B2R c / B2R d) <= bpow radix2 404) by lra.
  destruct (div_rnd 404 c d ltac:(lia) Fc ltac:(lra) Be) as [Fe Ee]. fold e in Fe, Ee.
  rewrite <- Ee in Q2, Q3.
  assert (Br : Rabs (B2R y0 + B2R e) <= bpow radix2 404) by lra.
  destruct (plus_rnd 404 y0 e ltac:(lia) Fy0 Fe Br) as [Fr Er]. fold r in Fr, Er.
  split; [exact Fr|]. rewrite <- Er in Q3.
  replace (line (B2R x0, B2R y0) (B2R x1, B2R y1) (B2R x)) with
    (B2R y0 + (B2R x - B2R x0) * (B2R y1 - B2R y0) / (B2R x1 - B2R x0)); [exact Q3|].
  unfold line. cbn [fst snd]. field. lra.
Qed.

(** ** Tables of ordinary magnitude *)

(** Bases: finite, of magnitude at most [2^400]; neighbours at least [2^-500] apart. *)
Definition ordinary (xs : list b64) : Prop := forall a, In a xs -> fin a /\ mag a.
Definition spaced (xs : list b64) : Prop :=
  forall i a b, nth_error xs i = Some a -> nth_error xs (S i) = Some b -> w500 <= B2R b - B2R a.
(** Values: finite, of magnitude at most [M]. *)
Definition bounded_by (M : R) (vals : list b64) : Prop := forall a, In a vals -> fin a /\ Rabs (B2R a) <= M.
(** The argument lies between two bases (irrelevant for a table with one base). *)
Definition inside (xs : list b64) (x : b64) : Prop :=
  length xs = 1%nat \/ (fin x /\ exists a b, In a xs /\ In b xs /\ B2R a <= B2R x <= B2R b).
(** The accuracy: [2^-47] of the largest value (plus a subnormal-sized term). *)
Definition accuracy (M : R) : R := M * bpow radix2 (-47) + bpow radix2 (-565).

Lemma map_B2R_sorted : forall xs, spaced xs -> sortedR (map B2R xs).
Proof.
  intros xs. unfold b64 in xs. intros H i a b Ha Hb. rewrite nth_error_map in Ha, Hb.
  unfold option_map in Ha, Hb.
  destruct (nth_error xs i) as [a'|] eqn:Ea; [|discriminate].
  destruct (nth_error xs (S i)) as [b'|] eqn:Eb; [|discriminate].
  injection Ha as <-. injection Hb as <-. specialize (H i a' b' Ea Eb).
  assert (0 < w500) by apply bpow_gt_0. lra.
Qed.

Section Interp.
Context {lm : libm}.
Notation N := (B64 lm).

Lemma ltb_B2R : forall a b : b64, fin a -> fin b -> Bltb a b = true <-> B2R a < B2R b.
Proof.
  intros a b Fa Fb. rewrite (Bltb_correct 53 1024 a b Fa Fb). destruct (Rlt_bool_spec (B2R a) (B2R b)); split; auto; try discriminate; lra.
Qed.

(** The code finds the cell that contains the argument. *)
Lemma get_idx_cell : forall (xs : list b64) (x : b64), (2 <= length xs)%nat -> ordinary xs -> spaced xs -> inside xs x ->
  exists i x0 x1, get_idx (N := N) xs x = Ret (i, S i) /\
    nth_error xs i = Some x0 /\ nth_error xs (S i) = Some x1 /\ B2R x0 <= B2R x <= B2R x1.
Proof.
  intros xs x Hlen Ho Hs [Hin|(Fx & la & lb & La & Lb & Hx)]; [lia|].
  assert (Hs' := map_B2R_sorted xs Hs).
  assert (Hn : forall i a, nth_error xs i = Some a -> nth_error (map B2R xs) i = Some (B2R a)) by (intros i a E; exact (map_nth_error B2R i xs E)).
  apply In_nth_error in La, Lb. destruct La as [ja La], Lb as [jb Lb].
  destruct (get_idx_ok (N := N) xs x Hlen) as (i & Hget & Hi & Hp).
  destruct (partition_point_spec (N := N) xs x) as [Hple [Hlow Hup]].
  cbv zeta in Hp. set (p := partition_point (N := N) xs x) in *.
  destruct (nth_error xs i) as [x0|] eqn:E0; [|apply nth_error_None in E0; cbn in *; lia].
  destruct (nth_error xs (S i)) as [x1|] eqn:E1; [|apply nth_error_None in E1; cbn in *; lia].
  exists i, x0, x1. split; [exact Hget|]. split; [exact E0|]. split; [exact E1|].
  assert (Hlow' : p = 0%nat \/ exists a, nth_error xs (p - 1) = Some a /\ B2R a < B2R x).
  { destruct Hlow as [Hlow|[a [Ha1 Ha2]]]; auto. right. exists a. split; [exact Ha1|].
    apply ltb_B2R; [apply (Ho a); eapply nth_error_In; exact Ha1|exact Fx|exact Ha2]. }
  assert (Hup' : p = length xs \/ exists a, nth_error xs p = Some a /\ B2R x <= B2R a).
  { destruct Hup as [Hup|[a [Ha1 Ha2]]]; auto. right. exists a. split; [exact Ha1|].
    apply Rnot_lt_le. intros Hc. apply ltb_B2R in Hc; [|apply (Ho a); eapply nth_error_In; exact Ha1|exact Fx].
    change (Bltb a x = false) in Ha2. congruence. }
  assert (H01 : B2R x0 < B2R x1) by (apply (Hs' i); auto).
  assert (Hja : (ja < length xs)%nat) by (apply nth_error_Some; congruence).
  assert (Hjb : (jb < length xs)%nat) by (apply nth_error_Some; congruence).
  clear Hlow Hup. cbn [carrier B64] in *.
  destruct Hp as [[Hp0 Hi0]|[[Hpl Hi']|[Hpm Hi']]].
  - assert (B2R x0 <= B2R la) by (apply (sortedR_le (map B2R xs) i ja); auto; lia).
    destruct Hup' as [Hup'|[a [Ha1 Ha2]]]; [lia|]. rewrite Hp0 in Ha1. rewrite Hi0 in E0. rewrite E0 in Ha1. injection Ha1 as <-. lra.
  - assert (B2R lb <= B2R x1) by (apply (sortedR_le (map B2R xs) jb (S i)); auto; lia).
    destruct Hlow' as [Hlow'|[a [Ha1 Ha2]]]; [lia|].
    assert (B2R x0 < B2R a) by (apply (sortedR_lt (map B2R xs) i (p - 1)); auto; lia). lra.
  - destruct Hlow' as [Hlow'|[a [Ha1 Ha2]]]; [lia|]. replace (p - 1)%nat with i in Ha1 by lia.
    rewrite E0 in Ha1. injection Ha1 as <-.
    destruct Hup' as [Hup'|[b [Hb1 Hb2]]]; [lia|]. rewrite <- Hi' in Hb1. rewrite E1 in Hb1. injection Hb1 as <-. lra.
Qed.

(** The three interpolation functions have the same outer shape. *)
Definition outer {T} (xs : list b64) (x : b64) (f : T -> outcome b64) (data : list T) : outcome b64 :=
  if Nat.eqb (length data) 0 then Ret B754_nan
  else if Nat.eqb (length data) 1 then bind (index data 0) f
  else
    bind (get_idx (N := N) xs x) (fun p => let (idx0, idx1) := p : nat * nat in
    bind (index xs idx0) (fun x0 => bind (index xs idx1) (fun x1 =>
    bind (index data idx0) (fun d0 => bind (f d0) (fun y0 =>
    bind (index data idx1) (fun d1 => bind (f d1) (fun y1 => Ret (lerp_b x x0 x1 y0 y1)))))))).
Lemma linear_outer : forall (xs : list b64) (x : b64) (data : list b64), linear_interpolate (N := N) xs x data = outer xs x Ret data.
Proof.
  intros xs x data. unfold linear_interpolate, outer.
  change (@length (carrier N) data) with (@length b64 data).
  destruct (Nat.eqb (@length b64 data) 0); [reflexivity|]. destruct (Nat.eqb (@length b64 data) 1).
  - change (@index (carrier N) data 0) with (@index b64 data 0). destruct (@index b64 data 0); reflexivity.
  - destruct (get_idx (N := N) xs x) as [[i j]|e]; [|reflexivity]. cbn [bind].
    change (@index (carrier N)) with (@index b64).
    destruct (@index b64 xs i); [|reflexivity]. destruct (@index b64 xs j); [|reflexivity].
    destruct (@index b64 data i); [|reflexivity]. destruct (@index b64 data j); reflexivity.
Qed.
Lemma bilinear_outer : forall xs x ys y data,
  bilinear_interpolate (N := N) xs x ys y data = outer xs x (linear_interpolate (N := N) ys y) data.
Proof. reflexivity. Qed.
Lemma trilinear_outer : forall xs x ys y zs z data,
  trilinear_interpolate (N := N) xs x ys y zs z data = outer xs x (bilinear_interpolate (N := N) ys y zs z) data.
Proof. reflexivity. Qed.

Lemma line_convex : forall x0 x1 y0 y1 z0 z1 x e, x0 <= x <= x1 -> x0 < x1 -> Rabs (y0 - z0) <= e -> Rabs (y1 - z1) <= e ->
  Rabs (line (x0, y0) (x1, y1) x - line (x0, z0) (x1, z1) x) <= e.
Proof.
  intros x0 x1 y0 y1 z0 z1 x e Hx H H0 H1. unfold line. cbn [fst snd]. set (t := (x - x0) / (x1 - x0)).
  assert (Ht : 0 <= t <= 1) by (unfold t; split; [apply Rle_div_r; lra|apply Rle_div_l; lra]).
  replace ((x1 - x) / (x1 - x0)) with (1 - t) by (unfold t; field; lra).
  replace (y0 * (1 - t) + y1 * t - (z0 * (1 - t) + z1 * t)) with ((y0 - z0) * (1 - t) + (y1 - z1) * t) by ring.
  eapply Rle_trans; [apply Rabs_triang|]. rewrite !Rabs_mult, (Rabs_pos_eq t), (Rabs_pos_eq (1 - t)) by lra.
  assert (Rabs (y0 - z0) * (1 - t) <= e * (1 - t)) by (apply Rmult_le_compat_r; lra).
  assert (Rabs (y1 - z1) * t <= e * t) by (apply Rmult_le_compat_r; lra). lra.
Qed.

Lemma outer_accuracy : forall T (f : T -> outcome b64) (g : T -> R) xs x data M e,
  length data = length xs -> data <> [] -> ordinary xs -> spaced xs -> inside xs x ->
  0 <= e -> M + e <= bpow radix2 400 ->
  (forall d, In d data -> Rabs (g d) <= M /\ exists r, f d = Ret r /\ fin r /\ Rabs (B2R r - g d) <= e) ->
  Rabs (pl (combine (map B2R xs) (map g data)) (B2R x)) <= M /\
  exists r, outer xs x f data = Ret r /\ fin r /\
    Rabs (B2R r - pl (combine (map B2R xs) (map g data)) (B2R x)) <= 32 * u53 * (M + e) + 16 * tau + e.
Proof.
  intros T f g xs x data M e Hlen Hne Ho Hs Hin He HM Hf.
  assert (Hu : 0 < u53) by (unfold u53; lra). assert (Ht : 0 < tau) by apply bpow_gt_0.
  assert (HM0 : 0 <= M) by (destruct data as [|d data]; [contradiction|]; destruct (Hf d (or_introl eq_refl)) as [H _]; eapply Rle_trans; [apply Rabs_pos|exact H]).
  assert (Hsl : 0 <= 32 * u53 * (M + e)) by (apply Rmult_le_pos; lra).
  assert (Hs' := map_B2R_sorted xs Hs).
  unfold outer.
  destruct (Nat.eq_dec (length data) 0) as [E0|E0]; [destruct data; [contradiction|discriminate]|].
  replace (Nat.eqb (length data) 0) with false by (symmetry; now apply Nat.eqb_neq).
  destruct (Nat.eqb (length data) 1) eqn:E1.
  - apply Nat.eqb_eq in E1. destruct data as [|d [|]]; try discriminate. destruct xs as [|x0 [|]]; try discriminate.
    destruct (Hf d (or_introl eq_refl)) as (Hd & r & Er & Fr & Hr).
    split; [exact Hd|]. exists r. split; [exact Er|]. split; [exact Fr|]. cbn [map combine pl snd]. lra.
  - apply Nat.eqb_neq in E1.
    destruct (get_idx_cell xs x ltac:(lia) Ho Hs Hin) as (i & x0 & x1 & -> & X0 & X1 & Hx).
    assert (Hi : (S i < length xs)%nat) by (apply nth_error_Some; congruence).
    destruct (nth_error data i) as [d0|] eqn:D0; [|apply nth_error_None in D0; lia].
    destruct (nth_error data (S i)) as [d1|] eqn:D1; [|apply nth_error_None in D1; lia].
    cbn [bind]. rewrite (index_nth _ _ X0), (index_nth _ _ X1), (index_nth _ _ D0), (index_nth _ _ D1). cbn [bind].
    destruct (Hf d0 (nth_error_In _ _ D0)) as (G0 & y0 & -> & F0 & R0).
    destruct (Hf d1 (nth_error_In _ _ D1)) as (G1 & y1 & -> & F1 & R1). cbn [bind].
    destruct (Ho x0 (nth_error_In _ _ X0)) as [Fx0 Mx0]. destruct (Ho x1 (nth_error_In _ _ X1)) as [Fx1 Mx1].
    assert (W := Hs i x0 x1 X0 X1). assert (Pw : 0 < w500) by apply bpow_gt_0.
    assert (Fx : fin x) by (destruct Hin as [Hin|[Fx _]]; [lia|exact Fx]).
    assert (Mx : mag x) by (unfold mag in *; apply Rabs_le_inv in Mx0, Mx1; apply Rabs_le; lra).
    assert (N0 : Rabs (B2R y0) <= M + e) by (replace (B2R y0) with (g d0 + (B2R y0 - g d0)) by ring; eapply Rle_trans; [apply Rabs_triang|lra]).
    assert (N1 : Rabs (B2R y1) <= M + e) by (replace (B2R y1) with (g d1 + (B2R y1 - g d1)) by ring; eapply Rle_trans; [apply Rabs_triang|lra]).
    destruct (lerp_ieee (M + e) x x0 x1 y0 y1 Fx Fx0 Fx1 F0 F1 Mx Mx0 Mx1 N0 N1 HM Hx W) as [Fr Hr].
    destruct (pl_chord (map B2R xs) (map g data) i (B2R x0) (B2R x1) (g d0) (g d1) (B2R x)) as [Ep Bp].
    { now rewrite !map_length. } { exact Hs'. }
    { exact (map_nth_error B2R _ xs X0). } { exact (map_nth_error B2R _ xs X1). }
    { exact (map_nth_error g _ data D0). } { exact (map_nth_error g _ data D1). } { exact Hx. }
    split.
    { apply Rabs_le_inv in G0, G1. apply Rabs_le. unfold Rmin, Rmax in Bp. destruct (Rle_dec (g d0) (g d1)); lra. }
    exists (lerp_b x x0 x1 y0 y1). split; [reflexivity|]. split; [exact Fr|]. rewrite Ep.
    match goal with |- Rabs (?a - ?b) <= _ => replace (a - b) with ((a - line (B2R x0, B2R y0) (B2R x1, B2R y1) (B2R x)) + (line (B2R x0, B2R y0) (B2R x1, B2R y1) (B2R x) - b)) by ring end.
    eapply Rle_trans; [apply Rabs_triang|]. apply Rplus_le_compat; [exact Hr|].
    apply line_convex; auto. lra.
Qed.
Lemma accuracy_eq : forall M, accuracy M = 64 * u53 * M + 32 * tau.
Proof.
  intros M. unfold accuracy, u53, tau. change (-565)%Z with (5 + -570)%Z. rewrite (bpow_plus radix2 5).
  change (bpow radix2 5) with 32. change (bpow radix2 (-47)) with (/ 140737488355328). lra.
Qed.

Lemma linear_accuracy : forall xs x vals M,
  length vals = length xs -> vals <> [] -> ordinary xs -> spaced xs -> inside xs x ->
  M <= bpow radix2 400 -> bounded_by M vals ->
  Rabs (pl (combine (map B2R xs) (map B2R vals)) (B2R x)) <= M /\
  exists r, linear_interpolate (N := N) xs x vals = Ret r /\ fin r /\
    Rabs (B2R r - pl (combine (map B2R xs) (map B2R vals)) (B2R x)) <= 32 * u53 * M + 16 * tau.
Proof.
  intros xs x vals M Hlen Hne Ho Hs Hin HM Hv. rewrite linear_outer.
  destruct (outer_accuracy b64 Ret B2R xs x vals M 0 Hlen Hne Ho Hs Hin) as (A & r & Er & Fr & Hr); [lra|lra| |].
  { intros d Hd. destruct (Hv d Hd) as [Fd Bd]. split; [exact Bd|]. exists d. split; [reflexivity|]. split; [exact Fd|].
    replace (B2R d - B2R d) with 0 by ring. rewrite Rabs_R0. lra. }
  split; [exact A|]. exists r. split; [exact Er|]. split; [exact Fr|].
  eapply Rle_trans; [exact Hr|]. lra.
Qed.
Lemma half400 : bpow radix2 399 * 2 = bpow radix2 400.
Proof. change 400%Z with (399 + 1)%Z. rewrite bpow_plus. change (bpow radix2 1) with 2. ring. Qed.
Lemma pl_ne : forall (vals : list b64) (xs : list b64), length vals = length xs -> xs <> [] -> vals <> [].
Proof. intros vals xs H H1 ->. destruct xs; [contradiction|discriminate]. Qed.
Lemma u53_small : 0 < u53 <= / 1000000.
Proof. unfold u53. lra. Qed.
Lemma tau_small : 0 < tau <= bpow radix2 399.
Proof. split; [apply bpow_gt_0|]. apply bpow_le. lia. Qed.
Lemma tau_tiny : 1000 * tau <= bpow radix2 399.
Proof.
  apply Rle_trans with (bpow radix2 10 * tau); [|unfold tau; rewrite <- bpow_plus; apply bpow_le; lia].
  apply Rmult_le_compat_r; [left; apply bpow_gt_0|]. change (bpow radix2 10) with 1024. lra.
Qed.
Lemma bilinear_accuracy : forall xs x ys y (rows : list (list b64)) M,
  length rows = length xs -> rows <> [] -> ordinary xs -> spaced xs -> inside xs x ->
  ys <> [] -> ordinary ys -> spaced ys -> inside ys y ->
  M <= bpow radix2 399 -> (forall row, In row rows -> length row = length ys /\ bounded_by M row) ->
  Rabs (pl2 (map B2R xs) (map B2R ys) (map (map B2R) rows) (B2R x) (B2R y)) <= M /\
  exists r, bilinear_interpolate (N := N) xs x ys y rows = Ret r /\ fin r /\
    Rabs (B2R r - pl2 (map B2R xs) (map B2R ys) (map (map B2R) rows) (B2R x) (B2R y)) <= 65 * u53 * M + 33 * tau.
Proof.
  intros xs x ys y rows M Hlen Hne Ho Hs Hin Hney Hoy Hsy Hiny HM Hv. rewrite bilinear_outer.
  assert (Hu := u53_small). assert (Ht := tau_small). assert (Ht2 := tau_tiny). assert (H4 := half400).
  assert (HM0 : 0 <= M).
  { destruct rows as [|r0 rows]; [contradiction|]. destruct (Hv r0 (or_introl eq_refl)) as [El Hb].
    destruct r0 as [|v r0]; [destruct ys; [contradiction|discriminate]|]. destruct (Hb v (or_introl eq_refl)) as [_ B].
    eapply Rle_trans; [apply Rabs_pos|exact B]. }
  assert (UM : 0 <= u53 * M) by (apply Rmult_le_pos; lra).
  assert (UM' : u53 * M <= / 1000000 * M) by (apply Rmult_le_compat_r; lra).
  assert (UUM : u53 * (u53 * M) <= / 1000000 * (u53 * M)) by (apply Rmult_le_compat_r; lra).
  assert (UT : u53 * tau <= / 1000000 * tau) by (apply Rmult_le_compat_r; lra).
  destruct (outer_accuracy (list b64) (linear_interpolate (N := N) ys y) (fun row => pl (combine (map B2R ys) (map B2R row)) (B2R y))
    xs x rows M (32 * u53 * M + 16 * tau) Hlen Hne Ho Hs Hin) as (A & r & Er & Fr & Hr); [lra|lra| |].
  { intros row Hrow. destruct (Hv row Hrow) as [El Hb].
    apply linear_accuracy; auto; [eapply pl_ne; [exact El|exact Hney]|lra]. }
  unfold pl2. rewrite map_map. split; [exact A|]. exists r. split; [exact Er|]. split; [exact Fr|]. 
  eapply Rle_trans; [exact Hr|]. lra.
Qed.
Lemma trilinear_accuracy : forall xs x ys y zs z (cube : list (list (list b64))) M,
  length cube = length xs -> cube <> [] -> ordinary xs -> spaced xs -> inside xs x ->
  ys <> [] -> ordinary ys -> spaced ys -> inside ys y ->
  zs <> [] -> ordinary zs -> spaced zs -> inside zs z ->
  M <= bpow radix2 399 ->
  (forall rows, In rows cube -> length rows = length ys /\ forall row, In row rows -> length row = length zs /\ bounded_by M row) ->
  exists r, trilinear_interpolate (N := N) xs x ys y zs z cube = Ret r /\ fin r /\
    Rabs (B2R r - pl3 (map B2R xs) (map B2R ys) (map B2R zs) (map (map (map B2R)) cube) (B2R x) (B2R y) (B2R z)) <= 98 * u53 * M + 50 * tau.
Proof.
  intros xs x ys y zs z cube M Hlen Hne Ho Hs Hin Hney Hoy Hsy Hiny Hnez Hoz Hsz Hinz HM Hv. rewrite trilinear_outer.
  assert (Hu := u53_small). assert (Ht := tau_small). assert (Ht2 := tau_tiny). assert (H4 := half400).
  assert (HM0 : 0 <= M).
  { destruct cube as [|r0 cube]; [contradiction|]. destruct (Hv r0 (or_introl eq_refl)) as [El Hb].
    destruct r0 as [|v r0]; [destruct ys; [contradiction|discriminate]|]. destruct (Hb v (or_introl eq_refl)) as [El2 B].
    destruct v as [|w v]; [destruct zs; [contradiction|discriminate]|]. destruct (B w (or_introl eq_refl)) as [_ B'].
    eapply Rle_trans; [apply Rabs_pos|exact B']. }
  assert (UM : 0 <= u53 * M) by (apply Rmult_le_pos; lra).
  assert (UM' : u53 * M <= / 1000000 * M) by (apply Rmult_le_compat_r; lra).
  assert (UUM : u53 * (u53 * M) <= / 1000000 * (u53 * M)) by (apply Rmult_le_compat_r; lra).
  assert (UT : u53 * tau <= / 1000000 * tau) by (apply Rmult_le_compat_r; lra).
  destruct (outer_accuracy (list (list b64)) (bilinear_interpolate (N := N) ys y zs z)
    (fun rows => pl2 (map B2R ys) (map B2R zs) (map (map B2R) rows) (B2R y) (B2R z))
    xs x cube M (65 * u53 * M + 33 * tau) Hlen Hne Ho Hs Hin) as (A & r & Er & Fr & Hr); [lra|lra| |].
  { intros rows Hrow. destruct (Hv rows Hrow) as [El Hb].
    apply bilinear_accuracy; auto. intros ->. destruct ys; [contradiction|discriminate]. }
  unfold pl3. rewrite map_map. exists r. split; [exact Er|]. split; [exact Fr|].
  eapply Rle_trans; [exact Hr|]. lra.
Qed.

(** ** The claims *)

(** C20 in IEEE arithmetic, one dimension: inside its range a table gives a finite number within
    [accuracy M] of the exact piecewise linear interpolant of its (exact) entries. *)
Theorem C20_linear_ieee : forall v (xs vals : list b64) (s : State N) M,
  accepted (N := N) (D1 (mkT1 (N := N) (v, xs) vals Linear)) -> vals <> [] ->
  ordinary xs -> spaced xs -> bounded_by M vals -> M <= bpow radix2 399 ->
  inside xs (get_value v s) ->
  exists r : b64, at_state (N := N) (D1 (mkT1 (N := N) (v, xs) vals Linear)) s = Ret r /\ fin r /\
    Rabs (B2R r - pl (combine (map B2R xs) (map B2R vals)) (B2R (get_value v s : b64))) <= accuracy M.
Proof.
  intros v xs vals s M (x' & d' & i' & Hacc) Hne Ho Hs Hb HM Hin.
  apply C17_table1_accepted in Hacc. destruct Hacc as [[_ Hlen] E].
  injection E as E1 E2 _. subst x' d'. cbn [fst snd] in Hlen.
  assert (H4 := half400). assert (Hu := u53_small). assert (Ht := tau_small). assert (Ht2 := tau_tiny).
  destruct (linear_accuracy xs (get_value v s) vals M Hlen Hne Ho Hs Hin ltac:(lra) Hb) as (A & r & Er & Fr & Hr).
  exists r. split; [exact Er|]. split; [exact Fr|]. rewrite accuracy_eq.
  assert (0 <= u53 * M) by (apply Rmult_le_pos; [lra|eapply Rle_trans; [apply Rabs_pos|exact A]]).
  eapply Rle_trans; [exact Hr|]. lra.
Qed.

(** Two dimensions. *)
Theorem C20_bilinear_ieee : forall v w (xs ys : list b64) (rows : list (list b64)) (s : State N) M,
  accepted (N := N) (D2 (mkT2 (N := N) (v, xs) (w, ys) rows Linear)) -> rows <> [] -> ys <> [] ->
  ordinary xs -> spaced xs -> ordinary ys -> spaced ys ->
  (forall row, In row rows -> bounded_by M row) -> M <= bpow radix2 399 ->
  inside xs (get_value v s) -> inside ys (get_value w s) ->
  exists r : b64, at_state (N := N) (D2 (mkT2 (N := N) (v, xs) (w, ys) rows Linear)) s = Ret r /\ fin r /\
    Rabs (B2R r - pl2 (map B2R xs) (map B2R ys) (map (map B2R) rows) (B2R (get_value v s : b64)) (B2R (get_value w s : b64)))
      <= 2 * accuracy M.
Proof.
  intros v w xs ys rows s M (x' & y' & d' & i' & Hacc) Hne Hney Ho Hs Hoy Hsy Hb HM Hin Hiny.
  apply C17_table2_accepted in Hacc. destruct Hacc as [(_ & Hlen & Hr) E].
  injection E as E1 E2 E3 _. subst x' y' d'. cbn [fst snd] in Hlen, Hr.
  assert (Hu := u53_small). assert (Ht := tau_small).
  destruct (bilinear_accuracy xs (get_value v s) ys (get_value w s) rows M Hlen Hne Ho Hs Hin Hney Hoy Hsy Hiny HM)
    as (A & r & Er & Fr & Hr').
  { intros row Hrow. destruct (Hr row Hrow) as [_ El]. split; [exact El|]. exact (Hb row Hrow). }
  exists r. split; [exact Er|]. split; [exact Fr|]. rewrite accuracy_eq.
  assert (0 <= u53 * M) by (apply Rmult_le_pos; [lra|eapply Rle_trans; [apply Rabs_pos|exact A]]).
  eapply Rle_trans; [exact Hr'|]. lra.
Qed.

(** Three dimensions. *)
Theorem C20_trilinear_ieee : forall v w u (xs ys zs : list b64) (cube : list (list (list b64))) (s : State N) M,
  accepted (N := N) (D3 (mkT3 (N := N) (v, xs) (w, ys) (u, zs) cube Linear)) -> cube <> [] -> ys <> [] -> zs <> [] ->
  ordinary xs -> spaced xs -> ordinary ys -> spaced ys -> ordinary zs -> spaced zs ->
  (forall rows row, In rows cube -> In row rows -> bounded_by M row) -> 0 <= M <= bpow radix2 399 ->
  inside xs (get_value v s) -> inside ys (get_value w s) -> inside zs (get_value u s) ->
  exists r : b64, at_state (N := N) (D3 (mkT3 (N := N) (v, xs) (w, ys) (u, zs) cube Linear)) s = Ret r /\ fin r /\
    Rabs (B2R r - pl3 (map B2R xs) (map B2R ys) (map B2R zs) (map (map (map B2R)) cube)
                    (B2R (get_value v s : b64)) (B2R (get_value w s : b64)) (B2R (get_value u s : b64)))
      <= 3 * accuracy M.
Proof.
  intros v w u xs ys zs cube s M (x' & y' & z' & d' & i' & Hacc) Hne Hney Hnez Ho Hs Hoy Hsy Hoz Hsz Hb HM Hin Hiny Hinz.
  apply C17_table3_accepted in Hacc. destruct Hacc as [(_ & Hlen & Hr) E].
  injection E as E1 E2 E3 E4 _. subst x' y' z' d'. cbn [fst snd] in Hlen, Hr.
  assert (Hu := u53_small). assert (Ht := tau_small).
  destruct (trilinear_accuracy xs (get_value v s) ys (get_value w s) zs (get_value u s) cube M Hlen Hne Ho Hs Hin Hney Hoy Hsy Hiny Hnez Hoz Hsz Hinz ltac:(lra))
    as (r & Er & Fr & Hr').
  { intros rows Hrows. destruct (Hr rows Hrows) as (_ & El & Hrow). split; [exact El|].
    intros row Hin'. destruct (Hrow row Hin') as [_ El']. split; [exact El'|]. exact (Hb rows row Hrows Hin'). }
  exists r. split; [exact Er|]. split; [exact Fr|]. rewrite accuracy_eq.
  assert (0 <= u53 * M) by (apply Rmult_le_pos; lra).
  eapply Rle_trans; [exact Hr'|]. lra.
Qed.

(** C19 in IEEE arithmetic: at a base the stored value is reproduced up to [accuracy M] (not bit
    for bit: [C19_ieee_refuted]). *)
Lemma inside_base : forall (xs : list b64) i x, ordinary xs -> nth_error xs i = Some x -> inside xs x.
Proof.
  intros xs i x Ho E. right. apply nth_error_In in E. destruct (Ho x E) as [Fx _]. split; [exact Fx|].
  exists x, x. split; [exact E|]. split; [exact E|]. lra.
Qed.
Theorem C19_node_ieee : forall v (xs vals : list b64) (s : State N) M i x d,
  accepted (N := N) (D1 (mkT1 (N := N) (v, xs) vals Linear)) ->
  ordinary xs -> spaced xs -> bounded_by M vals -> M <= bpow radix2 399 ->
  nth_error xs i = Some x -> nth_error vals i = Some d -> get_value v s = x ->
  exists r : b64, at_state (N := N) (D1 (mkT1 (N := N) (v, xs) vals Linear)) s = Ret r /\ fin r /\
    Rabs (B2R r - B2R d) <= accuracy M.
Proof.
  intros v xs vals s M i x d Hacc Ho Hs Hb HM Hx Hd Hv.
  destruct (C20_linear_ieee v xs vals s M Hacc) as (r & Er & Fr & Hr); auto.
  { intros ->. destruct i; discriminate. }
  { rewrite Hv. exact (inside_base xs i x Ho Hx). }
  exists r. split; [exact Er|]. split; [exact Fr|]. rewrite Hv in Hr.
  replace (B2R d) with (pl (combine (map B2R xs) (map B2R vals)) (B2R x)); [exact Hr|].
  destruct Hacc as (x' & d' & i' & Hacc). apply C17_table1_accepted in Hacc. destruct Hacc as [[_ Hlen] E].
  injection E as E1 E2 _. subst x' d'. cbn [fst snd] in Hlen.
  apply (pl_node (map B2R xs) (map B2R vals) i).
  - rewrite !map_length. exact Hlen.
  - now apply map_B2R_sorted.
  - exact (map_nth_error B2R i xs Hx).
  - exact (map_nth_error B2R i vals Hd).
Qed.
Theorem C19_node2_ieee : forall v w (xs ys : list b64) (rows : list (list b64)) (s : State N) M i j x y row d,
  accepted (N := N) (D2 (mkT2 (N := N) (v, xs) (w, ys) rows Linear)) ->
  ordinary xs -> spaced xs -> ordinary ys -> spaced ys ->
  (forall row, In row rows -> bounded_by M row) -> M <= bpow radix2 399 ->
  nth_error xs i = Some x -> nth_error ys j = Some y -> nth_error rows i = Some row -> nth_error row j = Some d ->
  get_value v s = x -> get_value w s = y ->
  exists r : b64, at_state (N := N) (D2 (mkT2 (N := N) (v, xs) (w, ys) rows Linear)) s = Ret r /\ fin r /\
    Rabs (B2R r - B2R d) <= 2 * accuracy M.
Proof.
  intros v w xs ys rows s M i j x y row d Hacc Ho Hs Hoy Hsy Hb HM Hx Hy Hrow Hd Hv Hw.
  destruct (C20_bilinear_ieee v w xs ys rows s M Hacc) as (r & Er & Fr & Hr); auto.
  { intros ->. destruct i; discriminate. }
  { intros ->. destruct j; discriminate. }
  { rewrite Hv. exact (inside_base xs i x Ho Hx). }
  { rewrite Hw. exact (inside_base ys j y Hoy Hy). }
  exists r. split; [exact Er|]. split; [exact Fr|]. rewrite Hv, Hw in Hr.
  replace (B2R d) with (pl2 (map B2R xs) (map B2R ys) (map (map B2R) rows) (B2R x) (B2R y)); [exact Hr|].
  destruct Hacc as (x' & y' & d' & i' & Hacc). apply C17_table2_accepted in Hacc. destruct Hacc as [(_ & Hlen & Hl2) E].
  injection E as E1 E2 E3 _. subst x' y' d'. cbn [fst snd] in Hlen, Hl2.
  unfold pl2. apply (pl_node (map B2R xs) _ i).
  - rewrite !map_length. exact Hlen.
  - now apply map_B2R_sorted.
  - exact (map_nth_error B2R i xs Hx).
  - rewrite map_map.
    assert (K := map_nth_error (fun r => pl (combine (map B2R ys) (map B2R r)) (B2R y)) i rows Hrow). cbv beta in K.
    refine (eq_trans K _). f_equal.
    destruct (Hl2 row (nth_error_In _ _ Hrow)) as [_ El].
    apply (pl_node (map B2R ys) (map B2R row) j).
    + rewrite !map_length. exact El.
    + now apply map_B2R_sorted.
    + exact (map_nth_error B2R j ys Hy).
    + exact (map_nth_error B2R j row Hd).
Qed.
Theorem C19_node3_ieee : forall v w u (xs ys zs : list b64) (cube : list (list (list b64))) (s : State N) M i j k x y z rows row d,
  accepted (N := N) (D3 (mkT3 (N := N) (v, xs) (w, ys) (u, zs) cube Linear)) ->
  ordinary xs -> spaced xs -> ordinary ys -> spaced ys -> ordinary zs -> spaced zs ->
  (forall rows row, In rows cube -> In row rows -> bounded_by M row) -> 0 <= M <= bpow radix2 399 ->
  nth_error xs i = Some x -> nth_error ys j = Some y -> nth_error zs k = Some z ->
  nth_error cube i = Some rows -> nth_error rows j = Some row -> nth_error row k = Some d ->
  get_value v s = x -> get_value w s = y -> get_value u s = z ->
  exists r : b64, at_state (N := N) (D3 (mkT3 (N := N) (v, xs) (w, ys) (u, zs) cube Linear)) s = Ret r /\ fin r /\
    Rabs (B2R r - B2R d) <= 3 * accuracy M.
Proof.
  intros v w u xs ys zs cube s M i j k x y z rows row d Hacc Ho Hs Hoy Hsy Hoz Hsz Hb HM Hx Hy Hz Hrows Hrow Hd Hv Hw Hu.
  destruct (C20_trilinear_ieee v w u xs ys zs cube s M Hacc) as (r & Er & Fr & Hr); auto.
  { intros ->. destruct i; discriminate. }
  { intros ->. destruct j; discriminate. }
  { intros ->. destruct k; discriminate. }
  { rewrite Hv. exact (inside_base xs i x Ho Hx). }
  { rewrite Hw. exact (inside_base ys j y Hoy Hy). }
  { rewrite Hu. exact (inside_base zs k z Hoz Hz). }
  exists r. split; [exact Er|]. split; [exact Fr|]. rewrite Hv, Hw, Hu in Hr.
  replace (B2R d) with (pl3 (map B2R xs) (map B2R ys) (map B2R zs) (map (map (map B2R)) cube) (B2R x) (B2R y) (B2R z)); [exact Hr|].
  destruct Hacc as (x' & y' & z' & d' & i' & Hacc). apply C17_table3_accepted in Hacc. destruct Hacc as [(_ & Hlen & Hl2) E].
  injection E as E1 E2 E3 E4 _. subst x' y' z' d'. cbn [fst snd] in Hlen, Hl2.
  unfold pl3. apply (pl_node (map B2R xs) _ i).
  - rewrite !map_length. exact Hlen.
  - now apply map_B2R_sorted.
  - exact (map_nth_error B2R i xs Hx).
  - rewrite map_map.
    assert (K := map_nth_error (fun r => pl2 (map B2R ys) (map B2R zs) (map (map B2R) r) (B2R y) (B2R z)) i cube Hrows). cbv beta in K.
    refine (eq_trans K _). f_equal.
    destruct (Hl2 rows (nth_error_In _ _ Hrows)) as (_ & El & Hl3).
    unfold pl2. apply (pl_node (map B2R ys) _ j).
    + rewrite !map_length. exact El.
    + now apply map_B2R_sorted.
    + exact (map_nth_error B2R j ys Hy).
    + rewrite map_map.
      assert (K2 := map_nth_error (fun r => pl (combine (map B2R zs) (map B2R r)) (B2R z)) j rows Hrow). cbv beta in K2.
      refine (eq_trans K2 _). f_equal.
      destruct (Hl3 row (nth_error_In _ _ Hrow)) as [_ El'].
      apply (pl_node (map B2R zs) (map B2R row) k).
      * rewrite !map_length. exact El'.
      * now apply map_B2R_sorted.
      * exact (map_nth_error B2R k zs Hz).
      * exact (map_nth_error B2R k row Hd).
Qed.
End Interp.

(** ** A concrete case: the table of [Prop_Tables.ex_t1] ([10, 20, -5] over [0, 1, 3]) between its bases *)
Lemma int_B2R : forall k, (Z.abs k <=? 2 ^ 53)%Z = true -> fin (b64_of_Z k) /\ B2R (b64_of_Z k) = IZR k.
Proof.
  intros k Hk. apply Z.leb_le in Hk. unfold fin, b64_of_Z.
  assert (G := binary_normalize_correct 53 1024 Hprec64 Hmax64 mode_NE k 0 false).
  assert (E : F2R (Float radix2 k 0) = IZR k) by (unfold F2R; cbn; ring).
  cbv zeta in G. rewrite E in G.
  assert (Fmt : generic_format radix2 (SpecFloat.fexp 53 1024) (IZR k)).
  { destruct (Z.eq_dec k 0) as [->|Hk0]; [apply generic_format_0|].
    change (SpecFloat.fexp 53 1024) with (FLT_exp (-1074) 53).
    destruct (Z.eq_dec (Z.abs k) (2 ^ 53)) as [Ek|Ek].
    - apply generic_format_FLT. exists (Float radix2 (k / 2) 1).
      + unfold F2R. cbn [Fnum Fexp]. change (bpow radix2 1) with 2. rewrite <- mult_IZR. f_equal.
        destruct (Z.abs_eq_or_opp k) as [Q|Q]; rewrite Q in Ek; [subst k; reflexivity|].
        assert (k = - 2 ^ 53)%Z by lia. subst k. reflexivity.
      + cbn [Fnum]. change (Z.pow radix2 53) with (2 ^ 53)%Z.
        destruct (Z.abs_eq_or_opp k) as [Q|Q]; rewrite Q in Ek; [subst k; reflexivity|].
        assert (k = - 2 ^ 53)%Z by lia. subst k. reflexivity.
      + cbn. lia.
    - apply generic_format_FLT. exists (Float radix2 k 0); [symmetry; exact E| |cbn; lia].
      cbn [Fnum]. change (Z.pow radix2 53) with (2 ^ 53)%Z. lia. }
  assert (Er : round radix2 (SpecFloat.fexp 53 1024) (round_mode mode_NE) (IZR k) = IZR k) by (apply round_generic; [apply valid_rnd_round_mode|exact Fmt]).
  rewrite Er in G.
  rewrite Rlt_bool_true in G; [tauto|].
  rewrite <- abs_IZR. apply Rle_lt_trans with (IZR (2 ^ 53)); [now apply IZR_le|].
  change (IZR (2 ^ 53)) with (bpow radix2 53). apply bpow_lt. lia.
Qed.
Lemma int_mag : forall k, (Z.abs k <=? 2 ^ 53)%Z = true -> mag (b64_of_Z k).
Proof.
  intros k Hk. unfold mag. destruct (int_B2R k Hk) as [_ ->]. apply Z.leb_le in Hk.
  rewrite <- abs_IZR. apply Rle_trans with (IZR (2 ^ 53)); [now apply IZR_le|].
  change (IZR (2 ^ 53)) with (bpow radix2 53). apply bpow_le. lia.
Qed.
Example ex_interp_ieee : forall lm (s : State (B64 lm)),
  get_value MachNumber s = Bdiv mode_NE (b64_of_Z 5) (b64_of_Z 4) ->
  exists r : b64, at_state (D1 (ex_t1 lm)) s = Ret r /\ fin r /\ Rabs (B2R r - (20 + (1 / 4) * (-5 - 20) / 2)) <= 20 * bpow radix2 (-47) + bpow radix2 (-565).
Proof.
  intros lm s Hv. set (q := Bdiv mode_NE (b64_of_Z 5) (b64_of_Z 4)) in *.
  assert (Hq : fin q /\ B2R q = 5 / 4).
  { split; [vm_compute; reflexivity|]. 
    assert (Eq : B2SF q = SpecFloat.S754_finite false 5629499534213120 (-52)) by (vm_compute; reflexivity).
    rewrite <- (SF2R_B2SF 53 1024), Eq. cbn [SF2R cond_Zopp]. unfold F2R. cbn [Fnum Fexp].
    change (bpow radix2 (-52)) with (/ 4503599627370496). lra. }
  destruct Hq as [Fq Eq].
  assert (I : forall k, (Z.abs k <=? 2 ^ 53)%Z = true -> fin (b64_of_Z k) /\ B2R (b64_of_Z k) = IZR k) by exact int_B2R.
  destruct (I 0%Z eq_refl) as [F0 E0]. destruct (I 1%Z eq_refl) as [F1 E1]. destruct (I 3%Z eq_refl) as [F3 E3].
  destruct (I 10%Z eq_refl) as [F10 E10]. destruct (I 20%Z eq_refl) as [F20 E20]. destruct (I (-5)%Z eq_refl) as [F5 E5].
  assert (Pw : w500 <= 1) by (change 1 with (bpow radix2 0); apply bpow_le; lia).
  destruct (C20_linear_ieee (lm := lm) MachNumber [b64_of_Z 0; b64_of_Z 1; b64_of_Z 3] [b64_of_Z 10; b64_of_Z 20; b64_of_Z (-5)] s 20) as (r & Er & Fr & Hr).
  - exact (ex_t1_accepted lm).
  - discriminate.
  - intros a [<-|[<-|[<-|[]]]]; (split; [assumption|apply int_mag; reflexivity]).
  - generalize dependent (b64_of_Z 0). generalize dependent (b64_of_Z 1). generalize dependent (b64_of_Z 3).
    intros z3 F3 E3 z1 F1 E1 z0 F0 E0.
    intros [|[|[|i]]] a b Ha Hb; cbn [nth_error] in Ha, Hb; try discriminate; try (destruct i; discriminate).
    + injection Ha as <-. injection Hb as <-. rewrite E0, E1. lra.
    + injection Ha as <-. injection Hb as <-. rewrite E1, E3. lra.
  - intros a [<-|[<-|[<-|[]]]]; (split; [assumption|]); [rewrite E10|rewrite E20|rewrite E5]; apply Rabs_le; lra.
  - apply Rle_trans with (bpow radix2 5); [change (bpow radix2 5) with 32; lra|apply bpow_le; lia].
  - right. rewrite Hv. split; [exact Fq|]. exists (b64_of_Z 1), (b64_of_Z 3).
    split; [right; left; reflexivity|]. split; [right; right; left; reflexivity|].
    change (B2R (b64_of_Z 1) <= B2R q <= B2R (b64_of_Z 3)). rewrite E1, E3, Eq. lra.
  - exists r. split; [exact Er|]. split; [exact Fr|]. unfold accuracy in Hr. rewrite Hv in Hr.
    cbn [map combine pl fst] in Hr. change (@B2R 53 1024 q) with (B2R q) in Hr. rewrite Eq, E0, E1, E3, E10, E20, E5 in Hr.
    destruct (Rle_dec (5 / 4) 1); [lra|].
    replace (20 + 1 / 4 * (-5 - 20) / 2) with (line (1, 20) (3, -5) (5 / 4)); [exact Hr|]. unfold line. cbn. field.
Qed.
