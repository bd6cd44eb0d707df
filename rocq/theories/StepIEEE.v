(** * One coasting step in double precision

    The integrator's step of one second, without forces but gravity, is an inexact Runge-Kutta step in the sense of
    RK4Error: every position, velocity and acceleration it computes is off by a few rounding errors. *)
From Coq Require Import ZArith List Reals Lra Lia Bool.
From Coquelicot Require Import Coquelicot.
From Coq Require Import List.
From Flocq Require Import Core BinarySingleNaN.
From Verif Require Import Num Constants State Tables Config Planet Atmosphere Transformations Steering Vehicle RungeKutta Phase Simulation
  XR XRFacts SpecReal SystemFacts B64 B64Facts RKFacts Prop_Gravity Prop_InterpIEEE Prop_IEEE Rounding Prop_GravityIEEE FieldBounds RK4Error.
Import ListNotations.
Local Open Scope R_scope.
Local Notation "x +' y" := (Bplus mode_NE x y) (at level 50, left associativity).
Local Notation "x *' y" := (Bmult mode_NE x y) (at level 40, left associativity).
Local Notation "x /' y" := (Bdiv mode_NE x y) (at level 40, left associativity).
Local Notation lit m := (b64_lit m 0).

(** ** Finite results have finite operands *)
Lemma plus_operands : forall x y : b64, is_finite (x +' y) = true -> is_finite x = true /\ is_finite y = true.
Proof.
  intros x y H. destruct x as [s|s| |s m e B], y as [s'|s'| |s' m' e' B']; cbn in H; try discriminate H; split; try reflexivity; try (destruct s, s'; discriminate H).
Qed.
Lemma mult_operands : forall x y : b64, is_finite (x *' y) = true -> is_finite x = true /\ is_finite y = true.
Proof. intros x y H. destruct x as [s|s| |s m e B], y as [s'|s'| |s' m' e' B']; cbn in H; try discriminate H; split; reflexivity. Qed.
Lemma div_operand : forall x y : b64, is_finite (x /' y) = true -> is_finite x = true.
Proof. intros x y H. destruct x as [s|s| |s m e B], y as [s'|s'| |s' m' e' B']; cbn in H; try discriminate H; reflexivity. Qed.

(** ** Quantities that are zero or not numbers *)
Definition dead (x : b64) : Prop := is_finite x = true -> B2R x = 0.
Lemma small : forall x : R, x = 0 -> Rlt_bool (Rabs (rnd x)) (bpow radix2 1024) = true.
Proof. intros x ->. rewrite round_0 by apply valid_rnd_N. rewrite Rabs_R0. apply Rlt_bool_true, bpow_gt_0. Qed.
Lemma dead_plus : forall x y : b64, dead x -> dead y -> dead (x +' y).
Proof.
  intros x y Hx Hy F. destruct (plus_operands x y F) as [Fx Fy]. assert (C := Bplus_correct 53 1024 Hprec64 Hmax64 mode_NE x y Fx Fy).
  unfold round_mode in C. change (SpecFloat.fexp 53 1024) with fexp64 in C. rewrite (Hx Fx), (Hy Fy), small in C by ring. destruct C as [-> _].
  rewrite Rplus_0_r. apply round_0, valid_rnd_N.
Qed.
Lemma dead_mult : forall x y : b64, dead y -> dead (x *' y).
Proof.
  intros x y Hy F. destruct (mult_operands x y F) as [Fx Fy]. assert (C := Bmult_correct 53 1024 Hprec64 Hmax64 mode_NE x y).
  unfold round_mode in C. change (SpecFloat.fexp 53 1024) with fexp64 in C. rewrite (Hy Fy), small in C by ring. destruct C as [-> _].
  rewrite Rmult_0_r. apply round_0, valid_rnd_N.
Qed.
Lemma dead_div : forall x y : b64, dead x -> dead (x /' y).
Proof.
  intros x y Hx F. assert (Fx := div_operand x y F). specialize (Hx Fx). destruct x as [s|s| |s m e B]; try discriminate Fx.
  - destruct y as [s'|s'| |s' m' e' B']; cbn in F |- *; try discriminate F; reflexivity.
  - exfalso. cbn in Hx. apply eq_0_F2R in Hx. destruct s; discriminate Hx.
Qed.
Lemma dead_zero : forall x : b64, is_zero x -> dead x.
Proof. intros x [s ->] _. reflexivity. Qed.
Lemma plus_dead : forall x y : b64, dead x -> is_finite (x +' y) = true -> is_finite y = true /\ B2R (x +' y) = B2R y.
Proof.
  intros x y Hx F. destruct (plus_operands x y F) as [Fx Fy]. split; [exact Fy|]. assert (C := Bplus_correct 53 1024 Hprec64 Hmax64 mode_NE x y Fx Fy).
  unfold round_mode in C. change (SpecFloat.fexp 53 1024) with fexp64 in C. rewrite (Hx Fx), Rplus_0_l, round_self, abs_lt_max in C. apply C.
Qed.

(** ** Sums with zeros *)
Definition val (x : b64) (r : R) : Prop := is_finite x = true /\ B2R x = r.
Lemma val_zero_mult : forall y : b64, is_finite y = true -> val (lit 0 *' y) 0.
Proof.
  intros y F. assert (C := Bmult_correct 53 1024 Hprec64 Hmax64 mode_NE (lit 0) y). destruct (int_B2R 0 eq_refl) as [F0 E0].
  change (b64_of_Z 0) with (lit 0) in F0, E0.
  unfold round_mode in C. change (SpecFloat.fexp 53 1024) with fexp64 in C. rewrite E0, small in C by ring. destruct C as (C1 & C2 & _).
  split; [rewrite C2, F; exact F0|]. rewrite C1, Rmult_0_l. apply round_0, valid_rnd_N.
Qed.
Lemma near_plus_zero : forall M k x r z, near M k x r -> val z 0 -> near M k (x +' z) r.
Proof.
  intros M k x r z (F & B & E) [Fz Ez]. assert (C := Bplus_correct 53 1024 Hprec64 Hmax64 mode_NE x z F Fz).
  unfold round_mode in C. change (SpecFloat.fexp 53 1024) with fexp64 in C. rewrite Ez, Rplus_0_r, round_self, abs_lt_max in C.
  destruct C as (C1 & C2 & _). split; [exact C2|]. split; [exact B|]. now rewrite C1.
Qed.
Lemma near_zero_left : forall M k x r z, near M k x r -> val z 0 -> near M k (z +' x) r.
Proof.
  intros M k x r z (F & B & E) [Fz Ez]. assert (C := Bplus_correct 53 1024 Hprec64 Hmax64 mode_NE z x Fz F).
  unfold round_mode in C. change (SpecFloat.fexp 53 1024) with fexp64 in C. rewrite Ez, Rplus_0_l, round_self, abs_lt_max in C.
  destruct C as (C1 & C2 & _). split; [exact C2|]. split; [exact B|]. now rewrite C1.
Qed.
Lemma val_near : forall x r M, val x r -> Rabs r <= M -> near M 0 x r.
Proof. intros x r M [F <-] B. now apply near_exact. Qed.
Lemma val_plus_zero : forall x r z, val x r -> val z 0 -> val (x +' z) r.
Proof.
  intros x r z [F E] [Fz Ez]. assert (C := Bplus_correct 53 1024 Hprec64 Hmax64 mode_NE x z F Fz).
  unfold round_mode in C. change (SpecFloat.fexp 53 1024) with fexp64 in C. rewrite Ez, Rplus_0_r, round_self, abs_lt_max in C.
  destruct C as (C1 & C2 & _). split; [exact C2|]. now rewrite C1.
Qed.
Lemma val_0 : val (lit 0) 0.
Proof. exact (int_B2R 0 eq_refl). Qed.
Definition sum4 (a b c d : b64) : b64 := lit 0 +' a +' b +' c +' d.
Lemma sum_0 : forall a b c d, val a 0 -> val b 0 -> val c 0 -> val d 0 -> val (sum4 a b c d) 0.
Proof. intros. unfold sum4. repeat (apply val_plus_zero; [|assumption]). exact val_0. Qed.
Lemma sum_1 : forall M k a b c d r, near M k a r -> val b 0 -> val c 0 -> val d 0 -> near M k (sum4 a b c d) r.
Proof. intros. unfold sum4. repeat (apply near_plus_zero; [|assumption]). now apply near_zero_left; [|exact val_0]. Qed.
Lemma sum_2 : forall M k a b c d r, val a 0 -> near M k b r -> val c 0 -> val d 0 -> near M k (sum4 a b c d) r.
Proof. intros. unfold sum4. do 2 (apply near_plus_zero; [|assumption]). apply near_zero_left; [assumption|]. apply val_plus_zero; [exact val_0|assumption]. Qed.
Lemma sum_3 : forall M k a b c d r, val a 0 -> val b 0 -> near M k c r -> val d 0 -> near M k (sum4 a b c d) r.
Proof.
  intros. unfold sum4. apply near_plus_zero; [|assumption]. apply near_zero_left; [assumption|].
  apply val_plus_zero; [apply val_plus_zero; [exact val_0|assumption]|assumption].
Qed.

(** ** One component of the step *)
Section Component.
Variables (M W : R) (h : b64).
Hypothesis (BM : between 95 M) (BW : between 95 W) (WM : W <= M / 50) (Hh : near (1 / 2) 0 h (1 / 2)).
Let PM : 0 < M := between_pos _ _ BM.
Let PW : 0 < W := between_pos _ _ BW.
Lemma size_M : forall c, / 1000000000 <= c <= 1000000000 -> ordinary_size (c * M).
Proof. intros c Hc. apply (between_size (30 + 95)); [|lia]. apply between_mult; [now apply between_num|exact BM]. Qed.
Lemma size_W : forall c, / 1000000000 <= c <= 1000000000 -> ordinary_size (c * W).
Proof. intros c Hc. apply (between_size (30 + 95)); [|lia]. apply between_mult; [now apply between_num|exact BW]. Qed.
Lemma size_MW : forall a b, / 1000000000 <= a <= 100000000 -> 0 <= b <= 100000000 -> ordinary_size (a * M + b * W).
Proof.
  intros a b Ha Hb. assert (S1 := size_M a ltac:(lra)). assert (S2 := size_M (a + b) ltac:(lra)).
  assert (0 <= b * W) by (apply Rmult_le_pos; lra). assert (b * W <= b * M) by (apply Rmult_le_compat_l; lra).
  destruct S1 as [S1 _], S2 as [_ S2]. split; [lra|]. eapply Rle_trans; [|exact S2]. lra.
Qed.
(** [h] times a stage derivative, with its factor of one second. *)
Lemma half_term : forall c w r, / 1000 <= c <= 1000 -> near (c * W) 0 w r -> near (c / 2 * W) (11 / 10) (h *' (lit 1 *' w)) (1 / 2 * r).
Proof.
  intros c w r Hc H. apply (times _ _ _ _ _ _ _ _ _ _ Hh (near_one_mult _ _ _ _ H)); try (split; lra); try lra.
  - assert (0 <= c * W) by (apply Rmult_le_pos; lra). lra.
  - apply size_W. lra.
Qed.
Lemma add_gen : forall M1 M2 k x t r, 0 <= M1 -> 0 <= M2 -> 0 <= k <= 100 -> ordinary_size (M1 + M2) -> is_finite x = true -> Rabs (B2R x) <= M1 ->
  near M2 k t r -> is_finite (x +' t) = true /\ Rabs (B2R (x +' t) - (B2R x + r)) <= (k * M2 + 1001 / 1000 * (M1 + M2)) * u53.
Proof.
  intros M1 M2 k x t r P1 P2 Hk O F B H. assert (PS := size_pos _ O).
  assert (E : k * M2 / (M1 + M2) * (M1 + M2) = k * M2) by (field; lra).
  assert (K : 0 <= k * M2 / (M1 + M2) <= 100).
  { assert (0 <= k * M2) by (apply Rmult_le_pos; lra). split; [apply Rmult_le_pos; [lra|left; now apply Rinv_0_lt_compat]|].
    apply (Rmult_le_reg_r (M1 + M2)); [lra|]. rewrite E. assert (k * M2 <= 100 * M2) by (apply Rmult_le_compat_r; lra). lra. }
  assert (G := near_plus2 M1 M2 0 k (k * M2 / (M1 + M2)) x t _ _ (near_exact _ _ F B) H ltac:(lra) ltac:(split; lra) P1 P2 O).
  destruct G as (G1 & _ & G2). split; [exact G1|]. eapply Rle_trans; [exact G2|].
  replace ((k * M2 / (M1 + M2) + 1001 / 1000) * u53 * (M1 + M2)) with ((k * M2 / (M1 + M2) * (M1 + M2) + 1001 / 1000 * (M1 + M2)) * u53) by ring.
  rewrite E. lra.
Qed.
(** A position plus a step: off by at most 3/2 roundings of its size. *)
Lemma add_x : forall c k x t r, / 1000 <= c <= 22 / 10 -> 0 <= k <= 47 / 10 -> is_finite x = true -> Rabs (B2R x) <= M -> near (c * W) k t r ->
  is_finite (x +' t) = true /\ Rabs (B2R (x +' t) - (B2R x + r)) <= 3 / 2 * M * u53.
Proof.
  intros c k x t r Hc Hk F B H. assert (PC : 0 <= c * W) by (apply Rmult_le_pos; lra).
  assert (S : ordinary_size (M + c * W)) by (replace M with (1 * M) by ring; apply size_MW; lra).
  destruct (add_gen M (c * W) k x t r ltac:(lra) PC ltac:(lra) S F B H) as [G1 G2]. split; [exact G1|]. eapply Rle_trans; [exact G2|].
  apply Rmult_le_compat_r; [unfold u53; lra|].
  assert (X : k * (c * W) <= 47 / 10 * (22 / 10 * (M / 50))).
  { apply Rmult_le_compat; try lra. apply Rmult_le_compat; lra. }
  assert (Y : c * W <= 22 / 10 * (M / 50)) by (apply Rmult_le_compat; lra). lra.
Qed.
(** A velocity plus a step. *)
Lemma add_v : forall c k x t r, / 1000 <= c <= 1 -> 0 <= k <= 47 / 10 -> is_finite x = true -> Rabs (B2R x) <= W -> near (c * W) k t r ->
  is_finite (x +' t) = true /\ Rabs (B2R (x +' t) - (B2R x + r)) <= 7 * W * u53.
Proof.
  intros c k x t r Hc Hk F B H. assert (PC : 0 <= c * W) by (apply Rmult_le_pos; lra).
  assert (S : ordinary_size (W + c * W)) by (replace (W + c * W) with ((1 + c) * W) by ring; apply size_W; lra).
  destruct (add_gen W (c * W) k x t r ltac:(lra) PC ltac:(lra) S F B H) as [G1 G2]. split; [exact G1|]. eapply Rle_trans; [exact G2|].
  apply Rmult_le_compat_r; [unfold u53; lra|].
  assert (Y : c * W <= 1 * W) by (apply Rmult_le_compat_r; lra).
  assert (X : k * (c * W) <= 47 / 10 * (1 * W)) by (apply Rmult_le_compat; lra). lra.
Qed.
(** The weighted sum of the four stages. *)
Lemma all_term : forall n d c w r, (Z.abs n <=? 2 ^ 53)%Z = true -> (d <=? 2 ^ 53)%Z = true -> (0 < n)%Z -> (0 < d)%Z -> / 100 <= IZR n / IZR d <= 1 ->
  / 100 <= c <= 100 -> near (c * W) 0 w r ->
  near (IZR n / IZR d * (c * W)) (22 / 10) (lit n /' lit d *' (lit 1 *' w)) (IZR n / IZR d * r).
Proof.
  intros n d c w r Hn Hd Pn Pd R Hc H. assert (Q := quotient n d Hn Hd Pd). rewrite Z.abs_eq in Q by lia. specialize (Q ltac:(lra)).
  assert (PC : 0 <= c * W) by (apply Rmult_le_pos; lra).
  apply (times _ _ _ _ _ _ _ _ _ _ Q (near_one_mult _ _ _ _ H)); try (split; lra); try lra.
  replace (IZR n / IZR d * (c * W)) with ((IZR n / IZR d * c) * W) by ring. apply size_W. split.
  - apply Rle_trans with (/ 100 * / 100); [lra|]. apply Rmult_le_compat; lra.
  - apply Rle_trans with (1 * 100); [|lra]. apply Rmult_le_compat; lra.
Qed.
Lemma sum_all : forall c w1 w2 w3 w4 r1 r2 r3 r4, / 100 <= c <= 100 ->
  near (c * W) 0 w1 r1 -> near (c * W) 0 w2 r2 -> near (c * W) 0 w3 r3 -> near (c * W) 0 w4 r4 ->
  near (c * W) (47 / 10) (sum4 (lit 1 /' lit 6 *' (lit 1 *' w1)) (lit 1 /' lit 3 *' (lit 1 *' w2)) (lit 1 /' lit 3 *' (lit 1 *' w3)) (lit 1 /' lit 6 *' (lit 1 *' w4)))
    (1 / 6 * ((r1 + 2 * r2) + (2 * r3 + r4))).
Proof.
  intros c w1 w2 w3 w4 r1 r2 r3 r4 Hc H1 H2 H3 H4. assert (PC : 0 < c * W) by (apply Rmult_lt_0_compat; lra).
  assert (T1 := all_term 1 6 c w1 r1 eq_refl eq_refl ltac:(lia) ltac:(lia) ltac:(cbn; lra) Hc H1).
  assert (T2 := all_term 1 3 c w2 r2 eq_refl eq_refl ltac:(lia) ltac:(lia) ltac:(cbn; lra) Hc H2).
  assert (T3 := all_term 1 3 c w3 r3 eq_refl eq_refl ltac:(lia) ltac:(lia) ltac:(cbn; lra) Hc H3).
  assert (T4 := all_term 1 6 c w4 r4 eq_refl eq_refl ltac:(lia) ltac:(lia) ltac:(cbn; lra) Hc H4).
  assert (S : forall a, / 100 <= a <= 1 -> ordinary_size (a * (c * W))).
  { intros a Ha. replace (a * (c * W)) with (a * c * W) by ring. apply size_W. split.
    - apply Rle_trans with (/ 100 * / 100); [lra|]. apply Rmult_le_compat; lra.
    - apply Rle_trans with (1 * 100); [|lra]. apply Rmult_le_compat; lra. }
  apply near_zero_plus in T1.
  assert (A2 := plus_ _ _ _ _ (1 / 2 * (c * W)) (33 / 10) _ _ _ _ T1 T2 ltac:(lra) ltac:(lra) ltac:(lra) ltac:(lra) ltac:(lra) (S (1 / 2) ltac:(lra))).
  assert (A3 := plus_ _ _ _ _ (5 / 6 * (c * W)) (39 / 10) _ _ _ _ A2 T3 ltac:(lra) ltac:(lra) ltac:(lra) ltac:(lra) ltac:(lra) (S (5 / 6) ltac:(lra))).
  assert (A4 := plus_ _ _ _ _ (1 * (c * W)) (47 / 10) _ _ _ _ A3 T4 ltac:(lra) ltac:(lra) ltac:(lra) ltac:(lra) ltac:(lra) (S 1 ltac:(lra))).
  unfold sum4. replace (1 / 6 * (r1 + 2 * r2 + (2 * r3 + r4))) with (1 / 6 * r1 + 1 / 3 * r2 + 1 / 3 * r3 + 1 / 6 * r4) by field.
  rewrite Rmult_1_l in A4. exact A4.
Qed.
End Component.

Section IEEE.
Variable lm : libm.
Notation N := (B64 lm).
(** ** Vectors of doubles *)
Definition vnear (M k : R) (v : vec3 b64) (r : vec3 R) : Prop := near M k (vx v) (vx r) /\ near M k (vy v) (vy r) /\ near M k (vz v) (vz r).
Definition vval0 (v : vec3 b64) : Prop := val (vx v) 0 /\ val (vy v) 0 /\ val (vz v) 0.
Notation add := (vadd (N := N)).
Notation scale := (vscale (N := N)).
Definition vsum4 (a b c d : vec3 N) : vec3 N := add (add (add (add (vzero (N := N)) a) b) c) d.
Lemma vsum_0 : forall a b c d, vval0 a -> vval0 b -> vval0 c -> vval0 d -> vval0 (vsum4 a b c d).
Proof. intros a b c d (A1 & A2 & A3) (B1 & B2 & B3) (C1 & C2 & C3) (D1 & D2 & D3). split; [|split]; apply sum_0; assumption. Qed.
Lemma vsum_1 : forall M k a b c d r, vnear M k a r -> vval0 b -> vval0 c -> vval0 d -> vnear M k (vsum4 a b c d) r.
Proof. intros M k a b c d r (A1 & A2 & A3) (B1 & B2 & B3) (C1 & C2 & C3) (D1 & D2 & D3). split; [|split]; apply sum_1; assumption. Qed.
Lemma vsum_2 : forall M k a b c d r, vval0 a -> vnear M k b r -> vval0 c -> vval0 d -> vnear M k (vsum4 a b c d) r.
Proof. intros M k a b c d r (A1 & A2 & A3) (B1 & B2 & B3) (C1 & C2 & C3) (D1 & D2 & D3). split; [|split]; apply sum_2; assumption. Qed.
Lemma vsum_3 : forall M k a b c d r, vval0 a -> vval0 b -> vnear M k c r -> vval0 d -> vnear M k (vsum4 a b c d) r.
Proof. intros M k a b c d r (A1 & A2 & A3) (B1 & B2 & B3) (C1 & C2 & C3) (D1 & D2 & D3). split; [|split]; apply sum_3; assumption. Qed.
Lemma vzero_times : forall v : vec3 N, finite_vector v -> vval0 (scale (lit 0 : N) v).
Proof. intros v (A & B & C). split; [|split]; apply val_zero_mult; assumption. Qed.
Lemma vone_times : forall M k v r, vnear M k v r -> vnear M k (scale (lit 1 : N) v) r.
Proof. intros M k v r (A & B & C). split; [|split]; apply near_one_mult; assumption. Qed.
Lemma vnear_finite : forall M k v r, vnear M k v r -> finite_vector v.
Proof. intros M k v r ((A & _) & (B & _) & (C & _)). split; [|split]; assumption. Qed.
Lemma vzero_finite : finite_vector (vzero (N := N)).
Proof. split; [|split]; apply val_0. Qed.
Lemma vnear_exact : forall M v, finite_vector v -> normR (realv v) <= M -> vnear M 0 v (realv v).
Proof.
  intros M v (A & B & C) H. destruct (component_le (realv v)) as (X & Y & Z). cbn [realv vx vy vz] in X, Y, Z.
  split; [|split]; (apply near_exact; [assumption|lra]).
Qed.
Section Sizes.
Variables (M W : R) (h : b64).
Hypothesis (BM : between 95 M) (BW : between 95 W) (WM : W <= M / 50) (Hh : near (1 / 2) 0 h (1 / 2)).
Lemma vhalf : forall c w r, / 1000 <= c <= 1000 -> vnear (c * W) 0 w r -> vnear (c / 2 * W) (11 / 10) (scale (h : N) (scale (lit 1 : N) w)) (scaleR (1 / 2) r).
Proof. intros c w r Hc (A & B & C). split; [|split]; apply (half_term W h BW Hh c); assumption. Qed.
Lemma vadd_x : forall c k x t r, / 1000 <= c <= 22 / 10 -> 0 <= k <= 47 / 10 -> finite_vector x -> normR (realv x) <= M -> vnear (c * W) k t r ->
  finite_vector (add x t) /\ close (3 * M * u53) (realv (add x t)) (addR (realv x) r).
Proof.
  intros c k x t r Hc Hk (F1 & F2 & F3) B (A1 & A2 & A3). destruct (component_le (realv x)) as (X & Y & Z). cbn [realv vx vy vz] in X, Y, Z.
  destruct (add_x M W BM BW WM c k _ _ _ Hc Hk F1 ltac:(lra) A1) as [G1 E1]. destruct (add_x M W BM BW WM c k _ _ _ Hc Hk F2 ltac:(lra) A2) as [G2 E2].
  destruct (add_x M W BM BW WM c k _ _ _ Hc Hk F3 ltac:(lra) A3) as [G3 E3].
  split; [split; [|split]; assumption|]. unfold close. replace (3 * M * u53) with (2 * (3 / 2 * M * u53)) by field.
  assert (PM := between_pos _ _ BM). assert (U := u53_pos).
  apply norm_components; [|exact E1|exact E2|exact E3]. apply Rmult_le_pos; lra.
Qed.
Lemma vadd_v : forall c k x t r, / 1000 <= c <= 1 -> 0 <= k <= 47 / 10 -> finite_vector x -> normR (realv x) <= W -> vnear (c * W) k t r ->
  finite_vector (add x t) /\ close (14 * W * u53) (realv (add x t)) (addR (realv x) r).
Proof.
  intros c k x t r Hc Hk (F1 & F2 & F3) B (A1 & A2 & A3). destruct (component_le (realv x)) as (X & Y & Z). cbn [realv vx vy vz] in X, Y, Z.
  destruct (add_v W BW c k _ _ _ Hc Hk F1 ltac:(lra) A1) as [G1 E1]. destruct (add_v W BW c k _ _ _ Hc Hk F2 ltac:(lra) A2) as [G2 E2].
  destruct (add_v W BW c k _ _ _ Hc Hk F3 ltac:(lra) A3) as [G3 E3].
  split; [split; [|split]; assumption|]. unfold close. replace (14 * W * u53) with (2 * (7 * W * u53)) by field.
  assert (PW := between_pos _ _ BW). assert (U := u53_pos).
  apply norm_components; [|exact E1|exact E2|exact E3]. apply Rmult_le_pos; lra.
Qed.
Definition sixth : N := lit 1 /' lit 6.
Definition third : N := lit 1 /' lit 3.
Lemma vsum_all : forall c w1 w2 w3 w4 r1 r2 r3 r4, / 100 <= c <= 100 ->
  vnear (c * W) 0 w1 r1 -> vnear (c * W) 0 w2 r2 -> vnear (c * W) 0 w3 r3 -> vnear (c * W) 0 w4 r4 ->
  vnear (c * W) (47 / 10) (vsum4 (scale sixth (scale (lit 1 : N) w1)) (scale third (scale (lit 1 : N) w2)) (scale third (scale (lit 1 : N) w3)) (scale sixth (scale (lit 1 : N) w4)))
    (scaleR (1 / 6) (addR (addR r1 (scaleR 2 r2)) (addR (scaleR 2 r3) r4))).
Proof.
  intros c w1 w2 w3 w4 r1 r2 r3 r4 Hc (A1 & A2 & A3) (B1 & B2 & B3) (C1 & C2 & C3) (D1 & D2 & D3).
  split; [|split]; apply (sum_all W BW c); assumption.
Qed.
End Sizes.

(** ** No force but gravity *)
Definition vdead (v : vec3 b64) : Prop := dead (vx v) /\ dead (vy v) /\ dead (vz v).
Lemma vdead_plus : forall a b : vec3 N, vdead a -> vdead b -> vdead (add a b).
Proof. intros a b (A1 & A2 & A3) (B1 & B2 & B3). unfold vdead, vadd. cbn [vx vy vz n_add B64]. split; [|split]; apply dead_plus; assumption. Qed.
Lemma vdead_div : forall (a : vec3 N) (m : N), vdead a -> vdead (vdiv (N := N) a m).
Proof. intros a m (A1 & A2 & A3). unfold vdead, vdiv. cbn [vx vy vz n_div B64]. split; [|split]; apply dead_div; assumption. Qed.
Lemma vdead_scale : forall (k : N) (a : vec3 N), vdead a -> vdead (scale k a).
Proof. intros k a (A1 & A2 & A3). unfold vdead, vscale. cbn [vx vy vz n_mul B64]. split; [|split]; apply dead_mult; assumption. Qed.
Lemma dead_dot : forall r t : vec3 N, vdead t -> dead (vdot (N := N) r t).
Proof. intros r t (A1 & A2 & A3). unfold vdot. cbn [n_add n_mul B64]. apply dead_plus; [apply dead_plus|]; apply dead_mult; assumption. Qed.
Lemma vdead_mulv : forall (m : mat3 N) (t : vec3 N), vdead t -> vdead (mulv (N := N) m t).
Proof. intros m t H. unfold vdead, mulv. cbn [vx vy vz]. split; [|split]; apply dead_dot; assumption. Qed.
Lemma vdead_zero : vdead (vzero (N := N)).
Proof. unfold vdead, vzero. cbn [vx vy vz]. split; [|split]; intros _; apply val_0. Qed.
Lemma dead_add : forall a b : vec3 N, vdead a -> finite_vector (add a b) -> finite_vector b /\ realv (add a b) = realv b.
Proof.
  intros a b (A1 & A2 & A3). unfold finite_vector, realv, vadd. cbn [vx vy vz n_add B64]. intros (F1 & F2 & F3).
  destruct (plus_dead _ _ A1 F1) as [G1 E1]. destruct (plus_dead _ _ A2 F2) as [G2 E2]. destruct (plus_dead _ _ A3 F3) as [G3 E3].
  split; [split; [exact G1|split; [exact G2|exact G3]]|]. f_equal; [exact E1|exact E2|exact E3].
Qed.
Lemma coast_acceleration : forall (p : Phase N) (s0 s : State N), ve_engines (ph_vehicle p) = [] -> at_model (ph_atmosphere p) = NoAtmosphere ->
  system p s0 = Ret s -> finite_vector (st_acceleration s) ->
  finite_vector (gravity (ph_planet p) (st_position s0)) /\ realv (st_acceleration s) = realv (gravity (ph_planet p) (st_position s0)).
Proof.
  intros p s0 s He Ha H F. destruct (C13_no_atmosphere lm p s0 s Ha H) as (_ & _ & _ & _ & Z1 & Z2 & Z3).
  assert (VZ : vdead (st_aero_force_body s)) by (split; [|split]; apply dead_zero; assumption).
  apply system_eom in H. assert (E := e_acceleration _ _ _ H). rewrite (e_vehicle_acceleration _ _ _ H), (e_thrust _ _ _ H) in E.
  unfold thrust_force in E. rewrite He in E. cbn [map] in E. change (vsum (N := N) []) with (vzero (N := N)) in E.
  rewrite (e_gravity _ _ _ H), (e_position _ _ _ H) in E.
  rewrite E in F |- *. apply dead_add; [|exact F].
  apply vdead_mulv, vdead_div, vdead_plus; [exact VZ|]. apply vdead_scale, vdead_zero.
Qed.

Lemma near_half : near (1 / 2) 0 (b64_lit 5 (-1)) (1 / 2).
Proof.
  assert (H : B2SF (b64_lit 5 (-1)) = SpecFloat.S754_finite false 4503599627370496 (-53)) by (vm_compute; reflexivity).
  assert (X : is_finite (b64_lit 5 (-1)) = true /\ B2R (b64_lit 5 (-1)) = 1 / 2).
  { destruct (b64_lit 5 (-1)) as [s|s| |s m e B]; cbn in H; try discriminate H. injection H as -> -> ->. split; [reflexivity|].
    unfold B2R, F2R. cbn [Fnum Fexp cond_Zopp]. change (bpow radix2 (-53)) with (/ 9007199254740992). lra. }
  destruct X as [F E]. rewrite <- E at 2. apply near_exact; [exact F|]. rewrite E, Rabs_pos_eq; lra.
Qed.

End IEEE.
