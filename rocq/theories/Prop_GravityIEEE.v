(** * C62: gravity in double precision

    The computed acceleration differs from the gradient of the potential (C03) by at most 2^-47 times mu / r^2 in
    every component: rounding never spoils it, wherever the vehicle is and whatever the planet. *)
From Coq Require Import ZArith List Reals Lra Lia Bool.
From Coquelicot Require Import Coquelicot.
From Flocq Require Import Core BinarySingleNaN.
From Verif Require Import Num Planet XR XRFacts SpecReal B64 B64Facts Prop_Gravity Prop_InterpIEEE Rounding.
Local Open Scope R_scope.

Section IEEE.
Variable lm : libm.
Notation N := (B64 lm).

(** The vector of real numbers a vector of doubles stands for. *)
Definition realv (v : vec3 b64) : vec3 R := V3 (B2R (vx v)) (B2R (vy v)) (B2R (vz v)).
Definition finite_vector (v : vec3 b64) : Prop := is_finite (vx v) = true /\ is_finite (vy v) = true /\ is_finite (vz v) = true.

(** ** The distance from the centre *)
Lemma components : forall v : vec3 R, vx v * vx v <= dotR v v /\ vy v * vy v <= dotR v v /\ vz v * vz v <= dotR v v /\
  dotR v v = vx v * vx v + vy v * vy v + vz v * vz v.
Proof.
  intros [a b c]. unfold dotR. cbn [vx vy vz]. assert (A := Rle_0_sqr a). assert (B := Rle_0_sqr b). assert (C := Rle_0_sqr c).
  unfold Rsqr in *. repeat split; lra.
Qed.
Lemma component_norm : forall v : vec3 R, Rabs (vx v) <= normR v /\ Rabs (vy v) <= normR v /\ Rabs (vz v) <= normR v.
Proof.
  intros v. destruct (components v) as (A & B & C & _). unfold normR.
  repeat split; (rewrite <- sqrt_Rsqr_abs; apply sqrt_le_1_alt; assumption).
Qed.
Lemma near_norm : forall v : vec3 b64, finite_vector v -> between 200 (normR (realv v)) ->
  near (normR (realv v)) (26 / 10) (norm (N := N) v) (normR (realv v)).
Proof.
  intros v (F1 & F2 & F3) Hr. assert (Pr := between_pos _ _ Hr).
  set (S := dotR (realv v) (realv v)). destruct (components (realv v)) as (A & B & C & E). fold S in A, B, C, E. cbn [realv vx vy vz] in A, B, C, E.
  assert (SS : normR (realv v) * normR (realv v) = S).
  { unfold normR. apply sqrt_sqrt. fold S. assert (X := Rle_0_sqr (B2R (vx v))). unfold Rsqr in X. lra. }
  assert (BS : between 400 S) by (rewrite <- SS; exact (between_mult _ _ _ _ Hr Hr)).
  assert (OS : ordinary_size S) by (apply (between_size _ _ BS); lia).
  assert (PS := size_pos S OS).
  assert (O2 : forall c, 1 / 1000 <= c <= 1000 -> ordinary_size (S * c)).
  { intros c Hc. apply (between_size (400 + 30)); [|lia]. apply between_mult; [exact BS|]. apply between_num. lra. }
  assert (Q1 := near_square _ _ F1 OS A). assert (Q2 := near_square _ _ F2 OS B). assert (Q3 := near_square _ _ F3 OS C).
  set (a := B2R (vx v) * B2R (vx v)) in *. set (b := B2R (vy v) * B2R (vy v)) in *. set (c := B2R (vz v) * B2R (vz v)) in *.
  assert (Pa : 0 <= a) by apply Rle_0_sqr. assert (Pb : 0 <= b) by apply Rle_0_sqr. assert (Pc : 0 <= c) by apply Rle_0_sqr.
  assert (T : ordinary_size (a + S / 1000 + (b + S / 1000))).
  { apply (between_size 410); [|lia]. destruct BS as [BL BU]. split.
    - apply Rle_trans with (bpow radix2 (-10) * bpow radix2 (-400)); [rewrite <- bpow_plus; apply bpow_le; lia|].
      change (bpow radix2 (-10)) with (/ 1024). change (bpow radix2 (- (400))) with (bpow radix2 (-400)) in BL. lra.
    - apply Rle_trans with (bpow radix2 10 * bpow radix2 400); [|rewrite <- bpow_plus; apply bpow_le; lia].
      change (bpow radix2 10) with 1024. assert (X := bpow_gt_0 radix2 400). lra. }
  assert (H12 := near_plus _ _ _ _ _ _ _ Q1 Q2 ltac:(split; lra) ltac:(lra) ltac:(lra) T).
  assert (H3 := near_more _ _ (1001 / 1000 + 1001 / 1000) _ _ Q3 ltac:(lra)).
  assert (T2 : ordinary_size (a + S / 1000 + (b + S / 1000) + (c + S / 1000))).
  { replace (a + S / 1000 + (b + S / 1000) + (c + S / 1000)) with (S * (1003 / 1000)) by (rewrite E; field). apply O2. lra. }
  assert (H := near_plus _ _ _ _ _ _ _ H12 H3 ltac:(split; lra) ltac:(lra) ltac:(lra) T2).
  replace (a + b + c) with S in H by (rewrite E; ring).
  assert (HS : near S (303 / 100) (Bplus mode_NE (Bplus mode_NE (Bmult mode_NE (vx v) (vx v)) (Bmult mode_NE (vy v) (vy v))) (Bmult mode_NE (vz v) (vz v))) S).
  { apply (near_le _ _ S (303 / 100) _ _ H); [rewrite Rabs_pos_eq; lra|]. lra. }
  apply near_zero_plus in HS.
  assert (OR : ordinary_size (sqrt S)) by (apply (between_size 200); [exact Hr|lia]).
  assert (G := near_sqrt _ _ _ HS OS OR ltac:(split; lra)).
  change (normR (realv v)) with (sqrt S). eapply near_more; [exact G|]. lra.
Qed.

(** ** The terms of the field *)
Local Notation "x +' y" := (Bplus mode_NE x y) (at level 50, left associativity).
Local Notation "x -' y" := (Bminus mode_NE x y) (at level 50, left associativity).
Local Notation "x *' y" := (Bmult mode_NE x y) (at level 40, left associativity).
Local Notation "x /' y" := (Bdiv mode_NE x y) (at level 40, left associativity).
Local Notation lit m := (b64_lit m 0).
Local Ltac fw := split; lra.
Lemma times : forall M1 M2 k1 k2 M k x y r s, near M1 k1 x r -> near M2 k2 y s -> M = M1 * M2 -> k1 + k2 + 1002 / 1000 <= k ->
  few k1 -> few k2 -> few k -> 0 <= M1 -> 0 <= M2 -> ordinary_size M -> near M k (x *' y) (r * s).
Proof.
  intros M1 M2 k1 k2 M k x y r s H1 H2 -> L [A1 A2] [B1 B2] [C1 C2] P1 P2 O.
  apply (near_more _ (k1 + k2 + 1002 / 1000)); [|exact L]. apply near_mult; auto; split; lra.
Qed.
Lemma over_ : forall M1 k1 k2 M k x y r s, near M1 k1 x r -> near s k2 y s -> 0 < s -> M = M1 / s -> k1 + k2 + 1002 / 1000 <= k ->
  few k1 -> few k2 -> few k -> 0 <= M1 -> ordinary_size M -> near M k (x /' y) (r / s).
Proof.
  intros M1 k1 k2 M k x y r s H1 H2 Ps -> L [A1 A2] [B1 B2] [C1 C2] P1 O.
  apply (near_more _ (k1 + k2 + 1002 / 1000)); [|exact L]. apply near_div; auto; split; lra.
Qed.
Lemma plus_ : forall M1 M2 k1 k2 M k x y r s, near M1 k1 x r -> near M2 k2 y s -> M = M1 + M2 ->
  k1 * M1 + k2 * M2 <= (k - 1001 / 1000) * M -> 1001 / 1000 <= k <= 2000 -> 0 <= M1 -> 0 <= M2 -> ordinary_size M ->
  near M k (x +' y) (r + s).
Proof.
  intros M1 M2 k1 k2 M k x y r s H1 H2 -> Lk K P1 P2 O.
  replace k with (k - 1001 / 1000 + 1001 / 1000) by ring. apply (near_plus2 _ _ k1 k2); auto. fw.
Qed.
Lemma minus_ : forall M1 M2 k1 k2 M k x y r s, near M1 k1 x r -> near M2 k2 y s -> M = M1 + M2 ->
  k1 * M1 + k2 * M2 <= (k - 1001 / 1000) * M -> 1001 / 1000 <= k <= 2000 -> 0 <= M1 -> 0 <= M2 -> ordinary_size M ->
  near M k (x -' y) (r - s).
Proof.
  intros M1 M2 k1 k2 M k x y r s H1 H2 -> Lk K P1 P2 O.
  replace k with (k - 1001 / 1000 + 1001 / 1000) by ring. apply (near_minus2 _ _ k1 k2); auto. fw.
Qed.
Lemma quotient : forall a b, (Z.abs a <=? 2 ^ 53)%Z = true -> (b <=? 2 ^ 53)%Z = true -> (0 < b)%Z ->
  / 1000000000 <= IZR (Z.abs a) / IZR b <= 1000000000 -> near (IZR (Z.abs a) / IZR b) (11 / 10) (lit a /' lit b) (IZR a / IZR b).
Proof.
  intros a b Ha Hb Pb R. assert (Hb' : (Z.abs b <=? 2 ^ 53)%Z = true) by (rewrite Z.abs_eq by lia; exact Hb).
  assert (B := near_int b Hb'). rewrite Z.abs_eq in B by lia.
  apply (over_ _ _ _ _ _ _ _ _ _ (near_int a Ha) B); try fw; try reflexivity; try lra.
  - apply IZR_lt. exact Pb.
  - apply IZR_le. lia.
  - apply size_num. exact R.
Qed.
Local Ltac num := first [fw | lra | apply size_num; lra].

Section Terms.
Variables (r z Re J2 J3 J4 : R) (rh zh Reh J2h J3h J4h : b64).
Hypothesis (Br : between 100 r) (Hr : near r (26 / 10) rh r).
Hypothesis (Hz : near r 0 zh z) (HRe : near Re 0 Reh Re) (PRe : 0 < Re) (RR : Re <= 11 / 10 * r).
Hypothesis (HJ2 : near (1 / 50) 0 J2h J2) (HJ3 : near (1 / 1000) 0 J3h J3) (HJ4 : near (1 / 1000) 0 J4h J4).
Let Pr : 0 < r := between_pos _ _ Br.
Let Rh := Reh /' rh.
Let Zh := zh /' rh.
Let Jh := lit 3 /' lit 2 *' J2h.
Let Hh := lit 5 /' lit 2 *' J3h.
Let Dh := Bopp (lit 35) /' lit 8 *' J4h.
Let cube x := lit 1 *' x *' (x *' x).
Let fourth x := lit 1 *' (x *' x *' (x *' x)).
Let sq x := lit 1 *' (x *' x).
Lemma i_ : forall m, (0 <= m)%Z -> (m <=? 2 ^ 53)%Z = true -> near (IZR m) 0 (lit m) (IZR m).
Proof. intros m P H. assert (X : (Z.abs m <=? 2 ^ 53)%Z = true) by (rewrite Z.abs_eq by lia; exact H). assert (Y := near_int m X). now rewrite Z.abs_eq in Y by lia. Qed.
Lemma near_R : near (11 / 10) (37 / 10) Rh (Re / r).
Proof.
  assert (S : ordinary_size (11 / 10)) by num.
  assert (X : near (11 / 10 * r) 0 Reh Re). { apply (near_le Re 0 _ _ _ _ HRe); [rewrite Rabs_pos_eq; lra|lra]. }
  apply (over_ _ _ _ _ _ _ _ _ _ X Hr); try num; try (field; lra).
Qed.
Lemma near_Z : near 1 (37 / 10) Zh (z / r).
Proof. apply (over_ _ _ _ _ _ _ _ _ _ Hz Hr); try num; try (field; lra). Qed.
Lemma near_R2 : near (121 / 100) (85 / 10) (Rh *' Rh) (Re / r * (Re / r)).
Proof. apply (times _ _ _ _ _ _ _ _ _ _ near_R near_R); num. Qed.
Lemma near_Z2 : near 1 (85 / 10) (Zh *' Zh) (z / r * (z / r)).
Proof. apply (times _ _ _ _ _ _ _ _ _ _ near_Z near_Z); num. Qed.
Lemma near_sqR : near (121 / 100) (85 / 10) (sq Rh) (Re / r * (Re / r)).
Proof. apply near_one_mult, near_R2. Qed.
Lemma near_sqZ : near 1 (85 / 10) (sq Zh) (z / r * (z / r)).
Proof. apply near_one_mult, near_Z2. Qed.
Lemma near_cubeR : near (1331 / 1000) (133 / 10) (cube Rh) (Re / r * (Re / r * (Re / r))).
Proof. apply (times _ _ _ _ _ _ _ _ _ _ (near_one_mult _ _ _ _ near_R) near_R2); num. Qed.
Lemma near_fourthR : near (14641 / 10000) (181 / 10) (fourth Rh) (Re / r * (Re / r) * (Re / r * (Re / r))).
Proof. apply near_one_mult. apply (times _ _ _ _ _ _ _ _ _ _ near_R2 near_R2); num. Qed.
Lemma near_fourthZ : near 1 (181 / 10) (fourth Zh) (z / r * (z / r) * (z / r * (z / r))).
Proof. apply near_one_mult. apply (times _ _ _ _ _ _ _ _ _ _ near_Z2 near_Z2); num. Qed.
Lemma near_J : near (3 / 100) (22 / 10) Jh (3 / 2 * J2).
Proof. apply (times _ _ _ _ _ _ _ _ _ _ (quotient 3 2 eq_refl eq_refl ltac:(lia) ltac:(cbn; lra)) HJ2); cbn; num. Qed.
Lemma near_H : near (25 / 10000) (22 / 10) Hh (5 / 2 * J3).
Proof. apply (times _ _ _ _ _ _ _ _ _ _ (quotient 5 2 eq_refl eq_refl ltac:(lia) ltac:(cbn; lra)) HJ3); cbn; num. Qed.
Lemma near_D : near (4375 / 1000000) (22 / 10) Dh (- 35 / 8 * J4).
Proof.
  assert (X : near (35 / 8) (11 / 10) (Bopp (lit 35) /' lit 8) (- 35 / 8)).
  { apply (over_ _ _ _ _ _ _ _ _ _ (near_opp _ _ _ _ (i_ 35 ltac:(lia) eq_refl)) (i_ 8 ltac:(lia) eq_refl)); num. }
  apply (times _ _ _ _ _ _ _ _ _ _ X HJ4); num.
Qed.
Lemma near_5Z2 : near 5 (96 / 10) (lit 5 *' sq Zh) (5 * (z / r * (z / r))).
Proof. apply (times _ _ _ _ _ _ _ _ _ _ (i_ 5 ltac:(lia) eq_refl) near_sqZ); num. Qed.
Lemma near_JR2 : near (363 / 10000) (118 / 10) (Jh *' sq Rh) (3 / 2 * J2 * (Re / r * (Re / r))).
Proof. apply (times _ _ _ _ _ _ _ _ _ _ near_J near_sqR); num. Qed.
Lemma near_t1 : near (2178 / 10000) (237 / 10) (Jh *' sq Rh *' (lit 1 -' lit 5 *' sq Zh)) (3 / 2 * J2 * (Re / r * (Re / r)) * (1 - 5 * (z / r * (z / r)))).
Proof.
  assert (X : near 6 (107 / 10) (lit 1 -' lit 5 *' sq Zh) (1 - 5 * (z / r * (z / r)))).
  { apply (minus_ _ _ _ _ _ _ _ _ _ _ (i_ 1 ltac:(lia) eq_refl) near_5Z2); num. }
  apply (times _ _ _ _ _ _ _ _ _ _ near_JR2 X); num.
Qed.
Lemma size_over : forall c, / 1000000000 <= c <= 1000000000 -> ordinary_size (c / r).
Proof. intros c Hc. apply (between_size (30 + 100)); [|lia]. apply between_div; [now apply between_num|exact Br]. Qed.
Lemma size_times : forall c, / 1000000000 <= c <= 1000000000 -> ordinary_size (c * r).
Proof. intros c Hc. apply (between_size (30 + 100)); [|lia]. apply between_mult; [now apply between_num|exact Br]. Qed.
Lemma size_times2 : forall c, / 1000000000 <= c <= 1000000000 -> ordinary_size (c * (r * r)).
Proof. intros c Hc. apply (between_size (30 + (100 + 100))); [|lia]. apply between_mult; [now apply between_num|now apply between_mult]. Qed.
Lemma size_over_pos : forall c, 0 <= c -> 0 <= c / r.
Proof. intros c Hc. apply Rmult_le_pos; [exact Hc|left; now apply Rinv_0_lt_compat]. Qed.
Lemma near_HR3r : near (33275 / 10000000 / r) (205 / 10) (Hh *' cube Rh /' rh) (5 / 2 * J3 * (Re / r * (Re / r * (Re / r))) / r).
Proof.
  assert (X : near (33275 / 10000000) (167 / 10) (Hh *' cube Rh) (5 / 2 * J3 * (Re / r * (Re / r * (Re / r))))).
  { apply (times _ _ _ _ _ _ _ _ _ _ near_H near_cubeR); num. }
  apply (over_ _ _ _ _ _ _ _ _ _ X Hr); try num; try reflexivity; try (apply size_over; lra).
Qed.
Lemma near_t2 : near (33275 / 1000000) (335 / 10) (Hh *' cube Rh /' rh *' (lit 3 -' lit 7 *' sq Zh) *' zh)
  (5 / 2 * J3 * (Re / r * (Re / r * (Re / r))) / r * (3 - 7 * (z / r * (z / r))) * z).
Proof.
  assert (Y : near 7 (96 / 10) (lit 7 *' sq Zh) (7 * (z / r * (z / r)))).
  { apply (times _ _ _ _ _ _ _ _ _ _ (i_ 7 ltac:(lia) eq_refl) near_sqZ); num. }
  assert (X : near 10 (107 / 10) (lit 3 -' lit 7 *' sq Zh) (3 - 7 * (z / r * (z / r)))).
  { apply (minus_ _ _ _ _ _ _ _ _ _ _ (i_ 3 ltac:(lia) eq_refl) Y); num. }
  assert (W : near (33275 / 1000000 / r) (323 / 10) (Hh *' cube Rh /' rh *' (lit 3 -' lit 7 *' sq Zh))
    (5 / 2 * J3 * (Re / r * (Re / r * (Re / r))) / r * (3 - 7 * (z / r * (z / r))))).
  { apply (times _ _ _ _ _ _ _ _ _ _ near_HR3r X); try num; try (field; lra); try (apply size_over_pos; lra); try (apply size_over; lra). }
  apply (times _ _ _ _ _ _ _ _ _ _ W Hz); try num; try (field; lra); try (apply size_over_pos; lra).
Qed.
Lemma near_9Z4 : near 9 (192 / 10) (lit 9 *' fourth Zh) (9 * (z / r * (z / r) * (z / r * (z / r)))).
Proof. apply (times _ _ _ _ _ _ _ _ _ _ (i_ 9 ltac:(lia) eq_refl) near_fourthZ); num. Qed.
Lemma near_DR4 : near (6406 / 1000000) (214 / 10) (Dh *' fourth Rh) (- 35 / 8 * J4 * (Re / r * (Re / r) * (Re / r * (Re / r)))).
Proof.
  assert (X : near (4375 / 1000000 * (14641 / 10000)) (214 / 10) (Dh *' fourth Rh) (- 35 / 8 * J4 * (Re / r * (Re / r) * (Re / r * (Re / r))))).
  { apply (times _ _ _ _ _ _ _ _ _ _ near_D near_fourthR); num. }
  apply (near_le _ _ _ _ _ _ X); [|lra]. destruct X as (_ & X & _). lra.
Qed.
Lemma near_t3 : near (989 / 10000) (437 / 10) (Dh *' fourth Rh *' (lit 9 *' fourth Zh -' lit 6 *' sq Zh +' lit 3 /' lit 7))
  (- 35 / 8 * J4 * (Re / r * (Re / r) * (Re / r * (Re / r))) * (9 * (z / r * (z / r) * (z / r * (z / r))) - 6 * (z / r * (z / r)) + 3 / 7)).
Proof.
  assert (Y : near 6 (96 / 10) (lit 6 *' sq Zh) (6 * (z / r * (z / r)))).
  { apply (times _ _ _ _ _ _ _ _ _ _ (i_ 6 ltac:(lia) eq_refl) near_sqZ); num. }
  assert (X : near 15 (165 / 10) (lit 9 *' fourth Zh -' lit 6 *' sq Zh) (9 * (z / r * (z / r) * (z / r * (z / r))) - 6 * (z / r * (z / r)))).
  { apply (minus_ _ _ _ _ _ _ _ _ _ _ near_9Z4 Y); num. }
  assert (Q := quotient 3 7 eq_refl eq_refl ltac:(lia) ltac:(cbn; lra)). cbn [Z.abs] in Q.
  assert (W : near (15 + 3 / 7) (175 / 10) (lit 9 *' fourth Zh -' lit 6 *' sq Zh +' lit 3 /' lit 7)
    (9 * (z / r * (z / r) * (z / r * (z / r))) - 6 * (z / r * (z / r)) + 3 / 7)).
  { apply (plus_ _ _ _ _ _ _ _ _ _ _ X Q); num. }
  assert (V := times _ _ _ _ _ (437 / 10) _ _ _ _ near_DR4 W eq_refl ltac:(lra) ltac:(fw) ltac:(fw) ltac:(fw) ltac:(lra) ltac:(lra) ltac:(num)).
  apply (near_le _ _ _ _ _ _ V); [|lra]. destruct V as (_ & V & _). lra.
Qed.
Definition Ph := lit 1 +' Jh *' sq Rh *' (lit 1 -' lit 5 *' sq Zh) +' Hh *' cube Rh /' rh *' (lit 3 -' lit 7 *' sq Zh) *' zh
  +' Dh *' fourth Rh *' (lit 9 *' fourth Zh -' lit 6 *' sq Zh +' lit 3 /' lit 7).
Definition PR := 1 + 3 / 2 * J2 * (Re / r * (Re / r)) * (1 - 5 * (z / r * (z / r)))
  + 5 / 2 * J3 * (Re / r * (Re / r * (Re / r))) / r * (3 - 7 * (z / r * (z / r))) * z
  + - 35 / 8 * J4 * (Re / r * (Re / r) * (Re / r * (Re / r))) * (9 * (z / r * (z / r) * (z / r * (z / r))) - 6 * (z / r * (z / r)) + 3 / 7).
Lemma near_P : near (135 / 100) (11) Ph PR.
Proof.
  assert (A : near (12178 / 10000) (53 / 10) (lit 1 +' Jh *' sq Rh *' (lit 1 -' lit 5 *' sq Zh)) (1 + 3 / 2 * J2 * (Re / r * (Re / r)) * (1 - 5 * (z / r * (z / r))))).
  { apply (plus_ _ _ _ _ _ _ _ _ _ _ (i_ 1 ltac:(lia) eq_refl) near_t1); num. }
  assert (B := plus_ _ _ _ _ _ (72 / 10) _ _ _ _ A near_t2 eq_refl ltac:(lra) ltac:(fw) ltac:(lra) ltac:(lra) ltac:(num)).
  assert (C := plus_ _ _ _ _ _ (11) _ _ _ _ B near_t3 eq_refl ltac:(lra) ltac:(fw) ltac:(lra) ltac:(lra) ltac:(num)).
  apply (near_le _ _ _ _ _ _ C); [|lra]. destruct C as (_ & C & _). unfold PR. lra.
Qed.
(** The bracket of the third component. *)
Definition Bh := (lit 1 +' Jh *' sq Rh *' (lit 3 -' lit 5 *' sq Zh)) *' zh
  +' Hh *' cube Rh /' rh *' (lit 6 *' sq zh -' lit 7 *' sq zh *' sq Zh -' lit 3 /' lit 5 *' sq rh)
  +' Dh *' fourth Rh *' (lit 15 /' lit 7 -' lit 10 *' sq Zh +' lit 9 *' fourth Zh) *' zh.
Definition BR := (1 + 3 / 2 * J2 * (Re / r * (Re / r)) * (3 - 5 * (z / r * (z / r)))) * z
  + 5 / 2 * J3 * (Re / r * (Re / r * (Re / r))) / r * (6 * (z * z) - 7 * (z * z) * (z / r * (z / r)) - 3 / 5 * (r * r))
  + - 35 / 8 * J4 * (Re / r * (Re / r) * (Re / r * (Re / r))) * (15 / 7 - 10 * (z / r * (z / r)) + 9 * (z / r * (z / r) * (z / r * (z / r)))) * z.
Lemma near_r2 : near (r * r) (63 / 10) (rh *' rh) (r * r).
Proof. apply (times _ _ _ _ _ _ _ _ _ _ Hr Hr); try num. replace (r * r) with (1 * (r * r)) by ring. apply size_times2. lra. Qed.
Lemma near_b1 : near (12904 / 10000 * r) (77 / 10) ((lit 1 +' Jh *' sq Rh *' (lit 3 -' lit 5 *' sq Zh)) *' zh)
  ((1 + 3 / 2 * J2 * (Re / r * (Re / r)) * (3 - 5 * (z / r * (z / r)))) * z).
Proof.
  assert (X : near 8 (107 / 10) (lit 3 -' lit 5 *' sq Zh) (3 - 5 * (z / r * (z / r)))).
  { apply (minus_ _ _ _ _ _ _ _ _ _ _ (i_ 3 ltac:(lia) eq_refl) near_5Z2); num. }
  assert (Y : near (2904 / 10000) (237 / 10) (Jh *' sq Rh *' (lit 3 -' lit 5 *' sq Zh)) (3 / 2 * J2 * (Re / r * (Re / r)) * (3 - 5 * (z / r * (z / r))))).
  { apply (times _ _ _ _ _ _ _ _ _ _ near_JR2 X); num. }
  assert (W : near (12904 / 10000) (66 / 10) (lit 1 +' Jh *' sq Rh *' (lit 3 -' lit 5 *' sq Zh)) (1 + 3 / 2 * J2 * (Re / r * (Re / r)) * (3 - 5 * (z / r * (z / r))))).
  { apply (plus_ _ _ _ _ _ _ _ _ _ _ (i_ 1 ltac:(lia) eq_refl) Y); num. }
  apply (times _ _ _ _ _ _ _ _ _ _ W Hz); try num; try (apply size_times; lra).
Qed.
Lemma near_b2 : near (4526 / 100000 * r) (313 / 10) (Hh *' cube Rh /' rh *' (lit 6 *' sq zh -' lit 7 *' sq zh *' sq Zh -' lit 3 /' lit 5 *' sq rh))
  (5 / 2 * J3 * (Re / r * (Re / r * (Re / r))) / r * (6 * (z * z) - 7 * (z * z) * (z / r * (z / r)) - 3 / 5 * (r * r))).
Proof.
  assert (PP : 0 < r * r) by (now apply Rmult_lt_0_compat).
  assert (Z2 : near (r * r) (11 / 10) (sq zh) (z * z)).
  { apply near_one_mult. apply (times _ _ _ _ _ _ _ _ _ _ Hz Hz); try num. replace (r * r) with (1 * (r * r)) by ring. apply size_times2. lra. }
  assert (A : near (6 * (r * r)) (22 / 10) (lit 6 *' sq zh) (6 * (z * z))).
  { apply (times _ _ _ _ _ _ _ _ _ _ (i_ 6 ltac:(lia) eq_refl) Z2); try num; try (apply size_times2; lra). }
  assert (B : near (7 * (r * r)) (22 / 10) (lit 7 *' sq zh) (7 * (z * z))).
  { apply (times _ _ _ _ _ _ _ _ _ _ (i_ 7 ltac:(lia) eq_refl) Z2); try num; try (apply size_times2; lra). }
  assert (C : near (7 * (r * r)) (118 / 10) (lit 7 *' sq zh *' sq Zh) (7 * (z * z) * (z / r * (z / r)))).
  { apply (times _ _ _ _ _ _ _ _ _ _ B near_sqZ); try num; try (apply size_times2; lra). }
  assert (D : near (13 * (r * r)) (85 / 10) (lit 6 *' sq zh -' lit 7 *' sq zh *' sq Zh) (6 * (z * z) - 7 * (z * z) * (z / r * (z / r)))).
  { apply (minus_ _ _ _ _ _ _ _ _ _ _ A C); try num; try (apply size_times2; lra). }
  assert (Q := quotient 3 5 eq_refl eq_refl ltac:(lia) ltac:(cbn; lra)). cbn [Z.abs] in Q.
  assert (E : near (3 / 5 * (r * r)) (85 / 10) (lit 3 /' lit 5 *' sq rh) (3 / 5 * (r * r))).
  { apply (times _ _ _ _ _ _ _ _ _ _ Q (near_one_mult _ _ _ _ near_r2)); try num; try (apply size_times2; lra). }
  assert (F : near (136 / 10 * (r * r)) (96 / 10) (lit 6 *' sq zh -' lit 7 *' sq zh *' sq Zh -' lit 3 /' lit 5 *' sq rh)
    (6 * (z * z) - 7 * (z * z) * (z / r * (z / r)) - 3 / 5 * (r * r))).
  { apply (minus_ _ _ _ _ _ _ _ _ _ _ D E); try num; try (apply size_times2; lra). }
  assert (G := times _ _ _ _ (45254 / 1000000 * r) (313 / 10) _ _ _ _ near_HR3r F ltac:(field; lra) ltac:(lra) ltac:(fw) ltac:(fw) ltac:(fw)
    ltac:(apply size_over_pos; lra) ltac:(lra) ltac:(apply size_times; lra)).
  apply (near_le _ _ _ _ _ _ G); [|lra]. destruct G as (_ & G & _). lra.
Qed.
Lemma near_b3 : near (1355 / 10000 * r) (381 / 10) (Dh *' fourth Rh *' (lit 15 /' lit 7 -' lit 10 *' sq Zh +' lit 9 *' fourth Zh) *' zh)
  (- 35 / 8 * J4 * (Re / r * (Re / r) * (Re / r * (Re / r))) * (15 / 7 - 10 * (z / r * (z / r)) + 9 * (z / r * (z / r) * (z / r * (z / r)))) * z).
Proof.
  assert (Q := quotient 15 7 eq_refl eq_refl ltac:(lia) ltac:(cbn; lra)). cbn [Z.abs] in Q.
  assert (A : near 10 (96 / 10) (lit 10 *' sq Zh) (10 * (z / r * (z / r)))).
  { apply (times _ _ _ _ _ _ _ _ _ _ (i_ 10 ltac:(lia) eq_refl) near_sqZ); num. }
  assert (B : near (15 / 7 + 10) (92 / 10) (lit 15 /' lit 7 -' lit 10 *' sq Zh) (15 / 7 - 10 * (z / r * (z / r)))).
  { apply (minus_ _ _ _ _ _ _ _ _ _ _ Q A); num. }
  assert (C : near (15 / 7 + 10 + 9) (146 / 10) (lit 15 /' lit 7 -' lit 10 *' sq Zh +' lit 9 *' fourth Zh)
    (15 / 7 - 10 * (z / r * (z / r)) + 9 * (z / r * (z / r) * (z / r * (z / r))))).
  { apply (plus_ _ _ _ _ _ _ _ _ _ _ B near_9Z4); num. }
  assert (D := times _ _ _ _ _ (371 / 10) _ _ _ _ near_DR4 C eq_refl ltac:(lra) ltac:(fw) ltac:(fw) ltac:(fw) ltac:(lra) ltac:(lra) ltac:(num)).
  assert (E := times _ _ _ _ _ (381021 / 10000) _ _ _ _ D Hz eq_refl ltac:(lra) ltac:(fw) ltac:(fw) ltac:(fw) ltac:(lra) ltac:(lra) ltac:(apply size_times; lra)).
  apply (near_le _ _ _ _ _ _ E); [|lra]. destruct E as (_ & E & _). lra.
Qed.
Lemma near_B : near (14712 / 10000 * r) (134 / 10) Bh BR.
Proof.
  assert (A := plus_ _ _ _ _ (133566 / 100000 * r) (96 / 10) _ _ _ _ near_b1 near_b2 ltac:(lra) ltac:(lra) ltac:(fw) ltac:(lra) ltac:(lra) ltac:(apply size_times; lra)).
  assert (C := plus_ _ _ _ _ (147116 / 100000 * r) (134 / 10) _ _ _ _ A near_b3 ltac:(lra) ltac:(lra) ltac:(fw) ltac:(lra) ltac:(lra) ltac:(apply size_times; lra)).
  apply (near_le _ _ _ _ _ _ C); [|lra]. destruct C as (_ & C & _). unfold BR. lra.
Qed.

(** The components of the acceleration. *)
Variables (m c : R) (mh ch : b64).
Hypothesis (Bm : between 300 m) (Hm : near m 0 mh m) (Hc : near r 0 ch c).
Let Pm : 0 < m := between_pos _ _ Bm.
Let accuracy : R := bpow radix2 (-47) * (m / (r * r)).
Lemma size_field : forall k, / 1000000000 <= k <= 1000000000 -> ordinary_size (k * (m / (r * r))).
Proof.
  intros k Hk. apply (between_size (30 + (300 + (100 + 100)))); [|lia]. apply between_mult; [now apply between_num|].
  apply between_div; [exact Bm|now apply between_mult].
Qed.
Lemma near_r3 : near (r * (r * r)) (10) (cube rh) (r * (r * r)).
Proof.
  assert (PP : 0 < r * r) by (now apply Rmult_lt_0_compat).
  apply (times _ _ _ _ _ _ _ _ _ _ (near_one_mult _ _ _ _ Hr) near_r2); try num; try reflexivity.
  apply (between_size (100 + (100 + 100))); [|lia]. apply between_mult; [exact Br|now apply between_mult].
Qed.
Lemma near_equatorial : is_finite (Bopp mh *' ch /' cube rh *' Ph) = true /\
  Rabs (B2R (Bopp mh *' ch /' cube rh *' Ph) - - m * c / (r * (r * r)) * PR) <= accuracy.
Proof.
  assert (PP : 0 < r * r) by (now apply Rmult_lt_0_compat). assert (P3 : 0 < r * (r * r)) by (now apply Rmult_lt_0_compat).
  assert (PF : 0 < m / (r * r)) by (now apply Rdiv_lt_0_compat).
  assert (A : near (m * r) (11 / 10) (Bopp mh *' ch) (- m * c)).
  { apply (times _ _ _ _ _ _ _ _ _ _ (near_opp _ _ _ _ Hm) Hc); try num; try reflexivity.
    apply (between_size (300 + 100)); [|lia]. now apply between_mult. }
  assert (B : near (1 * (m / (r * r))) (122 / 10) (Bopp mh *' ch /' cube rh) (- m * c / (r * (r * r)))).
  { apply (over_ _ _ _ _ _ _ _ _ _ A near_r3); try num; try (field; lra).
    - apply Rmult_le_pos; lra.
    - apply size_field. lra. }
  assert (C : near (135 / 100 * (m / (r * r))) (243 / 10) (Bopp mh *' ch /' cube rh *' Ph) (- m * c / (r * (r * r)) * PR)).
  { apply (times _ _ _ _ _ _ _ _ _ _ B near_P); try num; try (field; lra). apply size_field. lra. }
  destruct C as (C1 & _ & C2). split; [exact C1|]. eapply Rle_trans; [exact C2|]. unfold accuracy, u53.
  change (bpow radix2 (-47)) with (/ 140737488355328). lra.
Qed.
Lemma near_polar : is_finite (Bopp mh /' cube rh *' Bh) = true /\
  Rabs (B2R (Bopp mh /' cube rh *' Bh) - - m / (r * (r * r)) * BR) <= accuracy.
Proof.
  assert (PP : 0 < r * r) by (now apply Rmult_lt_0_compat). assert (P3 : 0 < r * (r * r)) by (now apply Rmult_lt_0_compat).
  assert (PF : 0 < m / (r * r)) by (now apply Rdiv_lt_0_compat).
  assert (B : near (m / (r * (r * r))) (111 / 10) (Bopp mh /' cube rh) (- m / (r * (r * r)))).
  { apply (over_ _ _ _ _ _ _ _ _ _ (near_opp _ _ _ _ Hm) near_r3); try num; try reflexivity.
    apply (between_size (300 + (100 + (100 + 100)))); [|lia]. apply between_div; [exact Bm|]. apply between_mult; [exact Br|now apply between_mult]. }
  assert (C : near (14712 / 10000 * (m / (r * r))) (256 / 10) (Bopp mh /' cube rh *' Bh) (- m / (r * (r * r)) * BR)).
  { apply (times _ _ _ _ _ _ _ _ _ _ B near_B); try num; try (field; lra).
    - left. now apply Rdiv_lt_0_compat.
    - apply size_field. lra. }
  destruct C as (C1 & _ & C2). split; [exact C1|]. eapply Rle_trans; [exact C2|]. unfold accuracy, u53.
  change (bpow radix2 (-47)) with (/ 140737488355328). lra.
Qed.
End Terms.

(** ** C62 *)
Record ordinary_planet (p : Planet N) (Re mu J2 J3 J4 : R) : Prop := {
  op_radius : is_finite (pl_equatorial_radius p) = true /\ B2R (pl_equatorial_radius p) = Re /\ 0 < Re;
  op_mu : is_finite (Planet.mu p) = true /\ B2R (Planet.mu p) = mu /\ bpow radix2 (-300) <= mu <= bpow radix2 300;
  op_J2 : is_finite (gp1 p) = true /\ B2R (gp1 p) = J2 /\ Rabs J2 <= 1 / 50;
  op_J3 : is_finite (gp2 p) = true /\ B2R (gp2 p) = J3 /\ Rabs J3 <= 1 / 1000;
  op_J4 : is_finite (gp3 p) = true /\ B2R (gp3 p) = J4 /\ Rabs J4 <= 1 / 1000 }.
Theorem C62_gravity : forall (p : Planet N) Re mu J2 J3 J4 (pos : vec3 b64),
  ordinary_planet p Re mu J2 J3 J4 -> finite_vector pos ->
  bpow radix2 (-100) <= normR (realv pos) <= bpow radix2 100 -> Re <= 11 / 10 * normR (realv pos) ->
  exists g, gradient (potential mu J2 J3 J4 Re) (realv pos) g /\
    let a := gravity p pos in let e := bpow radix2 (-47) * (mu / normR (realv pos) ^ 2) in
    finite_vector a /\ Rabs (B2R (vx a) - vx g) <= e /\ Rabs (B2R (vy a) - vy g) <= e /\ Rabs (B2R (vz a) - vz g) <= e.
Proof.
  intros p Re mu J2 J3 J4 pos [(R1 & R2 & R3) (M1 & M2 & M3) (A1 & A2 & A3) (B1 & B2 & B3) (C1 & C2 & C3)] F Br LR.
  change (between 100 (normR (realv pos))) in Br. change (between 300 mu) in M3.
  assert (Pr := between_pos _ _ Br). assert (Pm := between_pos _ _ M3).
  exists (grav mu J2 J3 J4 Re (realv pos)). split.
  { apply grav_gradient. intros E. rewrite E in Pr. unfold normR, zeroR, dotR in Pr. cbn [vx vy vz] in Pr.
    replace (0 * 0 + 0 * 0 + 0 * 0) with 0 in Pr by ring. rewrite sqrt_0 in Pr. lra. }
  assert (Hr : near (normR (realv pos)) (26 / 10) (norm (N := N) pos) (normR (realv pos))).
  { apply near_norm; [exact F|]. destruct Br as [X1 X2]. split; [eapply Rle_trans; [|exact X1]; apply bpow_le; lia|eapply Rle_trans; [exact X2|]; apply bpow_le; lia]. }
  destruct F as (F1 & F2 & F3). destruct (component_norm (realv pos)) as (N1 & N2 & N3). cbn [realv vx vy vz] in N1, N2, N3.
  set (r := normR (realv pos)) in *. set (rh := norm (N := N) pos) in *.
  assert (Hx := near_exact r _ F1 N1). assert (Hy := near_exact r _ F2 N2). assert (Hz := near_exact r _ F3 N3).
  assert (HRe : near Re 0 (pl_equatorial_radius p) Re) by (rewrite <- R2 at 2; apply near_exact; [exact R1|rewrite R2, Rabs_pos_eq; lra]).
  assert (Hm : near mu 0 (Planet.mu p) mu) by (rewrite <- M2 at 2; apply near_exact; [exact M1|rewrite M2, Rabs_pos_eq; lra]).
  assert (HJ2 : near (1 / 50) 0 (gp1 p) J2) by (rewrite <- A2; apply near_exact; [exact A1|now rewrite A2]).
  assert (HJ3 : near (1 / 1000) 0 (gp2 p) J3) by (rewrite <- B2; apply near_exact; [exact B1|now rewrite B2]).
  assert (HJ4 : near (1 / 1000) 0 (gp3 p) J4) by (rewrite <- C2; apply near_exact; [exact C1|now rewrite C2]).
  destruct (near_equatorial _ _ _ _ _ _ _ _ _ _ _ _ Br Hr Hz HRe R3 LR HJ2 HJ3 HJ4 _ _ _ _ M3 Hm Hx) as [X1 X2].
  destruct (near_equatorial _ _ _ _ _ _ _ _ _ _ _ _ Br Hr Hz HRe R3 LR HJ2 HJ3 HJ4 _ _ _ _ M3 Hm Hy) as [Y1 Y2].
  destruct (near_polar _ _ _ _ _ _ _ _ _ _ _ _ Br Hr Hz HRe R3 LR HJ2 HJ3 HJ4 _ _ M3 Hm) as [Z1 Z2].
  cbv zeta. replace (r ^ 2) with (r * r) by ring.
  assert (G : gravity p pos =
    V3 (Bopp (Planet.mu p) *' vx pos /' (lit 1 *' rh *' (rh *' rh)) *' Ph rh (vz pos) (pl_equatorial_radius p) (gp1 p) (gp2 p) (gp3 p))
       (Bopp (Planet.mu p) *' vy pos /' (lit 1 *' rh *' (rh *' rh)) *' Ph rh (vz pos) (pl_equatorial_radius p) (gp1 p) (gp2 p) (gp3 p))
       (Bopp (Planet.mu p) /' (lit 1 *' rh *' (rh *' rh)) *' Bh rh (vz pos) (pl_equatorial_radius p) (gp1 p) (gp2 p) (gp3 p))).
  { unfold gravity. fold rh. clearbody rh. unfold powi. cbn [powi_loop Pos.of_nat Pos.succ]. cbn [n_add n_sub n_mul n_div n_neg n_lit B64].
    unfold Ph, Bh. reflexivity. }
  rewrite G. cbn [vx vy vz]. clear G.
  split; [split; [exact X1|split; [exact Y1|exact Z1]]|].
  assert (EX : forall c, - mu * c / (r * (r * r)) * PR r (B2R (vz pos)) Re J2 J3 J4 = pot_r mu J2 J3 J4 Re r (B2R (vz pos)) * (c / r)).
  { intros c. unfold PR, pot_r. field. lra. }
  assert (EZ : - mu / (r * (r * r)) * BR r (B2R (vz pos)) Re J2 J3 J4
    = pot_r mu J2 J3 J4 Re r (B2R (vz pos)) * (B2R (vz pos) / r) + pot_z mu J2 J3 J4 Re r (B2R (vz pos))).
  { unfold BR, pot_r, pot_z. field. lra. }
  unfold grav. fold r. cbn [vx vy vz realv]. rewrite <- EZ, <- !EX. repeat split; [exact X2|exact Y2|exact Z2].
Qed.
End IEEE.
