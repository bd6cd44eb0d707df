(** * C62: altitude in double precision

    The computed altitude is a number at every position (its arc sine never sees an argument beyond 1, not even over
    the poles), and differs from the radial height over the ellipsoid (C05) by at most 2^-49 of (distance from the
    centre + equatorial radius). *)
From Coq Require Import ZArith List Reals Lra Lia Bool.
From Coquelicot Require Import Coquelicot.
From Flocq Require Import Core BinarySingleNaN.
From Verif Require Import Num State Config Planet Phase Simulation XR XRFacts SpecReal SystemFacts B64 B64Facts Prop_Gravity Prop_Planet SystemTotal RunFacts PhaseNew Prop_Run Prop_Mission
  Prop_InterpIEEE Rounding Prop_GravityIEEE.
Local Open Scope R_scope.
Local Notation F64 := (generic_format radix2 fexp64).

(** ** The square root of a square *)
Lemma format_B2R : forall x : b64, F64 (B2R x).
Proof. intros x. apply (generic_format_B2R 53 1024). Qed.
Lemma fexp_big : forall e, (-1021 <= e)%Z -> fexp64 e = (e - 53)%Z.
Proof. intros e H. unfold SpecFloat.fexp, SpecFloat.emin. lia. Qed.
Lemma sqrt_square : forall a, F64 a -> bpow radix2 (-400) <= a -> a <= rnd (sqrt (rnd (a * a))).
Proof.
  intros a Fa La. assert (Pa : 0 < a) by (eapply Rlt_le_trans; [apply bpow_gt_0|exact La]).
  assert (VE : Valid_exp fexp64) by exact (FLT_exp_valid (-1074) 53).
  apply (round_N_ge_midp radix2 fexp64 _ a _ Fa).
  assert (Hm : 0 <= pred radix2 fexp64 a) by (apply (pred_ge_0 radix2 fexp64); [exact Pa|exact Fa]).
  rewrite <- (sqrt_Rsqr ((a + pred radix2 fexp64 a) / 2)) by lra.
  apply sqrt_lt_1_alt. split; [apply Rle_0_sqr|]. unfold Rsqr.
  set (e := mag_val radix2 a (Raux.mag radix2 a)). 
  assert (Be : bpow radix2 (e - 1) <= a < bpow radix2 e).
  { destruct (Raux.mag radix2 a) as (x & Hx). cbn [mag_val] in e. subst e. rewrite <- (Rabs_pos_eq a) by lra. apply Hx. lra. }
  assert (Le : (-400 < e)%Z). { apply (lt_bpow radix2). lra. }
  assert (Fp : F64 (bpow radix2 (e - 1))) by (apply generic_format_bpow; rewrite fexp_big; lia).
  destruct (Req_dec a (bpow radix2 (e - 1))) as [Ea|Na].
  - assert (Er : rnd (a * a) = a * a).
    { apply round_generic; [apply valid_rnd_N|]. rewrite Ea, <- bpow_plus. apply generic_format_bpow. rewrite fexp_big; lia. }
    rewrite Er. assert (Lp : pred radix2 fexp64 a < a) by (apply (pred_lt_id radix2 fexp64); lra). nra.
  - assert (Gt : bpow radix2 (e - 1) < a) by lra.
    assert (Ep : pred radix2 fexp64 a = a - bpow radix2 (e - 53)).
    { rewrite pred_eq_pos by lra. unfold pred_pos. rewrite Req_bool_false by exact Na. f_equal. rewrite ulp_neq_0 by lra. unfold cexp. fold e. f_equal. apply fexp_big. lia. }
    assert (G := pred_ge_gt radix2 fexp64 _ _ Fp Fa Gt). rewrite Ep in G. rewrite Ep.
    set (w := bpow radix2 (e - 53)) in *. assert (Pw : 0 < w) by apply bpow_gt_0.
    assert (P2 : 0 < a * a) by (apply Rmult_lt_0_compat; lra).
    assert (E := error_le_half_ulp radix2 fexp64 (fun z => negb (Z.even z)) (a * a)).
    assert (U : ulp radix2 fexp64 (a * a) <= bpow radix2 (2 * e - 53)).
    { rewrite ulp_neq_0 by lra. apply bpow_le. unfold cexp.
      assert (M : (Raux.mag radix2 (a * a) <= 2 * e)%Z).
      { apply mag_le_bpow; [lra|]. rewrite Rabs_pos_eq by lra. replace (2 * e)%Z with (e + e)%Z by ring. rewrite bpow_plus.
        apply Rmult_le_0_lt_compat; lra. }
      assert (ML : (2 * e - 1 <= Raux.mag radix2 (a * a))%Z).
      { apply mag_ge_bpow. rewrite Rabs_pos_eq by lra. replace (2 * e - 1 - 1)%Z with ((e - 1) + (e - 1))%Z by ring. rewrite bpow_plus.
        assert (X := bpow_gt_0 radix2 (e - 1)). apply Rmult_le_compat; lra. }
      rewrite fexp_big by lia. lia. }
    assert (Y : bpow radix2 (2 * e - 53) = 2 * (bpow radix2 (e - 1) * w)).
    { unfold w. rewrite <- bpow_plus. replace (2 * e - 53)%Z with (1 + (e - 1 + (e - 53)))%Z by ring. rewrite bpow_plus. reflexivity. }
    apply Rabs_le_inv in E. assert (W : a * w >= bpow radix2 (e - 1) * w + w * w) by nra.
    assert (0 < w * w) by (apply Rmult_lt_0_compat; lra). nra.
Qed.

Section IEEE.
Variable lm : libm.
Notation N := (B64 lm).
Local Notation "x +' y" := (Bplus mode_NE x y) (at level 50, left associativity).
Local Notation "x -' y" := (Bminus mode_NE x y) (at level 50, left associativity).
Local Notation "x *' y" := (Bmult mode_NE x y) (at level 40, left associativity).
Local Notation "x /' y" := (Bdiv mode_NE x y) (at level 40, left associativity).
Local Notation lit m := (b64_lit m 0).
Lemma finite_plus : forall x y : b64, is_finite x = true -> is_finite y = true -> is_finite (x +' y) = true -> B2R (x +' y) = rnd (B2R x + B2R y).
Proof.
  intros x y Fx Fy F. assert (C := Bplus_correct 53 1024 Hprec64 Hmax64 mode_NE x y Fx Fy).
  unfold round_mode in C. change (SpecFloat.fexp 53 1024) with fexp64 in C.
  destruct (Rlt_bool _ _); [exact (proj1 C)|]. exfalso. destruct C as [C _]. 
  destruct (x +' y); cbn in C; try discriminate F; destruct (Bsign x); discriminate C.
Qed.
Lemma finite_mult : forall x y : b64, is_finite (x *' y) = true -> B2R (x *' y) = rnd (B2R x * B2R y).
Proof.
  intros x y F. assert (C := Bmult_correct 53 1024 Hprec64 Hmax64 mode_NE x y).
  unfold round_mode in C. change (SpecFloat.fexp 53 1024) with fexp64 in C.
  destruct (Rlt_bool _ _); [exact (proj1 C)|]. exfalso. destruct (x *' y); cbn in C; try discriminate F; destruct (xorb _ _); discriminate C.
Qed.
Lemma plus_finite_inv : forall x y : b64, is_finite (x +' y) = true -> is_finite x = true /\ is_finite y = true.
Proof.
  intros x y F. destruct x as [sx|sx| |sx mx ex hx], y as [sy|sy| |sy my ey hy]; try (split; reflexivity); try discriminate F;
    cbn in F; try discriminate F; destruct (Bool.eqb sx sy); discriminate F.
Qed.
Lemma sqrt_finite_inv : forall x : b64, is_finite (Bsqrt mode_NE x) = true -> is_finite x = true.
Proof. intros x F. destruct x as [sx|[|]| |sx mx ex hx]; try reflexivity; discriminate F. Qed.
Lemma rnd_le : forall x y, x <= y -> rnd x <= rnd y.
Proof. intros x y H. apply round_le; [exact (FLT_exp_valid (-1074) 53)|apply valid_rnd_N|exact H]. Qed.
Lemma rnd_pos : forall x, 0 <= x -> 0 <= rnd x.
Proof. intros x H. rewrite <- (round_0 radix2 fexp64 ZnearestE). now apply rnd_le. Qed.
Lemma rnd_rnd : forall x, rnd (rnd x) = rnd x.
Proof. intros x. apply round_generic; [apply valid_rnd_N|]. apply generic_format_round; [exact (FLT_exp_valid (-1074) 53)|apply valid_rnd_N]. Qed.

(** The computed distance from the centre is never smaller than the computed distance from the equatorial plane. *)
Lemma norm_above : forall v : vec3 b64, finite_vector v -> between 200 (normR (realv v)) -> Rabs (B2R (vz v)) <= B2R (norm (N := N) v).
Proof.
  intros v Fv Bn. destruct (near_norm lm v Fv Bn) as (Fn & _ & En). assert (Pn := between_pos _ _ Bn).
  assert (U := u53_pos). assert (U1 := u53_le).
  assert (Lo : normR (realv v) / 2 <= B2R (norm (N := N) v)).
  { apply Rabs_le_inv in En. assert (26 / 10 * u53 * normR (realv v) <= / 2 * normR (realv v)) by (apply Rmult_le_compat_r; lra). lra. }
  destruct (Rle_or_lt (Rabs (B2R (vz v))) (bpow radix2 (-400))) as [Small|Big].
  { eapply Rle_trans; [exact Small|]. eapply Rle_trans; [|exact Lo]. destruct Bn as [Bn _].
    apply Rle_trans with (bpow radix2 (-1) * bpow radix2 (- (200))); [rewrite <- bpow_plus; apply bpow_le; lia|]. change (bpow radix2 (-1)) with (/ 2). lra. }
  change (is_finite (Bsqrt mode_NE (b64_lit 0 0 +' (vx v *' vx v +' vy v *' vy v +' vz v *' vz v))) = true) in Fn.
  change (Rabs (B2R (vz v)) <= B2R (Bsqrt mode_NE (b64_lit 0 0 +' (vx v *' vx v +' vy v *' vy v +' vz v *' vz v)))). clear Lo En.
  set (xx := vx v *' vx v) in *. set (yy := vy v *' vy v) in *. set (zz := vz v *' vz v) in *.
  assert (F1 := sqrt_finite_inv _ Fn). destruct (plus_finite_inv _ _ F1) as [F0 F2]. destruct (plus_finite_inv _ _ F2) as [F3 Fz].
  destruct (plus_finite_inv _ _ F3) as [Fx Fy].
  destruct (Bsqrt_correct 53 1024 Hprec64 Hmax64 mode_NE (b64_lit 0 0 +' (xx +' yy +' zz))) as (Q & _). unfold round_mode in Q. change (SpecFloat.fexp 53 1024) with fexp64 in Q.
  refine (Rle_trans _ _ _ _ (Req_le _ _ (eq_sym Q))). clear Q.
  rewrite (finite_plus _ _ F0 F2 F1), (finite_plus _ _ F3 Fz F2), (finite_plus _ _ Fx Fy F3).
  destruct (int_B2R 0 eq_refl) as [_ Z0]. change (b64_of_Z 0) with (b64_lit 0 0) in Z0. rewrite Z0, Rplus_0_l, rnd_rnd.
  subst xx yy zz. rewrite (finite_mult _ _ Fx), (finite_mult _ _ Fy), (finite_mult _ _ Fz).
  eapply Rle_trans; [apply (sqrt_square (Rabs (B2R (vz v))))|].
  - apply generic_format_abs, format_B2R.
  - lra.
  - apply rnd_le, sqrt_le_1_alt. rewrite <- Rabs_mult, Rabs_pos_eq by apply Rle_0_sqr.
    rewrite <- (rnd_rnd (B2R (vz v) * B2R (vz v))) at 1. apply rnd_le.
    assert (0 <= rnd (rnd (B2R (vx v) * B2R (vx v)) + rnd (B2R (vy v) * B2R (vy v)))).
    { apply rnd_pos. assert (A := rnd_pos _ (Rle_0_sqr (B2R (vx v)))). assert (B := rnd_pos _ (Rle_0_sqr (B2R (vy v)))). unfold Rsqr in A, B. lra. }
    lra.
Qed.
Lemma rnd_int : forall k, (Z.abs k <=? 2 ^ 53)%Z = true -> rnd (IZR k) = IZR k.
Proof. intros k H. destruct (int_B2R k H) as [_ <-]. apply round_self. Qed.
Lemma sine_in_range : forall v : vec3 b64, finite_vector v -> between 200 (normR (realv v)) ->
  is_finite (vz v /' norm (N := N) v) = true /\ Rabs (B2R (vz v /' norm (N := N) v)) <= 1.
Proof.
  intros v Fv Bn. destruct (near_norm lm v Fv Bn) as (Fn & _ & En). assert (Pn := between_pos _ _ Bn). assert (A := norm_above v Fv Bn).
  set (r := norm (N := N) v) in *. clearbody r.
  assert (Pr : 0 < B2R r).
  { apply Rabs_le_inv in En. assert (U := u53_pos). assert (U1 := u53_le).
    assert (26 / 10 * u53 * normR (realv v) <= / 2 * normR (realv v)) by (apply Rmult_le_compat_r; lra). lra. }
  assert (Q : Rabs (B2R (vz v) / B2R r) <= 1).
  { unfold Rdiv. rewrite Rabs_mult, (Rabs_pos_eq (/ B2R r)) by (left; now apply Rinv_0_lt_compat).
    apply (Rmult_le_reg_r (B2R r)); [exact Pr|]. rewrite Rmult_assoc, Rinv_l by lra. lra. }
  assert (Q2 : Rabs (rnd (B2R (vz v) / B2R r)) <= 1).
  { apply Rabs_le_inv in Q. apply Rabs_le. split.
    - replace (-(1)) with (IZR (-1)) by (cbn; lra). rewrite <- (rnd_int (-1) eq_refl). apply rnd_le. cbn. lra.
    - rewrite <- (rnd_int 1 eq_refl). apply rnd_le. lra. }
  assert (C := Bdiv_correct 53 1024 Hprec64 Hmax64 mode_NE (vz v) r ltac:(lra)). unfold round_mode in C. change (SpecFloat.fexp 53 1024) with fexp64 in C.
  rewrite Rlt_bool_true in C by (eapply Rle_lt_trans; [exact Q2|]; change 1 with (bpow radix2 0); apply bpow_lt; lia).
  destruct C as (C1 & C2 & _). split; [rewrite C2; apply Fv|]. now rewrite C1.
Qed.

(** The library's sine of its arc sine is accurate to 2^-50 on [-1, 1]. *)
Definition accurate_sine : Prop := forall x : b64, is_finite x = true -> Rabs (B2R x) <= 1 ->
  is_finite (lm_sin lm (lm_asin lm x)) = true /\ Rabs (B2R (lm_sin lm (lm_asin lm x)) - B2R x) <= bpow radix2 (-50).
Theorem C62_altitude : forall (p : Planet N) Re Rp (pos : vec3 b64), accurate_sine ->
  is_finite (pl_equatorial_radius p) = true -> B2R (pl_equatorial_radius p) = Re ->
  is_finite (pl_polar_radius p) = true -> B2R (pl_polar_radius p) = Rp ->
  bpow radix2 (-100) <= Re <= bpow radix2 100 -> 9 / 10 * Re <= Rp <= 11 / 10 * Re ->
  finite_vector pos -> bpow radix2 (-100) <= normR (realv pos) <= bpow radix2 100 ->
  exists d, 0 < d /\ level Re Rp (scaleR (d / normR (realv pos)) (realv pos)) = 1 /\
    is_finite (altitude p pos) = true /\
    Rabs (B2R (altitude p pos) - (normR (realv pos) - d)) <= bpow radix2 (-49) * (normR (realv pos) + Re).
Proof.
  intros p Re Rp pos AS FRe ERe FRp ERp BRe RR Fv Br.
  change (between 100 Re) in BRe. change (between 100 (normR (realv pos))) in Br.
  assert (Pr := between_pos _ _ Br). assert (PRe := between_pos _ _ BRe).
  assert (Br2 : between 200 (normR (realv pos))).
  { destruct Br as [X1 X2]. split; [eapply Rle_trans; [|exact X1]; apply bpow_le; lia|eapply Rle_trans; [exact X2|]; apply bpow_le; lia]. }
  assert (Hr := near_norm lm pos Fv Br2). destruct (sine_in_range pos Fv Br2) as [FZ BZ].
  assert (N3 := proj2 (proj2 (component_norm (realv pos)))). cbn [realv vz] in N3.
  assert (Hz := near_exact _ _ (proj2 (proj2 Fv)) N3).
  destruct (components (realv pos)) as (_ & _ & _ & ES). cbn [realv vx vy vz] in ES.
  assert (SS : normR (realv pos) * normR (realv pos) = dotR (realv pos) (realv pos)).
  { unfold normR. apply sqrt_sqrt. rewrite ES. assert (A := Rle_0_sqr (B2R (vx pos))). assert (B := Rle_0_sqr (B2R (vy pos))).
    assert (C := Rle_0_sqr (B2R (vz pos))). unfold Rsqr in *. lra. }
  rewrite ES in SS.
  set (r := normR (realv pos)) in *. set (rh := norm (N := N) pos) in *. set (z := B2R (vz pos)) in *.
  set (Reh := pl_equatorial_radius p) in *. set (Rph := pl_polar_radius p) in *.
  assert (PRp : 0 < Rp) by lra.
  (* the ratio of the axes *)
  assert (HRe : near Re 0 Reh Re) by (rewrite <- ERe at 2; apply near_exact; [exact FRe|rewrite ERe, Rabs_pos_eq; lra]).
  assert (HRp : near Rp 0 Rph Rp) by (rewrite <- ERp at 2; apply near_exact; [exact FRp|rewrite ERp, Rabs_pos_eq; lra]).
  assert (Q1 : 10 / 11 <= Re / Rp <= 10 / 9).
  { split; apply (Rmult_le_reg_r Rp); try lra; unfold Rdiv; rewrite ?(Rmult_assoc Re), ?Rinv_l by lra; lra. }
  assert (HQ : near (Re / Rp) (11 / 10) (Reh /' Rph) (Re / Rp)).
  { apply (over_ _ _ _ _ _ _ _ _ _ HRe HRp); try (split; lra); try lra; try reflexivity; try (apply size_num; lra). }
  set (q := Re / Rp) in *.
  assert (Q2 : 82 / 100 <= q * q <= 124 / 100) by nra.
  assert (HQ2 : near (q * q) (33 / 10) (lit 1 *' (Reh /' Rph *' (Reh /' Rph))) (q * q)).
  { apply near_one_mult. apply (times _ _ _ _ _ _ _ _ _ _ HQ HQ); try (split; lra); try lra; try (apply size_num; lra). }
  assert (I1 := near_int 1 eq_refl). cbn [Z.abs] in I1.
  assert (HK : near (24 / 100) (33) (lit 1 *' (Reh /' Rph *' (Reh /' Rph)) -' lit 1) (q * q - 1)).
  { assert (X : near (q * q + 1) (29 / 10) (lit 1 *' (Reh /' Rph *' (Reh /' Rph)) -' lit 1) (q * q - 1)).
    { apply (minus_ _ _ _ _ _ _ _ _ _ _ HQ2 I1); try (split; lra); try lra; try (apply size_num; lra). }
    apply (near_le _ _ _ _ _ _ X); [apply Rabs_le; lra|]. lra. }
  (* the sine of the latitude *)
  assert (HZ : near 1 (37 / 10) (vz pos /' rh) (z / r)).
  { apply (over_ _ _ _ _ _ _ _ _ _ Hz Hr); try (split; lra); try lra; try (field; lra); try (apply size_num; lra). }
  destruct (AS _ FZ BZ) as [FS BS]. set (sh := lm_sin lm (lm_asin lm (vz pos /' rh))) in *.
  assert (HS : near 1 (12) sh (z / r)).
  { split; [exact FS|]. destruct HZ as (_ & B1 & B2). split; [exact B1|].
    replace (B2R sh - z / r) with ((B2R sh - B2R (vz pos /' rh)) + (B2R (vz pos /' rh) - z / r)) by ring.
    eapply Rle_trans; [apply Rabs_triang|]. revert BS B2. unfold u53. change (bpow radix2 (-50)) with (/ 1125899906842624). lra. }
  assert (BQ : 0 <= z / r * (z / r) <= 1).
  { destruct HZ as (_ & B1 & _). apply Rabs_le_inv in B1. split; [apply Rle_0_sqr|]. nra. }
  assert (HS2 : near 1 (251 / 10) (lit 1 *' (sh *' sh)) (z / r * (z / r))).
  { apply near_one_mult. apply (times _ _ _ _ _ _ _ _ _ _ HS HS); try (split; lra); try lra; try (apply size_num; lra). }
  assert (HP : near (24 / 100) (592 / 10) ((lit 1 *' (Reh /' Rph *' (Reh /' Rph)) -' lit 1) *' (lit 1 *' (sh *' sh))) ((q * q - 1) * (z / r * (z / r)))).
  { apply (times _ _ _ _ _ _ _ _ _ _ HK HS2); try (split; lra); try lra; try (apply size_num; lra). }
  set (D := 1 + (q * q - 1) * (z / r * (z / r))).
  assert (BD : 82 / 100 <= D <= 124 / 100).
  { unfold D. assert (X : 1 + (q * q - 1) * (z / r * (z / r)) = (1 - z / r * (z / r)) + q * q * (z / r * (z / r))) by ring. rewrite X. nra. }
  set (Dh := lit 1 +' (lit 1 *' (Reh /' Rph *' (Reh /' Rph)) -' lit 1) *' (lit 1 *' (sh *' sh))).
  assert (HD : near D (19) Dh D).
  { assert (X : near (124 / 100) (125 / 10) Dh D).
    { apply (plus_ _ _ _ _ _ _ _ _ _ _ I1 HP); try (split; lra); try lra; try (apply size_num; lra). }
    apply (near_le _ _ _ _ _ _ X); [rewrite Rabs_pos_eq; lra|lra]. }
  assert (BW : 9 / 10 <= sqrt D <= 112 / 100).
  { split.
    - rewrite <- (sqrt_Rsqr (9 / 10)) by lra. apply sqrt_le_1_alt. unfold Rsqr. lra.
    - rewrite <- (sqrt_Rsqr (112 / 100)) by lra. apply sqrt_le_1_alt. unfold Rsqr. lra. }
  assert (HW : near (sqrt D) (106 / 10) (Bsqrt mode_NE Dh) (sqrt D)).
  { eapply near_more; [apply (near_sqrt _ _ _ HD)|]; try (split; lra); try lra; apply size_num; lra. }
  assert (DD := sqrt_sqrt D ltac:(lra)).
  assert (SZ : forall c, 1 / 100 <= c <= 100 -> ordinary_size (Re / c)).
  { intros c Hc. apply (between_size (100 + 30)); [|lia]. apply between_div; [exact BRe|]. apply between_num. lra. }
  assert (Hd : near (Re / sqrt D) (117 / 10) (Reh /' Bsqrt mode_NE Dh) (Re / sqrt D)).
  { apply (over_ _ _ _ _ _ _ _ _ _ HRe HW); try (split; lra); try lra; try reflexivity; try (apply SZ; lra). }
  set (d := Re / sqrt D) in *.
  assert (Bd : 0 < d <= 112 / 100 * Re).
  { unfold d. split; [apply Rdiv_lt_0_compat; lra|]. apply (Rmult_le_reg_r (sqrt D)); [lra|]. unfold Rdiv. rewrite Rmult_assoc, Rinv_l by lra.
    assert (9 / 10 * Re <= sqrt D * Re) by (apply Rmult_le_compat_r; lra). lra. }
  assert (SO : ordinary_size (r + d)).
  { apply (between_size 110); [|lia]. destruct Br as [X1 X2], BRe as [Y1 Y2]. split.
    - apply Rle_trans with (bpow radix2 (- (100))); [apply bpow_le; lia|lra].
    - apply Rle_trans with (bpow radix2 10 * bpow radix2 100); [|rewrite <- bpow_plus; apply bpow_le; lia].
      change (bpow radix2 10) with 1024. assert (X := bpow_gt_0 radix2 100). lra. }
  assert (HA : near (r + d) ((26 / 10 * r + 117 / 10 * d) / (r + d) + 1001 / 1000) (rh -' Reh /' Bsqrt mode_NE Dh) (r - d)).
  { assert (X : (26 / 10 * r + 117 / 10 * d) / (r + d) * (r + d) = 26 / 10 * r + 117 / 10 * d) by (field; lra).
    assert (Y : 0 <= (26 / 10 * r + 117 / 10 * d) / (r + d) <= 12).
    { split; [apply Rmult_le_pos; [lra|left; apply Rinv_0_lt_compat; lra]|]. apply (Rmult_le_reg_r (r + d)); [lra|]. rewrite X. lra. }
    apply (minus_ _ _ _ _ _ _ _ _ _ _ Hr Hd); try lra; try reflexivity; try exact SO.
  }
  exists d. split; [apply Bd|]. split.
  { unfold level, scaleR. cbn [realv vx vy vz]. fold z.
    set (x := B2R (vx pos)) in *. set (y := B2R (vy pos)) in *.
    assert (EQ : D * (Rp * Rp * (r * r)) = (x * x + y * y) * (Rp * Rp) + z * z * (Re * Re)).
    { unfold D, q. replace (x * x + y * y) with (r * r - z * z) by lra. field. split; lra. }
    replace (d / r * x * (d / r * x) + d / r * y * (d / r * y)) with (d * d / (r * r) * (x * x + y * y)) by (field; lra).
    replace (d * d) with (Re * Re / D) by (unfold d; rewrite <- DD at 1; field; lra).
    replace (d / r * z * (d / r * z)) with (Re * Re / D / (r * r) * (z * z)).
    2:{ unfold d. rewrite <- DD at 1. field. lra. }
    apply (Rmult_eq_reg_r (D * (Rp * Rp * (r * r)))); [|assert (0 < D) by lra; assert (0 < Rp * Rp) by nra; assert (0 < r * r) by nra; apply Rgt_not_eq; repeat apply Rmult_lt_0_compat; lra].
    rewrite Rmult_1_l. rewrite EQ at 2. field. repeat split; lra. }
  assert (G : altitude p pos = rh -' Reh /' Bsqrt mode_NE Dh).
  { unfold altitude. fold rh. change (pl_equatorial_radius p) with Reh. change (pl_polar_radius p) with Rph. unfold powi.
    cbn [powi_loop Pos.of_nat Pos.succ]. cbn [n_add n_sub n_mul n_div n_neg n_lit n_sqrt n_sin n_asin B64]. reflexivity. }
  rewrite G. destruct HA as (A1 & _ & A2). split; [exact A1|]. eapply Rle_trans; [exact A2|].
  replace (((26 / 10 * r + 117 / 10 * d) / (r + d) + 1001 / 1000) * u53 * (r + d)) with (u53 * (26 / 10 * r + 117 / 10 * d + 1001 / 1000 * (r + d))) by (field; lra).
  unfold u53. change (bpow radix2 (-49)) with (/ 562949953421312). lra.
Qed.
(** Every record of every simulation. *)
Theorem C62_records : forall (cs : list (PhaseConfig N)) i before (s : State N) Re Rp mu J2 J3 J4,
  writes cs i before s -> accurate_sine ->
  let planet := planet_update_with_config (planet_in_effect cs i) in
  ordinary_planet lm planet Re mu J2 J3 J4 -> bpow radix2 (-100) <= Re <= bpow radix2 100 ->
  is_finite (pl_polar_radius planet) = true -> B2R (pl_polar_radius planet) = Rp -> 9 / 10 * Re <= Rp <= 11 / 10 * Re ->
  let pos := realv (st_position s) in let r := normR pos in
  finite_vector (st_position s) -> bpow radix2 (-100) <= r <= bpow radix2 100 -> Re <= 11 / 10 * r ->
  exists g d, gradient (potential mu J2 J3 J4 Re) pos g /\ 0 < d /\ level Re Rp (scaleR (d / r) pos) = 1 /\
    let a := st_gravity_acceleration s in let e := bpow radix2 (-47) * (mu / r ^ 2) in
    finite_vector a /\ Rabs (B2R (vx a) - vx g) <= e /\ Rabs (B2R (vy a) - vy g) <= e /\ Rabs (B2R (vz a) - vz g) <= e /\
    is_finite (st_altitude s) = true /\ Rabs (B2R (st_altitude s) - (r - d)) <= bpow radix2 (-49) * (r + Re).
Proof.
  intros cs i before s Re Rp mu J2 J3 J4 H AS planet OP BRe F2 E2 RR pos r Fv Br LR.
  destruct (written _ _ _ _ H) as (_ & p & B & Rep & _). destruct (C37_reported cs p s Rep) as [s0 X]. apply eom_equations in X.
  assert (EP : ph_planet p = planet).
  { rewrite (f_planet _ _ (C28_effective _ _ B)). change EARTH_SPHERICAL with (planet_update_with_config (N := N) Spherical).
    apply last_configured_map. }
  assert (Eg := q_gravity _ _ _ X). assert (Ea := q_altitude _ _ _ X). rewrite EP in Eg, Ea.
  destruct (op_radius _ _ _ _ _ _ _ OP) as (F1 & E1 & _).
  destruct (C62_gravity lm planet Re mu J2 J3 J4 (st_position s) OP Fv Br LR) as (g & G1 & G2 & G3 & G4 & G5).
  destruct (C62_altitude planet Re Rp (st_position s) AS F1 E1 F2 E2 BRe RR Fv Br) as (d & D1 & D2 & D3 & D4).
  exists g, d. cbv zeta. rewrite Eg, Ea. repeat (split; [assumption|]). exact D4.
Qed.
End IEEE.

(** ** Non-vacuity: the Smithsonian Earth at (6500 km, 1000 km, -2000 km), with a library whose sine and arc
    sine are inverse to each other *)
Definition inverse_libm : libm := {| lm_sin := fun x => x; lm_cos := fun x => x; lm_tan := fun x => x; lm_asin := fun x => x;
  lm_acos := fun x => x; lm_atan := fun x => x; lm_exp := fun x => x; lm_powf := fun x _ => x; lm_rot := fun m => m |}.
Lemma SF_value : forall (x : b64) s m e, B2SF x = SpecFloat.S754_finite s m e ->
  is_finite x = true /\ B2R x = F2R (Float radix2 (cond_Zopp s (Zpos m)) e).
Proof. intros x s m e H. destruct x; cbn in H; try discriminate H. injection H as -> -> ->. split; reflexivity. Qed.
Section Example.
Let E : Planet (B64 inverse_libm) := EARTH_SMITHSONIAN.
Let at_ : vec3 b64 := V3 (b64_of_Z 6500000) (b64_of_Z 1000000) (b64_of_Z (-2000000)).
Lemma example_position : finite_vector at_ /\ realv at_ = V3 6500000 1000000 (-2000000) /\ 6800000 <= normR (realv at_) <= 6900000.
Proof.
  destruct (int_B2R 6500000 eq_refl) as [A1 A2]. destruct (int_B2R 1000000 eq_refl) as [B1 B2]. destruct (int_B2R (-2000000) eq_refl) as [C1 C2].
  assert (R : realv at_ = V3 6500000 1000000 (-2000000)) by (unfold realv, at_; cbn [vx vy vz]; now rewrite A2, B2, C2).
  split; [split; [exact A1|split; [exact B1|exact C1]]|]. split; [exact R|]. rewrite R. unfold normR, dotR. cbn [vx vy vz]. split.
  - rewrite <- (sqrt_Rsqr 6800000) by lra. apply sqrt_le_1_alt. unfold Rsqr. lra.
  - rewrite <- (sqrt_Rsqr 6900000) by lra. apply sqrt_le_1_alt. unfold Rsqr. lra.
Qed.
Local Ltac value x s m e k F V := assert (F : is_finite x = true /\ B2R x = IZR (cond_Zopp s (Zpos m)) * / IZR k);
  [assert (H : B2SF x = SpecFloat.S754_finite s m e) by (vm_compute; reflexivity);
   destruct (SF_value _ _ _ _ H) as [H1 H2]; split; [exact H1|rewrite H2; reflexivity]|destruct F as [F V]; cbn [cond_Zopp Z.opp] in V].
Example C62_nonvacuous : exists g d, accurate_sine inverse_libm /\
  gradient (potential (B2R (Planet.mu E)) (B2R (gp1 E)) (B2R (gp2 E)) (B2R (gp3 E)) (B2R (pl_equatorial_radius E))) (V3 6500000 1000000 (-2000000)) g /\
  Rabs (B2R (vx (gravity E at_)) - vx g) <= / 10000000000000 /\
  level (B2R (pl_equatorial_radius E)) (B2R (pl_polar_radius E)) (scaleR (d / normR (realv at_)) (realv at_)) = 1 /\
  Rabs (B2R (altitude E at_) - (normR (realv at_) - d)) <= / 40000000.
Proof.
  destruct example_position as (Fv & Rv & Bn).
  assert (AS : accurate_sine inverse_libm).
  { intros x F B. split; [exact F|]. cbn [inverse_libm lm_sin lm_asin]. replace (B2R x - B2R x) with 0 by ring. rewrite Rabs_R0. apply bpow_ge_0. }
  value (pl_equatorial_radius E) false 6848503440854955%positive (-30)%Z (1073741824)%Z F1 W1.
  value (pl_polar_radius E) false 6825544666545390%positive (-30)%Z (1073741824)%Z F2 W2.
  value (Planet.mu E) false 6377614400731526%positive (-4)%Z (16)%Z F3 W3.
  value (gp1 E) false 4992791139304209%positive (-62)%Z (4611686018427387904)%Z F4 W4.
  value (gp2 E) true 6056435014280320%positive (-71)%Z (2361183241434822606848)%Z F5 W5.
  value (gp3 E) true 7593565304454390%positive (-72)%Z (4722366482869645213696)%Z F6 W6.
  assert (B100 : forall x, 1 <= x <= 10000000 -> bpow radix2 (-100) <= x <= bpow radix2 100).
  { intros x [X1 X2]. split.
    - apply Rle_trans with (bpow radix2 0); [apply bpow_le; lia|exact X1].
    - apply Rle_trans with (bpow radix2 24); [|apply bpow_le; lia]. change (bpow radix2 24) with 16777216. lra. }
  assert (OP : ordinary_planet inverse_libm E (B2R (pl_equatorial_radius E)) (B2R (Planet.mu E)) (B2R (gp1 E)) (B2R (gp2 E)) (B2R (gp3 E))).
  { constructor; (split; [assumption|split; [reflexivity|]]).
    - rewrite W1. lra.
    - rewrite W3. split.
      + apply Rle_trans with (bpow radix2 0); [apply bpow_le; lia|]. change (bpow radix2 0) with 1. lra.
      + apply Rle_trans with (bpow radix2 60); [|apply bpow_le; lia]. change (bpow radix2 60) with 1152921504606846976. lra.
    - rewrite W4. apply Rabs_le. lra.
    - rewrite W5. apply Rabs_le. lra.
    - rewrite W6. apply Rabs_le. lra. }
  destruct (C62_gravity inverse_libm E _ _ _ _ _ at_ OP Fv (B100 (normR (realv at_)) ltac:(lra)) ltac:(rewrite W1; lra)) as (g & G1 & _ & G2 & _).
  destruct (C62_altitude inverse_libm E _ _ at_ AS F1 eq_refl F2 eq_refl (B100 (B2R (pl_equatorial_radius E)) ltac:(rewrite W1; lra)) ltac:(rewrite W1, W2; lra) Fv (B100 (normR (realv at_)) ltac:(lra))) as (d & D1 & D2 & _ & D3).
  exists g, d. split; [exact AS|]. rewrite Rv in G1. split; [exact G1|].
  split; [|split; [exact D2|]].
  - eapply Rle_trans; [exact G2|]. rewrite W3. change (bpow radix2 (-47)) with (/ 140737488355328).
    apply Rle_trans with (/ 140737488355328 * (6377614400731526 * / 16 / (6800000 * 6800000))); [|lra].
    apply Rmult_le_compat_l; [lra|]. apply Rmult_le_compat_l; [lra|]. apply Rinv_le_contravar; [lra|]. nra.
  - eapply Rle_trans; [exact D3|]. rewrite W1. change (bpow radix2 (-49)) with (/ 562949953421312). lra.
Qed.
End Example.
