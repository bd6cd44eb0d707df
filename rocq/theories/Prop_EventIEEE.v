(** * C57 in IEEE arithmetic: an event at which nothing changes is invisible, bit for bit *)
From Coq Require Import ZArith List Reals Lra Lia Bool.
From Flocq Require Import Core BinarySingleNaN.
From Verif Require Import Num Constants State Tables Config Planet Atmosphere Transformations
  Steering Vehicle RungeKutta Phase Simulation B64 B64Facts SystemFacts RKFacts RunFacts PhaseNew
  Prop_Run SystemTotal Prop_Tables Prop_Panics Prop_Steering Prop_IEEE Prop_TimeIEEE Prop_Split Prop_Event.
Import ListNotations.
Local Open Scope R_scope.

(** ** Whole seconds *)
Lemma format_integer : forall n, (Z.abs n <= 2 ^ 53)%Z -> generic_format radix2 fexp64 (IZR n).
Proof.
  intros n H. destruct (Z.eq_dec (Z.abs n) (2 ^ 53)) as [E|E].
  - assert (A : IZR n = bpow radix2 53 \/ IZR n = - bpow radix2 53).
    { change (bpow radix2 53) with (IZR (2 ^ 53)). rewrite <- opp_IZR.
      destruct (Z.abs_spec n) as [[_ X]|[_ X]]; [left|right]; f_equal; lia. }
    assert (B : generic_format radix2 fexp64 (bpow radix2 53)).
    { apply generic_format_bpow. unfold SpecFloat.fexp, SpecFloat.emin. lia. }
    destruct A as [-> | ->]; [exact B|]. apply generic_format_opp. exact B.
  - apply (generic_format_FLT radix2 (-1074) 53). apply (FLT_spec radix2 (-1074) 53 _ (Float radix2 n 0)).
    + unfold F2R. cbn. ring.
    + cbn. lia.
    + cbn. lia.
Qed.
Lemma integer_value : forall n, (0 <= n <= 2 ^ 53)%Z -> is_finite (b64_of_Z n) = true /\ B2R (b64_of_Z n) = IZR n.
Proof.
  intros n H. assert (G := binary_normalize_correct 53 1024 _ _ mode_NE n 0 false).
  fold (b64_of_Z n) in G. cbv zeta in G. assert (E : F2R (Float radix2 n 0) = IZR n) by (unfold F2R; cbn; ring).
  rewrite E in G. assert (Fm := format_integer n ltac:(lia)).
  assert (Rn : round radix2 fexp64 (round_mode mode_NE) (IZR n) = IZR n) by (apply round_generic; [apply valid_rnd_N|exact Fm]).
  rewrite Rn in G. rewrite Rlt_bool_true in G.
  - destruct G as (G1 & G2 & _). split; assumption.
  - rewrite Rabs_pos_eq by (apply IZR_le; lia). apply Rle_lt_trans with (IZR (2 ^ 53)); [apply IZR_le; lia|].
    change (IZR (2 ^ 53)) with (bpow radix2 53). apply bpow_lt. lia.
Qed.
Lemma integer_sign : forall n, (0 <= n <= 2 ^ 53)%Z -> Bsign (b64_of_Z n) = false.
Proof.
  intros n H. assert (G := binary_normalize_correct 53 1024 _ _ mode_NE n 0 false).
  fold (b64_of_Z n) in G. cbv zeta in G. assert (E : F2R (Float radix2 n 0) = IZR n) by (unfold F2R; cbn; ring).
  rewrite E in G. assert (Fm := format_integer n ltac:(lia)).
  assert (Rn : round radix2 fexp64 (round_mode mode_NE) (IZR n) = IZR n) by (apply round_generic; [apply valid_rnd_N|exact Fm]).
  rewrite Rn in G. rewrite Rlt_bool_true in G.
  - destruct G as (_ & _ & G). rewrite G. destruct (Rcompare_spec (IZR n) 0) as [L|L|L]; try reflexivity.
    apply lt_IZR in L. lia.
  - rewrite Rabs_pos_eq by (apply IZR_le; lia). apply Rle_lt_trans with (IZR (2 ^ 53)); [apply IZR_le; lia|].
    change (IZR (2 ^ 53)) with (bpow radix2 53). apply bpow_lt. lia.
Qed.
Lemma integer_next : forall n, (0 <= n)%Z -> (n + 1 <= 2 ^ 53)%Z -> Bplus mode_NE (b64_of_Z n) (b64_lit 1 0) = b64_of_Z (n + 1).
Proof.
  intros n H H'. destruct (integer_value n ltac:(lia)) as [F E]. destruct (integer_value (n + 1) ltac:(lia)) as [F' E'].
  destruct lit_1 as [O1 [O2 O3]].
  assert (B : Rabs (B2R (b64_of_Z n) + B2R (b64_lit 1 0)) <= bpow radix2 54).
  { rewrite O1, E, <- plus_IZR. rewrite Rabs_pos_eq by (apply IZR_le; lia). change (bpow radix2 54) with (IZR (2 ^ 54)). apply IZR_le. lia. }
  destruct (plus_rnd 54 (b64_of_Z n) (b64_lit 1 0) ltac:(lia) F O2 B) as [Fs Es].
  rewrite O1, E, <- plus_IZR in Es.
  assert (Rn : rnd (IZR (n + 1)) = IZR (n + 1)) by (apply round_generic; [apply valid_rnd_N|apply format_integer; lia]).
  rewrite Rn in Es.
  assert (P : IZR (n + 1) <> 0) by (apply not_0_IZR; lia).
  apply B2R_inj.
  - destruct (Bplus mode_NE (b64_of_Z n) (b64_lit 1 0)); try discriminate; [cbn in Es; congruence|reflexivity].
  - destruct (b64_of_Z (n + 1)); try discriminate; [cbn in E'; congruence|reflexivity].
  - congruence.
Qed.
Lemma far_1 : forall z T : b64, is_finite z = true -> is_finite T = true -> 0 <= B2R z -> B2R z + 1 <= B2R T ->
  Bltb (Babs (Bminus mode_NE z T)) (b64_lit 1 (-3)) = false.
Proof.
  intros z T Fz FT Hz H.
  assert (G := Bminus_correct 53 1024 _ _ mode_NE z T Fz FT).
  assert (O : Rabs (rnd (B2R z - B2R T)) <= B2R T).
  { apply abs_round_le_generic; [apply fexp64_valid|apply valid_rnd_N|apply generic_format_B2R|]. apply Rabs_le. lra. }
  rewrite Rlt_bool_true in G.
  2: { eapply Rle_lt_trans; [exact O|]. eapply Rle_lt_trans; [apply Rle_abs|]. apply abs_B2R_lt_emax. }
  destruct G as (E & F & _). destruct tolerance_value as [Et Ft]. revert Et Ft. generalize (b64_lit 1 (-3)). intros tol Et Ft.
  rewrite Bltb_correct; [|now rewrite is_finite_Babs|exact Ft].
  apply Rlt_bool_false. rewrite B2R_Babs, E, Et.
  assert (L : bpow radix2 0 <= Rabs (rnd (B2R z - B2R T))).
  { apply abs_round_ge_generic; [apply fexp64_valid|apply valid_rnd_N| |].
    - apply generic_format_bpow. unfold SpecFloat.fexp, SpecFloat.emin. lia.
    - change (bpow radix2 0) with 1. rewrite Rabs_left1 by lra. lra. }
  change (bpow radix2 0) with 1 in L. apply Rle_trans with 1; [lra|exact L].
Qed.

Section IEEE.
Variable lm : libm.
Notation N := (B64 lm).
(** The number of seconds, as a number of the program. *)
Definition seconds (k : nat) : N := b64_of_Z (Z.of_nat k).
Lemma ieee_counts : forall M, (Z.of_nat M <= 2 ^ 53)%Z -> counts (N := N) seconds M.
Proof.
  intros M HM.
  assert (V : forall k, (k <= M)%nat -> is_finite (seconds k : b64) = true /\ B2R (seconds k : b64) = INR k).
  { intros k Hk. rewrite INR_IZR_INZ. apply integer_value. lia. }
  constructor.
  - reflexivity.
  - intros k Hk. unfold seconds. rewrite Nat2Z.inj_succ. apply integer_next; lia.
  - destruct (V M (le_n M)) as [F E]. apply within; try assumption. rewrite Rminus_diag_eq, Rabs_R0 by reflexivity. lra.
  - intros k Hk. destruct (V M (le_n M)) as [F E]. destruct (V (S k) ltac:(lia)) as [F' E'].
    apply far_1; try assumption; rewrite E'; [apply pos_INR|]. rewrite E, <- S_INR. apply le_INR. lia.
  - intros k Hk. destruct (V M (le_n M)) as [F E]. destruct (V (S k) ltac:(lia)) as [F' E']. destruct (V k ltac:(lia)) as [F2 E2].
    change (@n_ltb N) with (@Bltb 53 1024). rewrite !Bltb_correct by assumption. rewrite E, E', E2.
    rewrite Rlt_bool_false by (apply le_INR; lia). apply Rlt_bool_false. apply le_INR. lia.
Qed.

(** ** Large numbers absorb a second *)
Lemma multiple_of_128 : forall x, generic_format radix2 fexp64 x -> bpow radix2 59 <= Rabs x -> exists k, x = IZR k * 128.
Proof.
  intros x G H. assert (M : (59 < mag radix2 x)%Z) by (apply mag_gt_bpow; exact H).
  assert (C : (7 <= cexp radix2 fexp64 x)%Z) by (unfold cexp, SpecFloat.fexp, SpecFloat.emin; lia).
  exists (Ztrunc (scaled_mantissa radix2 fexp64 x) * 2 ^ (cexp radix2 fexp64 x - 7))%Z.
  rewrite mult_IZR. rewrite G at 1. unfold F2R. cbn [Fnum Fexp]. rewrite Rmult_assoc. f_equal.
  change 128 with (bpow radix2 7). rewrite (IZR_Zpower radix2) by lia. rewrite <- bpow_plus. f_equal. lia.
Qed.
Lemma absorbs : forall x c : b64, is_finite x = true -> is_finite c = true -> bpow radix2 60 <= Rabs (B2R x) ->
  Rabs (B2R c) <= 1 -> Bplus mode_NE x c = x.
Proof.
  intros x c Fx Fc Hx Hc.
  assert (Gx : generic_format radix2 fexp64 (B2R x)) by apply generic_format_B2R.
  assert (E : rnd (B2R x + B2R c) = B2R x).
  { destruct (round_N_pt radix2 fexp64 (fun z => negb (Z.even z)) (B2R x + B2R c)) as [Gr Nr].
    fold (rnd (B2R x + B2R c)) in Gr, Nr. specialize (Nr _ Gx).
    replace (B2R x - (B2R x + B2R c)) with (- B2R c) in Nr by ring. rewrite Rabs_Ropp in Nr.
    assert (D : Rabs (rnd (B2R x + B2R c) - B2R x) <= 2).
    { replace (rnd (B2R x + B2R c) - B2R x) with ((rnd (B2R x + B2R c) - (B2R x + B2R c)) + B2R c) by ring.
      eapply Rle_trans; [apply Rabs_triang|]. lra. }
    assert (P60 : bpow radix2 60 = 2 * bpow radix2 59) by (change 60%Z with (1 + 59)%Z; rewrite bpow_plus; reflexivity).
    assert (P59 : 4 <= bpow radix2 59) by (change 4 with (bpow radix2 2); apply bpow_le; lia).
    destruct (multiple_of_128 (B2R x) Gx) as [k Ek]; [lra|].
    destruct (multiple_of_128 (rnd (B2R x + B2R c)) Gr) as [j Ej].
    { assert (T := Rabs_triang_inv (B2R x) (B2R x - rnd (B2R x + B2R c))).
      replace (B2R x - (B2R x - rnd (B2R x + B2R c))) with (rnd (B2R x + B2R c)) in T by ring.
      rewrite Rabs_minus_sym in D. lra. }
    rewrite Ej, Ek. rewrite Ej, Ek in D. replace (IZR j * 128 - IZR k * 128) with (IZR (j - k) * 128) in D by (rewrite minus_IZR; ring).
    assert (Z : (j - k = 0)%Z).
    { apply Rabs_le_inv in D. assert (-1 < IZR (j - k) < 1) as [A B] by lra. apply lt_IZR in A. apply lt_IZR in B. lia. }
    replace j with k by lia. reflexivity. }
  assert (G := Bplus_correct 53 1024 _ _ mode_NE x c Fx Fc).
  change (round radix2 fexp64 (round_mode mode_NE) (B2R x + B2R c)) with (rnd (B2R x + B2R c)) in G. rewrite E in G.
  rewrite Rlt_bool_true in G by apply abs_B2R_lt_emax. destruct G as (G1 & G2 & _).
  assert (X0 : B2R x <> 0). { intros X. rewrite X, Rabs_R0 in Hx. assert (0 < bpow radix2 60) by apply bpow_gt_0. lra. }
  apply B2R_inj.
  - destruct (Bplus mode_NE x c); try discriminate; [cbn in G1; congruence|reflexivity].
  - destruct x; try discriminate; [cbn in X0; congruence|reflexivity].
  - exact G1.
Qed.

(** ** Angles that are not steered *)
Definition idle (c0 : N) : axis N := mkAxis Time c0 (V3 (#0)%num (#0)%num (#0)%num).
Definition neutral (x : N) : Prop := x = (B754_zero false : b64) \/ x = (B754_nan : b64).
Lemma zero_times : forall x : b64, is_finite x = true -> exists s, Bmult mode_NE (B754_zero false) x = B754_zero s.
Proof. intros [s|s| |s m e B] F; try discriminate; eexists; reflexivity. Qed.
Lemma zero_times_any : forall x : b64, (exists s, Bmult mode_NE (B754_zero false) x = B754_zero s) \/ Bmult mode_NE (B754_zero false) x = B754_nan.
Proof. intros [s|s| |s m e B]; [left|right|right|left]; try (eexists; reflexivity); reflexivity. Qed.
Lemma zero_plus : forall s, Bplus mode_NE (B754_zero false : b64) (B754_zero s) = B754_zero false.
Proof. intros []; reflexivity. Qed.
Lemma nan_plus : forall x : b64, Bplus mode_NE (B754_nan : b64) x = B754_nan.
Proof. intros []; reflexivity. Qed.
Lemma plus_nan : forall x : b64, Bplus mode_NE x (B754_nan : b64) = B754_nan.
Proof. intros []; reflexivity. Qed.
Lemma idle_zero : forall t : N, calc_coeff t (idle (B754_zero false : b64)) =
  Bplus mode_NE (Bplus mode_NE (Bplus mode_NE (B754_zero false) (Bmult mode_NE (B754_zero false) (powi t 1)))
     (Bmult mode_NE (B754_zero false) (powi t 2))) (Bmult mode_NE (B754_zero false) (powi t 3)) :> b64.
Proof. reflexivity. Qed.
Lemma idle_nan : forall t : N, calc_coeff t (idle (B754_nan : b64)) = B754_nan :> b64.
Proof.
  intros t. transitivity (Bplus mode_NE (Bplus mode_NE (Bplus mode_NE (B754_nan : b64) (Bmult mode_NE (B754_zero false) (powi t 1)))
     (Bmult mode_NE (B754_zero false) (powi t 2))) (Bmult mode_NE (B754_zero false) (powi t 3))); [reflexivity|].
  rewrite !nan_plus. reflexivity.
Qed.
Lemma idle_neutral : forall t : N, neutral (calc_coeff t (idle (B754_zero false : b64))).
Proof.
  intros t. rewrite idle_zero. destruct (zero_times_any (powi t 1)) as [[s1 ->]| ->].
  2: { rewrite plus_nan, !nan_plus. right. reflexivity. }
  rewrite zero_plus. destruct (zero_times_any (powi t 2)) as [[s2 ->]| ->].
  2: { rewrite plus_nan, !nan_plus. right. reflexivity. }
  rewrite zero_plus. destruct (zero_times_any (powi t 3)) as [[s3 ->]| ->].
  2: { rewrite plus_nan. right. reflexivity. }
  rewrite zero_plus. left. reflexivity.
Qed.
Lemma idle_finite : forall t : b64, is_finite t = true -> Rabs (B2R t) <= bpow radix2 60 ->
  calc_coeff (t : N) (idle (B754_zero false : b64)) = B754_zero false :> b64.
Proof.
  intros t F H. rewrite idle_zero.
  destruct lit_1 as [O1 [O2 _]].
  assert (P : forall x y : b64, forall a b, (0 <= a)%Z -> (0 <= b)%Z -> (a + b <= 1000)%Z -> is_finite x = true -> is_finite y = true ->
     Rabs (B2R x) <= bpow radix2 a -> Rabs (B2R y) <= bpow radix2 b ->
     is_finite (Bmult mode_NE x y) = true /\ Rabs (B2R (Bmult mode_NE x y)) <= bpow radix2 (a + b)).
  { intros x y a b Ha Hb Hab Fx Fy Hx Hy.
    assert (K : Rabs (B2R x * B2R y) <= bpow radix2 (a + b)).
    { rewrite Rabs_mult, bpow_plus. apply Rmult_le_compat; try apply Rabs_pos; assumption. }
    destruct (mult_rnd (a + b) x y ltac:(lia) Fx Fy K) as [A B]. split; [exact A|]. rewrite B. apply rnd_le_bpow; [lia|exact K]. }
  assert (One : Rabs (B2R (b64_lit 1 0)) <= bpow radix2 0) by (rewrite O1, Rabs_R1; apply Rle_refl).
  destruct (P _ _ 0%Z 60%Z ltac:(lia) ltac:(lia) ltac:(lia) O2 F One H) as [F1 B1].
  destruct (P _ _ 60%Z 60%Z ltac:(lia) ltac:(lia) ltac:(lia) F F H H) as [F2 B2].
  destruct (P _ _ 0%Z 120%Z ltac:(lia) ltac:(lia) ltac:(lia) O2 F2 One B2) as [F3 B3].
  destruct (P _ _ 60%Z 120%Z ltac:(lia) ltac:(lia) ltac:(lia) F1 F2 B1 B2) as [F4 _].
  change (powi (t : N) 1) with (Bmult mode_NE (b64_lit 1 0) t).
  change (powi (t : N) 2) with (Bmult mode_NE (b64_lit 1 0) (Bmult mode_NE t t)).
  change (powi (t : N) 3) with (Bmult mode_NE (Bmult mode_NE (b64_lit 1 0) t) (Bmult mode_NE t t)).
  destruct (zero_times _ F1) as [s1 ->]. destruct (zero_times _ F3) as [s3 ->]. destruct (zero_times _ F4) as [s4 ->].
  rewrite !zero_plus. reflexivity.
Qed.
Lemma neutral_radians : forall x : N, neutral x -> to_radians x = x /\ to_degrees x = x.
Proof. intros x [-> | ->]; split; vm_compute; reflexivity. Qed.
(** After a time that disturbs the angles, the time stands still. *)
Lemma disturbed : forall t : b64, calc_coeff (t : N) (idle (B754_zero false : b64)) <> (B754_zero false : b64) ->
  forall c : b64, is_finite c = true -> Rabs (B2R c) <= 1 -> Bplus mode_NE t c = t.
Proof.
  intros t H c Fc Hc. destruct (is_finite t) eqn:F.
  - apply absorbs; try assumption. destruct (Rle_dec (bpow radix2 60) (Rabs (B2R t))) as [L|L]; [exact L|].
    exfalso. apply H. apply idle_finite; [exact F|lra].
  - destruct t as [s|s| |s m e B]; try discriminate; destruct c; try discriminate; reflexivity.
Qed.

Definition resting (g : Steering N) : Prop := exists r y q : N,
  neutral r /\ neutral y /\ neutral q /\ g = mkSteering (idle r) (idle y) (idle q).
Lemma idle_value : forall (t c0 : N), neutral c0 -> neutral (calc_coeff t (idle c0)).
Proof. intros t c0 [-> | ->]; [apply idle_neutral|]. rewrite idle_nan. right. reflexivity. Qed.
Lemma resting_angles : forall (g : Steering N) (s : State N), resting g ->
  let e := steering_euler_angles g s in neutral (vx e) /\ neutral (vy e) /\ neutral (vz e).
Proof.
  intros g s (r & y & q & Hr & Hy & Hq & ->). unfold steering_euler_angles. cbn [sg_roll sg_yaw sg_pitch vx vy vz].
  assert (A : forall c0 : N, neutral c0 -> neutral (to_radians (calc_coeff (get_value (ax_var (idle c0)) s) (idle c0)))).
  { intros c0 H. destruct (neutral_radians _ (idle_value (get_value (ax_var (idle c0)) s) c0 H)) as [-> _]. now apply idle_value. }
  repeat (split; [now apply A|]). now apply A.
Qed.
Lemma resting_init : forall (g : Steering N) (e : vec3 N), resting g -> neutral (vx e) -> neutral (vy e) -> neutral (vz e) ->
  steering_init g e = mkSteering (idle (vx e)) (idle (vy e)) (idle (vz e)).
Proof.
  intros g [a b c] (r & y & q & _ & _ & _ & ->) A B C. cbn [vx vy vz] in *. unfold steering_init, axis_init. cbn [sg_roll sg_yaw sg_pitch vx vy vz].
  rewrite (proj2 (neutral_radians _ A)), (proj2 (neutral_radians _ B)), (proj2 (neutral_radians _ C)). reflexivity.
Qed.
Lemma configured_angles : forall (q : Phase N) c, st_euler_angles (ph_state (configured q c)) = st_euler_angles (ph_state q).
Proof. intros q [ci [[[v1|] [v2|] v3 v4 v5 v6 v7]|] cs cp ca cm ch ce]; reflexivity. Qed.
Lemma begins_resting : forall (cs : list (PhaseConfig N)) (p : Phase N), begins cs p -> Forall (fun c => pc_steering c = None) cs ->
  resting (ph_steering p).
Proof.
  intros cs p H. induction H as [c p H|cs p fuel h q c p' Hb IH Hr Hn]; intros U.
  - inversion U as [|? ? U1 _]. rewrite phase_new_configured in H. destruct (pc_init c) as [i|]; [|discriminate]. injection H as <-.
    assert (Z : st_euler_angles (ph_state (phase_init (configured default_phase c) i)) = (vzero : vec3 N)).
    { transitivity (st_euler_angles (ph_state (configured (default_phase : Phase N) c))); [reflexivity|]. rewrite configured_angles. reflexivity. }
    rewrite reset_steering, Z.
    change (ph_steering (phase_init (configured default_phase c) i)) with (ph_steering (configured (default_phase : Phase N) c)).
    rewrite configured_steering, U1.
    exists (B754_zero false : b64), (B754_zero false : b64), (B754_zero false : b64).
    split; [left; reflexivity|]. split; [left; reflexivity|]. split; [left; reflexivity|].
    change (ph_steering (default_phase : Phase N)) with (default_steering : Steering N).
    rewrite (resting_init default_steering vzero); [reflexivity| |left; reflexivity|left; reflexivity|left; reflexivity].
    exists (B754_zero false : b64), (B754_zero false : b64), (B754_zero false : b64).
    split; [left; reflexivity|]. split; [left; reflexivity|]. split; [left; reflexivity|]. reflexivity.
  - apply Forall_app in U. destruct U as [U1 U2]. inversion U2 as [|? ? U3 _].
    assert (Ip := IH U1). rewrite phase_new_configured in Hn. injection Hn as <-.
    rewrite reset_steering, configured_steering, U3, configured_angles.
    destruct (C28_run_keeps_parameters fuel p h q (or_introl Hr)) as (_ & Es & _). 
    assert (Sy : exists s0, system p s0 = Ret (ph_state q)).
    { assert (L : exists h', h = h' ++ [ph_state q]).
      { assert (X := C31_finished fuel p h q). destruct (C32_counter_starts_at_zero cs p (ph_state p) Hb) as [_ En].
        specialize (X En Hr). destruct (ph_end_criterion p). destruct X as [h' [X _]]. eauto. }
      destruct L as [h' L]. destruct (C37_self_consistent fuel p h _ (ph_state q) Hr) as [X|X].
      - rewrite L. apply in_or_app. right. left. reflexivity.
      - eexists. exact X.
      - eexists. exact X. }
    destruct Sy as [s0 Sy]. apply system_eom, eom_equations in Sy.
    destruct (resting_angles (ph_steering p) (before_attitude s0 (ph_state q)) Ip) as (A1 & A2 & A3).
    rewrite <- (q_euler_angles _ _ _ Sy) in A1, A2, A3. rewrite Es.
    rewrite (resting_init _ _ Ip A1 A2 A3). do 3 eexists. split; [exact A1|]. split; [exact A2|]. split; [exact A3|]. reflexivity.
Qed.

(** ** The event *)
Definition frozen (ts t x y : N) : Prop :=
  calc_coeff ts (idle (B754_zero false : b64)) = (B754_zero false : b64) \/
  (calc_coeff ts (idle (B754_zero false : b64)) <> (B754_zero false : b64) /\ t = ts).
Lemma idle_smooth : forall (c0 t ts : N), neutral c0 -> frozen ts t t t ->
  calc_coeff t (idle c0) = calc_coeff t (idle (calc_coeff ts (idle c0))).
Proof.
  intros c0 t ts H Z. destruct H as [-> | ->]; [|rewrite (idle_nan ts); reflexivity].
  destruct Z as [-> |[Z ->]]; [reflexivity|].
  destruct (idle_neutral ts) as [X|X]; [contradiction|]. rewrite X at 2. rewrite idle_nan. exact X.
Qed.
Lemma resting_smooth : forall T (p : Phase N), resting (ph_steering p) -> smooth_event T p.
Proof.
  intros T p Rg s _ Fix. exists (frozen (st_time s)).
  assert (Ad : forall c : b64, is_finite c = true -> Rabs (B2R c) <= 1 -> forall t x y x' y' : N, frozen (st_time s) t x y ->
    frozen (st_time s) (Bplus mode_NE t c) x' y').
  { intros c Fc Hc t x y x' y' [Z|[Z ->]]; [left; exact Z|right]. split; [exact Z|]. now apply disturbed. }
  split; [|split; [|split]].
  - assert (L : forall c : b64, In c [b64_lit 0 0; b64_lit 5 (-1); b64_lit 1 0] ->
      is_finite (Bmult mode_NE c (b64_lit 1 0)) = true /\ Rabs (B2R (Bmult mode_NE c (b64_lit 1 0))) <= 1).
    { destruct lit_1 as [O1 [O2 _]].
      assert (L5 : is_finite (b64_lit 5 (-1)) = true /\ B2R (b64_lit 5 (-1)) = / 2).
      { destruct (B2R_lit 5 (-1) false 4503599627370496 (-53)) as [A [B _]]; [vm_compute; reflexivity|].
        split; [exact B|]. rewrite A. unfold F2R. cbn. lra. }
      assert (One : bpow radix2 0 = 1) by reflexivity.
      intros c Hc. assert (B : is_finite c = true /\ Rabs (B2R c * B2R (b64_lit 1 0)) <= bpow radix2 0).
      { rewrite O1, Rmult_1_r, One. destruct Hc as [<-|[<-|[<-|[]]]].
        - split; [reflexivity|]. cbn. rewrite Rabs_R0. lra.
        - destruct L5 as [A ->]. split; [exact A|]. rewrite Rabs_pos_eq; lra.
        - split; [exact O2|]. rewrite O1, Rabs_R1. lra. }
      destruct B as [Fc Bc]. destruct (mult_rnd 0 c (b64_lit 1 0) ltac:(lia) Fc O2 Bc) as [A E].
      split; [exact A|]. rewrite E, <- One. apply rnd_le_bpow; [lia|exact Bc]. }
    intros c Hc t x y Z. destruct (L c Hc) as [A B]. exact (Ad _ A B t x y _ _ Z).
  - intros t x y Z. destruct lit_1 as [O1 [O2 _]]. apply (Ad (b64_lit 1 0) O2 ltac:(rewrite O1, Rabs_R1; lra) t x y _ _ Z).
  - destruct (idle_neutral (st_time s)) as [X|X]; [left; exact X|right]. split; [|reflexivity]. rewrite X. discriminate.
  - apply system_eom, eom_equations in Fix. assert (Q := q_euler_angles _ _ _ Fix).
    destruct (resting_angles _ (before_attitude s s) Rg) as (A1 & A2 & A3). rewrite <- Q in A1, A2, A3.
    intros v v' E Z. rewrite (resting_init _ _ Rg A1 A2 A3). rewrite Q.
    destruct Rg as (r & y & q & Hr & Hy & Hq & ->). unfold steering_euler_angles. cbn [sg_roll sg_yaw sg_pitch vx vy vz idle ax_var get_value].
    change (st_time (before_attitude s s)) with (st_time s). rewrite <- E.
    fold (idle r) (idle y) (idle q).
    rewrite !(proj1 (neutral_radians _ (idle_value (st_time s) _ Hr))), !(proj1 (neutral_radians _ (idle_value (st_time s) _ Hy))),
      !(proj1 (neutral_radians _ (idle_value (st_time s) _ Hq))).
    fold (idle (calc_coeff (st_time s) (idle r))) (idle (calc_coeff (st_time s) (idle y))) (idle (calc_coeff (st_time s) (idle q))).
    rewrite <- !idle_smooth by assumption. reflexivity.
Qed.

(** C57 in IEEE arithmetic, for flights that are not steered: to the last bit, and for every mathematical library, a
    phase of [n + m] seconds writes the same records as [n] seconds, an event that changes nothing, and [m] more seconds. *)
Theorem C57_event_ieee : forall n m fuel (cs1 : list (PhaseConfig N)) (c : PhaseConfig N) cs2,
  (0 < n)%nat -> (0 < m)%nat -> (n + m <= fuel)%nat -> (Z.of_nat (n + m) <= 2 ^ 53)%Z ->
  Forall configured_tables_accepted (cs1 ++ [c]) ->
  steady (last_configured (Prop_Run.within (@pc_vehicle N) (@vc_drag_coeff N)) (cs1 ++ [c]) default_table) ->
  steady (last_configured (Prop_Run.within (@pc_vehicle N) (@vc_lift_coeff N)) (cs1 ++ [c]) default_table) ->
  steady (last_configured (Prop_Run.within (@pc_vehicle N) (@vc_side_force_coeff N)) (cs1 ++ [c]) default_table) ->
  Forall (fun c => pc_steering c = None) (cs1 ++ [c]) ->
  (cs2 = [] \/ exists c' r, cs2 = c' :: r /\ pc_end_criterion c' <> None) ->
  same_flight (simulate fuel (cs1 ++ lasting (seconds (n + m)) c :: cs2))
    (simulate fuel (cs1 ++ lasting (seconds n) c :: lasting (seconds m) unchanged :: cs2)).
Proof.
  intros n m fuel cs1 c cs2 Hn Hm Hf Hb T D1 D2 D3 U Hc. unfold simulate.
  apply (sim_split seconds n m fuel cs2 c (ieee_counts n ltac:(lia)) (ieee_counts m ltac:(lia)) (ieee_counts (n + m) Hb) Hn Hm Hf Hc cs1 []);
    [left; split; reflexivity|].
  cbn [app]. intros p B.
  rewrite <- (configured_elsewhere _ _ cs1 (seconds n)) in D1 by reflexivity.
  rewrite <- (configured_elsewhere _ _ cs1 (seconds n)) in D2 by reflexivity.
  rewrite <- (configured_elsewhere _ _ cs1 (seconds n)) in D3 by reflexivity.
  assert (Rg : resting (ph_steering p)).
  { apply (begins_resting _ _ B). apply Forall_app in U. destruct U as [U1 U2]. apply Forall_app. split; [exact U1|].
    constructor; [|constructor]. inversion U2 as [|? ? U3 _]. exact U3. }
  split; [|now apply resting_smooth].
  apply (begins_good _ _ B); try assumption.
  - apply Forall_app in T. destruct T as [T1 T2]. apply Forall_app. split; [exact T1|]. constructor; [|constructor].
    inversion T2 as [|? ? T3 _]. exact T3.
  - destruct Rg as (r & y & q & _ & _ & _ & ->). intros v [<-|[<-|[<-|[]]]]; reflexivity.
Qed.
End IEEE.
