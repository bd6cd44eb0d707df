(** * C34 in IEEE arithmetic: phases ended by time

    Theorems about [B64 lm] for every mathematical library [lm]: the program's own floating
    point numbers, with all rounding errors of the clock, of the difference to the target and
    of the secant step. *)
From Coq Require Import ZArith List Reals Lra Lia Bool.
From Flocq Require Import Core BinarySingleNaN.
From Verif Require Import Num Constants State Tables Config Planet Atmosphere Transformations
  Steering Vehicle RungeKutta Phase Simulation B64 B64Facts SystemFacts RKFacts RunFacts PhaseNew
  Prop_Run SystemTotal Prop_Tables Prop_Panics Prop_IEEE Refute.
Import ListNotations.
Local Open Scope R_scope.

(** ** Rounding errors *)
Lemma half_ulp : forall e x, (-1000 <= e)%Z -> Rabs x <= bpow radix2 e ->
  Rabs (rnd x - x) <= bpow radix2 (e - 53).
Proof.
  intros e x He H.
  eapply Rle_trans; [apply error_le_half_ulp; apply fexp64_valid|].
  assert (U : ulp radix2 fexp64 x <= ulp radix2 fexp64 (bpow radix2 e)).
  { apply ulp_le; [apply fexp64_valid|apply (fexp_monotone 53 1024)|].
    rewrite (Rabs_pos_eq (bpow radix2 e)) by apply bpow_ge_0. exact H. }
  rewrite ulp_bpow in U.
  assert (E : fexp64 (e + 1) = (e - 52)%Z) by (unfold SpecFloat.fexp, SpecFloat.emin; lia).
  rewrite E in U. replace (e - 52)%Z with (1 + (e - 53))%Z in U by ring. rewrite bpow_plus in U.
  change (bpow radix2 1) with 2 in U. lra.
Qed.
Lemma rnd_le_bpow : forall e x, (-1000 <= e)%Z -> Rabs x <= bpow radix2 e -> Rabs (rnd x) <= bpow radix2 e.
Proof.
  intros e x He H. apply abs_round_le_generic; [apply fexp64_valid|apply valid_rnd_N| |exact H].
  apply generic_format_bpow. unfold SpecFloat.fexp, SpecFloat.emin. lia.
Qed.
Lemma no_overflow : forall e x, (-1000 <= e <= 1000)%Z -> Rabs x <= bpow radix2 e ->
  Rlt_bool (Rabs (round radix2 fexp64 (round_mode mode_NE) x)) (bpow radix2 1024) = true.
Proof.
  intros e x He H. apply Rlt_bool_true. eapply Rle_lt_trans; [apply (rnd_le_bpow e x); [lia|exact H]|].
  apply bpow_lt. lia.
Qed.
Lemma plus_rnd : forall e (x y : b64), (-1000 <= e <= 1000)%Z -> is_finite x = true -> is_finite y = true ->
  Rabs (B2R x + B2R y) <= bpow radix2 e ->
  is_finite (Bplus mode_NE x y) = true /\ B2R (Bplus mode_NE x y) = rnd (B2R x + B2R y).
Proof.
  intros e x y He Fx Fy H. assert (G := Bplus_correct 53 1024 _ _ mode_NE x y Fx Fy).
  rewrite (no_overflow e) in G by assumption. destruct G as (G1 & G2 & _). split; assumption.
Qed.
Lemma minus_rnd : forall e (x y : b64), (-1000 <= e <= 1000)%Z -> is_finite x = true -> is_finite y = true ->
  Rabs (B2R x - B2R y) <= bpow radix2 e ->
  is_finite (Bminus mode_NE x y) = true /\ B2R (Bminus mode_NE x y) = rnd (B2R x - B2R y).
Proof.
  intros e x y He Fx Fy H. assert (G := Bminus_correct 53 1024 _ _ mode_NE x y Fx Fy).
  rewrite (no_overflow e) in G by assumption. destruct G as (G1 & G2 & _). split; assumption.
Qed.
Lemma mult_rnd : forall e (x y : b64), (-1000 <= e <= 1000)%Z -> is_finite x = true -> is_finite y = true ->
  Rabs (B2R x * B2R y) <= bpow radix2 e ->
  is_finite (Bmult mode_NE x y) = true /\ B2R (Bmult mode_NE x y) = rnd (B2R x * B2R y).
Proof.
  intros e x y He Fx Fy H. assert (G := Bmult_correct 53 1024 _ _ mode_NE x y).
  rewrite (no_overflow e) in G by assumption. destruct G as (G1 & G2 & _). rewrite Fx, Fy in G2. split; assumption.
Qed.
Lemma div_rnd : forall e (x y : b64), (-1000 <= e <= 1000)%Z -> is_finite x = true -> B2R y <> 0 ->
  Rabs (B2R x / B2R y) <= bpow radix2 e ->
  is_finite (Bdiv mode_NE x y) = true /\ B2R (Bdiv mode_NE x y) = rnd (B2R x / B2R y).
Proof.
  intros e x y He Fx Hy H. assert (G := Bdiv_correct 53 1024 _ _ mode_NE x y Hy).
  rewrite (no_overflow e) in G by assumption. destruct G as (G1 & G2 & _). rewrite Fx in G2. split; assumption.
Qed.

Lemma bpow_41 : bpow radix2 41 = 2199023255552. Proof. cbn. lra. Qed.
Lemma bpow_1 : bpow radix2 1 = 2. Proof. cbn. lra. Qed.
Lemma err_41 : forall x, Rabs x <= 2199023255552 -> Rabs (rnd x - x) <= / 4096.
Proof. intros x H. rewrite <- bpow_41 in H. assert (K := half_ulp 41 x ltac:(lia) H). cbn in K. lra. Qed.
Lemma err_1 : forall x, Rabs x <= 2 -> Rabs (rnd x - x) <= / 4503599627370496.
Proof. intros x H. rewrite <- bpow_1 in H. assert (K := half_ulp 1 x ltac:(lia) H). cbn in K. lra. Qed.

(** One second is added to the clock. *)
Lemma tick : forall y o : b64, is_finite y = true -> is_finite o = true -> B2R o = 1 -> Rabs (B2R y) <= 1099511627776 ->
  is_finite (Bplus mode_NE y o) = true /\ Rabs (B2R (Bplus mode_NE y o) - (B2R y + 1)) <= / 4096.
Proof.
  intros y o Fy Fo Eo H.
  assert (B : Rabs (B2R y + 1) <= 2199023255552).
  { apply Rabs_le. apply Rabs_le_inv in H. lra. }
  destruct (plus_rnd 41 y o ltac:(lia) Fy Fo) as [F E]; [rewrite Eo, bpow_41; exact B|].
  split; [exact F|]. rewrite E, Eo. now apply err_41.
Qed.

(** The secant step from [y] to the target [T], after the attempt with one second led to [z]. *)
Lemma secant_time : forall y z T o : b64, is_finite y = true -> is_finite z = true -> is_finite T = true ->
  is_finite o = true -> B2R o = 1 ->
  B2R y <= B2R T < B2R z -> Rabs (B2R z - (B2R y + 1)) <= / 4096 ->
  let a := Bminus mode_NE y T in let b := Bminus mode_NE z T in
  let h := Bdiv mode_NE (Bmult mode_NE (Bopp a) o) (Bminus mode_NE b a) in
  is_finite h = true /\ 0 <= B2R h /\ Rabs (B2R h - (B2R T - B2R y)) <= / 4000.
Proof.
  intros y z T o Fy Fz FT Fo Eo L Hz a b h. apply Rabs_le_inv in Hz.
  assert (A0 : Rabs (B2R y - B2R T) <= 2) by (apply Rabs_le; lra).
  destruct (minus_rnd 1 y T ltac:(lia) Fy FT) as [Fa Ea]; [rewrite bpow_1; exact A0|]. fold a in Fa, Ea.
  assert (Ka := err_1 _ A0). rewrite <- Ea in Ka. apply Rabs_le_inv in Ka.
  assert (Na : B2R a <= 0).
  { rewrite Ea. rewrite <- (round_0 radix2 fexp64 ZnearestE). apply round_le; [apply fexp64_valid|apply valid_rnd_N|lra]. }
  assert (B0 : Rabs (B2R z - B2R T) <= 2) by (apply Rabs_le; lra).
  destruct (minus_rnd 1 z T ltac:(lia) Fz FT) as [Fb Eb]; [rewrite bpow_1; exact B0|]. fold b in Fb, Eb.
  assert (Kb := err_1 _ B0). rewrite <- Eb in Kb. apply Rabs_le_inv in Kb.
  set (d := Bminus mode_NE b a) in *.
  assert (D0 : Rabs (B2R b - B2R a) <= 2) by (apply Rabs_le; lra).
  destruct (minus_rnd 1 b a ltac:(lia) Fb Fa) as [Fd Ed]; [rewrite bpow_1; exact D0|]. fold d in Fd, Ed.
  assert (Kd := err_1 _ D0). rewrite <- Ed in Kd. apply Rabs_le_inv in Kd.
  set (c := Bmult mode_NE (Bopp a) o) in *.
  assert (C0 : Rabs (B2R (Bopp a) * B2R o) <= 2) by (rewrite B2R_Bopp, Eo; apply Rabs_le; lra).
  destruct (mult_rnd 1 (Bopp a) o ltac:(lia)) as [Fc Ec]; [now rewrite is_finite_Bopp|exact Fo|rewrite bpow_1; exact C0|].
  fold c in Fc, Ec.
  assert (Kc := err_1 _ C0). rewrite <- Ec in Kc. rewrite B2R_Bopp, Eo in Kc. apply Rabs_le_inv in Kc.
  assert (Nc : 0 <= B2R c).
  { rewrite Ec. rewrite <- (round_0 radix2 fexp64 ZnearestE). apply round_le; [apply fexp64_valid|apply valid_rnd_N|].
    rewrite B2R_Bopp, Eo. lra. }
  set (yr := B2R y) in *. set (zr := B2R z) in *. set (Tr := B2R T) in *.
  set (ar := B2R a) in *. set (br := B2R b) in *. set (cr := B2R c) in *. set (dr := B2R d) in *.
  assert (Hd : 4094 / 4096 <= dr <= 4098 / 4096) by lra.
  set (D := Tr - yr) in *. assert (HD : 0 <= D <= 4097 / 4096) by (unfold D; lra).
  assert (Hc : Rabs (cr - D) <= / 2000000000000) by (apply Rabs_le; unfold D; lra).
  assert (Q : cr / dr - D = (cr - D * dr) / dr) by (field; lra).
  assert (Hq : Rabs (cr / dr - D) <= / 4050).
  { rewrite Q. unfold Rdiv. rewrite Rabs_mult, (Rabs_pos_eq (/ dr)) by (left; apply Rinv_0_lt_compat; lra).
    assert (I : / dr <= 4096 / 4094).
    { replace (4096 / 4094) with (/ (4094 / 4096)) by field. apply Rinv_le_contravar; lra. }
    assert (J : Rabs (cr - D * dr) <= / 2000000000000 + 4097 / 4096 * (1 / 4096 + / 1000000000000)).
    { replace (cr - D * dr) with ((cr - D) + D * (1 - dr)) by ring.
      eapply Rle_trans; [apply Rabs_triang|]. apply Rplus_le_compat; [exact Hc|].
      rewrite Rabs_mult, (Rabs_pos_eq D) by lra. apply Rmult_le_compat; [lra|apply Rabs_pos|lra|].
      apply Rabs_le. lra. }
    assert (0 <= / dr) by (left; apply Rinv_0_lt_compat; lra).
    eapply Rle_trans; [apply Rmult_le_compat; [apply Rabs_pos|assumption|exact J|exact I]|]. lra. }
  apply Rabs_le_inv in Hq.
  assert (Q0 : Rabs (cr / dr) <= 2) by (apply Rabs_le; lra).
  destruct (div_rnd 1 c d ltac:(lia) Fc) as [Fh Eh]; [fold dr; lra|rewrite bpow_1; exact Q0|].
  fold h in Fh, Eh. fold cr dr in Eh. split; [exact Fh|].
  assert (Kh := err_1 _ Q0). rewrite <- Eh in Kh. apply Rabs_le_inv in Kh.
  split.
  - rewrite Eh. rewrite <- (round_0 radix2 fexp64 ZnearestE). apply round_le; [apply fexp64_valid|apply valid_rnd_N|].
    apply Rmult_le_pos; [exact Nc|left; apply Rinv_0_lt_compat; lra].
  - apply Rabs_le. lra.
Qed.

(** The tolerance test of the code on finite numbers. *)
Lemma within : forall z T : b64, is_finite z = true -> is_finite T = true -> Rabs (B2R z - B2R T) <= / 1024 ->
  Bltb (Babs (Bminus mode_NE z T)) (b64_lit 1 (-3)) = true.
Proof.
  intros z T Fz FT H.
  assert (E10 : bpow radix2 (-10) = / 1024) by (cbn; lra).
  destruct (minus_rnd (-10) z T ltac:(lia) Fz FT) as [F E]; [rewrite E10; exact H|].
  destruct tolerance_value as [Et Ft]. revert Et Ft. generalize (b64_lit 1 (-3)). intros tol Et Ft.
  rewrite Bltb_correct; [|now rewrite is_finite_Babs|exact Ft].
  apply Rlt_bool_true. rewrite B2R_Babs, E, Et.
  eapply Rle_lt_trans; [apply (rnd_le_bpow (-10)); [lia|rewrite E10; exact H]|]. rewrite E10. lra.
Qed.
Lemma not_within : forall z T : b64, is_finite z = true -> is_finite T = true -> Rabs (B2R z) <= 2199023255552 ->
  Rabs (B2R T) <= 2199023255552 ->
  Bltb (Babs (Bminus mode_NE z T)) (b64_lit 1 (-3)) = true -> Rabs (B2R z - B2R T) < 1001 / 1000000.
Proof.
  intros z T Fz FT Hz HT M.
  assert (E42 : bpow radix2 42 = 4398046511104) by (cbn; lra).
  assert (H : Rabs (B2R z - B2R T) <= bpow radix2 42).
  { rewrite E42. apply Rabs_le. apply Rabs_le_inv in Hz, HT. lra. }
  destruct (minus_rnd 42 z T ltac:(lia) Fz FT H) as [F E].
  destruct tolerance_value as [Et Ft]. revert Et Ft M. generalize (b64_lit 1 (-3)). intros tol Et Ft M.
  rewrite Bltb_correct in M; [|now rewrite is_finite_Babs|exact Ft].
  destruct (Rlt_bool_spec (B2R (Babs (Bminus mode_NE z T))) (B2R tol)) as [L|L]; [|discriminate].
  rewrite B2R_Babs, E in L.
  destruct (Rle_or_lt (B2R tol) (Rabs (B2R z - B2R T))) as [K|K].
  - exfalso. apply (abs_round_ge_generic radix2 fexp64 ZnearestE) in K; [lra|apply generic_format_B2R].
  - rewrite Et in K. lra.
Qed.

Section IEEE.
Context {lm : libm}.
Notation N := (B64 lm).

Lemma candidate_clock : forall (q : Phase N) s v, (v = Time \/ v = TimeSinceEvent) -> candidate q = Ret s ->
  (get_value v s : b64) = Bplus mode_NE (get_value v (ph_state q)) (ph_stepsize q).
Proof.
  intros q s v Hv C. destruct (candidate_eom _ _ C) as [z X].
  destruct Hv as [-> | ->]; cbn [get_value].
  - rewrite (e_time _ _ _ X). reflexivity.
  - rewrite (e_time_since_event _ _ _ X). reflexivity.
Qed.
Lemma step_at : forall (q : Phase N) s v T, ph_ended q = false -> candidate q = Ret s ->
  ph_end_criterion q = (v, T) ->
  step q = if Bltb (Babs (Bminus mode_NE (get_value v s : b64) T)) (b64_lit 1 (-3))
    then Ret (set_ph_state (set_ph_ended q true) s)
    else if event_is_active q (ph_state q) s then
      if (20 <? ph_end_criterion_tries q)%nat then Panic PNoZeroCrossing
      else Ret (set_ph_end_criterion_tries (set_ph_stepsize q (time_to_go q (ph_state q) s))
                  (ph_end_criterion_tries q + 1))
    else Ret (set_ph_state q s).
Proof.
  intros q s v T En C Ec. unfold step. rewrite En.
  change (integrator_step (fun s => system q s) (ph_state q) (ph_stepsize q)) with (candidate q).
  rewrite C, Ec. reflexivity.
Qed.
Lemma step_panic_candidate : forall (q : Phase N) e, ph_ended q = false -> candidate q = Panic e -> step q = Panic e.
Proof.
  intros q e En C. unfold step. rewrite En.
  change (integrator_step (fun s => system q s) (ph_state q) (ph_stepsize q)) with (candidate q).
  rewrite C. reflexivity.
Qed.
Lemma run_loop_ended : forall fuel (q : Phase N), ph_ended q = true -> run_loop fuel q = ([], Finished q).
Proof. intros [|fuel] q H; cbn [run_loop]; now rewrite H. Qed.
Lemma candidate_panic : forall (q : Phase N) e, tables_accepted (ph_vehicle q) -> candidate q = Panic e ->
  e = PMaxAcceleration.
Proof.
  intros q e H C. destruct (integrator_panic _ _ _ _ C) as [s' E].
  destruct (C49_system q s' H) as [[s2 G]|G]; congruence.
Qed.

(** What the clock [v] of a state shows: a finite number between [lo] and [hi]. *)
Definition clock_in (v : StateVariable) (lo hi : R) (s : State N) : Prop :=
  is_finite (get_value v s : b64) = true /\ lo <= B2R (get_value v s : b64) <= hi.
Definition ended_at (v : StateVariable) (T : R) (st : status (Phase N)) : Prop :=
  (exists q, st = Finished q /\ is_finite (get_value v (ph_state q) : b64) = true /\
     Rabs (B2R (get_value v (ph_state q) : b64) - T) < 1001 / 1000000)
  \/ st = Aborted PMaxAcceleration.

Lemma clock_loop : forall v (T : b64), (v = Time \/ v = TimeSinceEvent) -> is_finite T = true ->
  Rabs (B2R T) <= 1099511627776 ->
  forall K fuel (q : Phase N) (y : b64), (K + 2 <= fuel)%nat -> tables_accepted (ph_vehicle q) -> ph_ended q = false ->
  ph_stepsize q = b64_lit 1 0 -> ph_end_criterion_tries q = 0%nat -> ph_end_criterion q = (v, T) ->
  get_value v (ph_state q) = y -> is_finite y = true -> -1099511627776 <= B2R y -> B2R y <= B2R T <= B2R y + INR K * (4095 / 4096) ->
  exists h st, run_loop fuel q = (h, st) /\ (length h <= K + 2)%nat /\ ended_at v (B2R T) st /\
    Forall (clock_in v (B2R y) (B2R T + 1001 / 1000000)) h.
Proof.
  intros v T Hv FT HT. assert (HT' := HT). apply Rabs_le_inv in HT'.
  induction K as [|K IH]; intros fuel q y HK Tab En Eh Et Ec Ey Fy Ly Hy.
  all: destruct fuel as [|fuel]; [lia|]; cbn [run_loop]; rewrite En;
    (destruct (candidate q) as [s|e] eqn:C;
     [|rewrite (step_panic_candidate q e En C), (candidate_panic q e Tab C);
       exists [], (Aborted PMaxAcceleration);
       (split; [reflexivity|split; [cbn; lia|split; [right; reflexivity|constructor]]])]).
  all: assert (V := candidate_clock q s v Hv C); rewrite Ey, Eh in V.
  all: assert (Hy1 : Rabs (B2R y) <= 1099511627776) by (apply Rabs_le; lra).
  all: destruct lit_1 as [O1 [O2 _]].
  all: destruct (tick y (b64_lit 1 0) Fy O2 O1 Hy1) as [Fz Hz]; rewrite <- V in Fz, Hz.
  all: assert (Hz' := Hz); apply Rabs_le_inv in Hz'.
  all: rewrite (step_at q s v T En C Ec).
  all: destruct (Bltb (Babs (Bminus mode_NE (get_value v s : b64) T)) (b64_lit 1 (-3))) eqn:M;
    [apply not_within in M; [|exact Fz|exact FT|apply Rabs_le; lra|apply Rabs_le; lra];
     rewrite run_loop_ended by reflexivity; cbn [set_ph_state set_ph_ended ph_state];
     exists [s], (Finished (set_ph_state (set_ph_ended q true) s));
     (split; [reflexivity|split; [cbn; lia|split]]);
     [left; eexists; split; [reflexivity|]; split; [exact Fz|exact M]
     |constructor; [|constructor]; split; [exact Fz|]; apply Rabs_def2 in M; lra]|].
  all: assert (EA : event_is_active q (ph_state q) s = Rlt_bool (B2R T) (B2R (get_value v s : b64))) by
    (unfold event_is_active; rewrite Ec; cbn [fst snd]; rewrite Ey;
     cbn [n_ltb B64]; rewrite (Bltb_correct 53 1024 (get_value v s : b64) y Fz Fy), Rlt_bool_false by lra;
     apply Bltb_correct; assumption).
  all: rewrite EA; destruct (Rlt_bool_spec (B2R T) (B2R (get_value v s : b64))) as [B|B].
  (* overshoot: the retry hits the target *)
  1, 3: rewrite Et; cbn [Nat.ltb Nat.leb Nat.add];
    destruct (secant_time y (get_value v s) T (b64_lit 1 0) Fy Fz FT O2 O1 ltac:(lra) Hz) as (Fh & Nh & Hh);
    assert (EG : time_to_go q (ph_state q) s =
      Bdiv mode_NE (Bmult mode_NE (Bopp (Bminus mode_NE y T)) (b64_lit 1 0))
        (Bminus mode_NE (Bminus mode_NE (get_value v s) T) (Bminus mode_NE y T))) by
      (unfold time_to_go; rewrite Ec, Eh; cbn [fst snd]; rewrite Ey; reflexivity);
    rewrite EG; revert Fh Nh Hh;
    generalize (Bdiv mode_NE (Bmult mode_NE (Bopp (Bminus mode_NE y T)) (b64_lit 1 0))
        (Bminus mode_NE (Bminus mode_NE (get_value v s) T) (Bminus mode_NE y T)));
    intros hh Fh Nh Hh; apply Rabs_le_inv in Hh;
    set (q' := set_ph_end_criterion_tries (set_ph_stepsize q (hh : carrier N)) 1);
    (destruct fuel as [|fuel]; [lia|]); cbn [run_loop];
    (replace (ph_ended q') with false by (symmetry; exact En));
    (destruct (candidate q') as [s'|e] eqn:C';
     [|rewrite (step_panic_candidate q' e En C'), (candidate_panic q' e Tab C');
       exists [ph_state q'], (Aborted PMaxAcceleration);
       (split; [reflexivity|split; [cbn; lia|split; [right; reflexivity|]]]);
       constructor; [|constructor];
       (split; change (ph_state q') with (ph_state q); rewrite Ey; [exact Fy|lra])]);
    assert (V' := candidate_clock q' s' v Hv C');
    change (ph_state q') with (ph_state q) in V'; change (ph_stepsize q') with hh in V'; rewrite Ey in V';
    (assert (B41 : Rabs (B2R y + B2R hh) <= 2199023255552) by (apply Rabs_le; lra));
    destruct (plus_rnd 41 y hh ltac:(lia) Fy Fh) as [Fz' Ez']; [rewrite bpow_41; exact B41|];
    assert (Kz' := err_41 _ B41); rewrite <- Ez' in Kz'; apply Rabs_le_inv in Kz';
    (assert (Ge : B2R y <= B2R (Bplus mode_NE y hh)) by
      (rewrite Ez'; apply round_ge_generic; [apply fexp64_valid|apply valid_rnd_N|apply generic_format_B2R|lra]));
    rewrite <- V' in Fz', Kz', Ge;
    rewrite (step_at q' s' v T En C' Ec);
    (rewrite (within (get_value v s') T Fz' FT) by (apply Rabs_le; lra));
    rewrite run_loop_ended by reflexivity;
    exists [ph_state q'; s'], (Finished (set_ph_state (set_ph_ended q' true) s'));
    (split; [reflexivity|split; [cbn; lia|split]]);
    [left; eexists; split; [reflexivity|]; split; [exact Fz'|apply Rabs_def1; cbn [set_ph_state set_ph_ended ph_state]; lra]
    |constructor; [split; change (ph_state q') with (ph_state q); rewrite Ey; [exact Fy|lra]|];
     constructor; [|constructor]; split; [exact Fz'|lra]].
  - (* K = 0 *) exfalso. cbn in Hy. lra.
  - (* an accepted step *)
    destruct (IH fuel (set_ph_state q s) (get_value v s)) as (h & st & R & L & A & F); try assumption; try lia.
    + reflexivity.
    + lra.
    + rewrite S_INR in Hy. lra.
    + rewrite R. exists (s :: h), st. split; [reflexivity|]. split; [cbn; lia|]. split; [exact A|].
      constructor; [split; [exact Fz|lra]|].
      revert F. apply Forall_impl. intros x [E1 E2]. split; [exact E1|lra].
Qed.

(** Termination in IEEE arithmetic, for every mathematical library: a phase that ends at a time
    (or time since its start) of at most 2^40 s (35 thousand years) in magnitude, not before its
    start, ends after at most [K + 2] iterations if [K * (1 - 2^-12)] is not smaller than the
    duration - within 1.001 ms of the target - or aborts because of the acceleration limit; the
    clock stays between start and target. *)
Theorem C34_terminates_ieee : forall (cs : list (PhaseConfig N)) (p : Phase N) s0 v (T y0 : b64) K fuel,
  begins cs p -> tables_accepted (ph_vehicle p) -> (v = Time \/ v = TimeSinceEvent) ->
  ph_end_criterion p = (v, T) -> initial p s0 -> get_value v s0 = y0 ->
  is_finite y0 = true -> is_finite T = true -> - 2 ^ 40 <= B2R y0 -> B2R T <= 2 ^ 40 ->
  B2R y0 <= B2R T -> B2R T - B2R y0 <= INR K * (1 - / 4096) -> (K + 2 <= fuel)%nat ->
  exists h st, run fuel p = (h, st) /\ (length h <= K + 2)%nat /\
    ((exists q, st = Finished q /\ is_finite (get_value v (ph_state q) : b64) = true /\
        Rabs (B2R (get_value v (ph_state q) : b64) - B2R T) < 1001 / 1000000)
     \/ st = Aborted PMaxAcceleration) /\
    forall s, In s h -> is_finite (get_value v s : b64) = true /\
      B2R y0 <= B2R (get_value v s : b64) <= B2R T + 1001 / 1000000.
Proof.
  intros cs p s0 v T y0 K fuel Hb Tab Hv Ec Hi Ey Fy FT Ly LT Le HK Hf.
  unfold run. unfold initial in Hi. rewrite Hi.
  destruct (C29_stepsize_is_one cs p Hb) as [H1 H2].
  destruct (C32_counter_starts_at_zero cs p s0 Hb) as [H3 H4].
  assert (E40 : 2 ^ 40 = 1099511627776) by lra. rewrite E40 in *.
  destruct (clock_loop v T Hv FT ltac:(apply Rabs_le; lra) K fuel (set_ph_state p s0) y0) as (h & st & R & L & A & F); try assumption.
  - lra.
  - exists h, st. rewrite Forall_forall in F. auto.
Qed.

(** ** Without the bound the property fails: the clock stops at 2^53 seconds *)
Lemma tick_integer : forall (y : b64) n, is_finite y = true -> B2R y = IZR n -> (0 <= n <= 2 ^ 53)%Z ->
  exists n', is_finite (Bplus mode_NE y (b64_lit 1 0)) = true /\
    B2R (Bplus mode_NE y (b64_lit 1 0)) = IZR n' /\ (n <= n' <= 2 ^ 53)%Z.
Proof.
  intros y n Fy Ey Hn. destruct lit_1 as [O1 [O2 _]].
  assert (HI : 0 <= IZR n <= IZR (2 ^ 53)) by (split; apply IZR_le; lia).
  assert (E54 : bpow radix2 54 = IZR (2 ^ 54)) by (cbn; lra).
  assert (B : Rabs (B2R y + B2R (b64_lit 1 0)) <= bpow radix2 54).
  { rewrite O1, Ey, E54. apply Rabs_le. cbn in *. lra. }
  destruct (plus_rnd 54 y (b64_lit 1 0) ltac:(lia) Fy O2 B) as [F E].
  destruct (Z.eq_dec n (2 ^ 53)) as [En|En].
  - exists n. split; [exact F|]. split; [|lia]. rewrite E, O1, Ey, En.
    (* 2^53 + 1 is half way between 2^53 and 2^53 + 2; the tie goes to the even mantissa *)
    assert (T : Bplus mode_NE (b64_of_Z (2 ^ 53)) (b64_lit 1 0) = b64_of_Z (2 ^ 53)).
    { apply B2SF_inj. vm_compute. reflexivity. }
    assert (X : B2R (b64_of_Z (2 ^ 53)) = IZR (2 ^ 53) /\ is_finite (b64_of_Z (2 ^ 53)) = true).
    { assert (S : B2SF (b64_of_Z (2 ^ 53)) = SpecFloat.S754_finite false 4503599627370496 1) by (vm_compute; reflexivity).
      destruct (b64_of_Z (2 ^ 53)) as [s|s| |s m e H]; cbn in S; try discriminate. injection S as -> -> ->.
      split; [|reflexivity]. unfold B2R, F2R. cbn. lra. }
    destruct X as [X1 X2].
    assert (B' : Rabs (B2R (b64_of_Z (2 ^ 53)) + B2R (b64_lit 1 0)) <= bpow radix2 54).
    { rewrite O1, X1, E54. apply Rabs_le. cbn. lra. }
    destruct (plus_rnd 54 (b64_of_Z (2 ^ 53)) (b64_lit 1 0) ltac:(lia) X2 O2 B') as [_ E'].
    rewrite T, X1, O1 in E'. symmetry. exact E'.
  - exists (n + 1)%Z. split; [exact F|]. split; [|lia]. rewrite E, O1, Ey, plus_IZR.
    apply round_generic; [apply valid_rnd_N|].
    rewrite <- plus_IZR. destruct (Z.eq_dec (n + 1) (2 ^ 53)) as [E1|E1].
    + rewrite E1. change (IZR (2 ^ 53)) with (bpow radix2 53). apply generic_format_bpow.
      unfold SpecFloat.fexp, SpecFloat.emin. lia.
    + apply (generic_format_FLT radix2 (-1074) 53). apply (FLT_spec radix2 (-1074) 53 _ (Float radix2 (n + 1) 0)).
      * unfold F2R. cbn. ring.
      * cbn. lia.
      * cbn. lia.
Qed.
Lemma far : forall z T : b64, is_finite z = true -> is_finite T = true -> 0 <= B2R z -> B2R z + 2 <= B2R T ->
  Bltb (Babs (Bminus mode_NE z T)) (b64_lit 1 (-3)) = false.
Proof.
  intros z T Fz FT Hz H.
  assert (G := Bminus_correct 53 1024 _ _ mode_NE z T Fz FT).
  assert (O : Rabs (rnd (B2R z - B2R T)) <= B2R T).
  { apply abs_round_le_generic; [apply fexp64_valid|apply valid_rnd_N|apply generic_format_B2R|]. apply Rabs_le. lra. }
  rewrite Rlt_bool_true in G.
  2: { eapply Rle_lt_trans; [exact O|]. rewrite <- (Rabs_pos_eq (B2R T)) by lra. apply abs_B2R_lt_emax. }
  destruct G as (E & F & _).
  destruct tolerance_value as [Et Ft]. revert Et Ft. generalize (b64_lit 1 (-3)). intros tol Et Ft.
  rewrite Bltb_correct; [|now rewrite is_finite_Babs|exact Ft].
  apply Rlt_bool_false. rewrite B2R_Babs, E, Et.
  assert (L : bpow radix2 1 <= Rabs (rnd (B2R z - B2R T))).
  { apply abs_round_ge_generic; [apply fexp64_valid|apply valid_rnd_N| |].
    - apply generic_format_bpow. unfold SpecFloat.fexp, SpecFloat.emin. lia.
    - rewrite bpow_1, Rabs_left1 by lra. lra. }
  rewrite bpow_1 in L. apply Rle_trans with 2; [lra|exact L].
Qed.

Lemma stuck_loop : forall v (T : b64), (v = Time \/ v = TimeSinceEvent) -> is_finite T = true ->
  IZR (2 ^ 53 + 2) <= B2R T ->
  forall fuel (q : Phase N) (y : b64) n h st, ph_ended q = false -> ph_stepsize q = b64_lit 1 0 ->
  ph_end_criterion q = (v, T) -> get_value v (ph_state q) = y -> is_finite y = true -> B2R y = IZR n ->
  (0 <= n <= 2 ^ 53)%Z -> run_loop fuel q = (h, st) -> forall q', st <> Finished q'.
Proof.
  intros v T Hv FT HT. induction fuel as [|fuel IH]; intros q y n h st En Eh Ec Ey Fy Ry Hn R q'.
  - cbn [run_loop] in R. rewrite En in R. injection R as _ <-. discriminate.
  - cbn [run_loop] in R. rewrite En in R. destruct (candidate q) as [s|e] eqn:C.
    2: { rewrite (step_panic_candidate q e En C) in R. injection R as _ <-. discriminate. }
    assert (V := candidate_clock q s v Hv C). rewrite Ey, Eh in V.
    destruct (tick_integer y n Fy Ry Hn) as (n' & Fz & Rz & Hn'). rewrite <- V in Fz, Rz.
    assert (Z0 : 0 <= B2R (get_value v s : b64) <= IZR (2 ^ 53)).
    { rewrite Rz. split; apply IZR_le; lia. }
    rewrite plus_IZR in HT.
    rewrite (step_at q s v T En C Ec), (far (get_value v s) T Fz FT) in R by lra.
    assert (EA : event_is_active q (ph_state q) s = false).
    { unfold event_is_active. rewrite Ec. cbn [fst snd]. rewrite Ey. cbn [n_ltb B64].
      rewrite (Bltb_correct 53 1024 (get_value v s : b64) y Fz Fy), Rlt_bool_false.
      - rewrite (Bltb_correct 53 1024 T (get_value v s : b64) FT Fz). apply Rlt_bool_false. lra.
      - rewrite Rz, Ry. apply IZR_le. lia. }
    rewrite EA in R.
    destruct (run_loop fuel (set_ph_state q s)) as [h' st'] eqn:L. injection R as _ <-.
    apply (IH (set_ph_state q s) (get_value v s) n' h' st'); try assumption; try reflexivity. lia.
Qed.

(** A phase whose duration is 2^53 + 2 seconds or longer never ends, whatever the rest of the
    configuration: in exact arithmetic it would ([C34_duration]). *)
Theorem C34_clock_stalls_ieee : forall (cs : list (PhaseConfig N)) (p : Phase N) (T : b64) fuel h st,
  begins cs p -> ph_end_criterion p = (TimeSinceEvent, T) -> is_finite T = true -> 2 ^ 53 + 2 <= B2R T ->
  run fuel p = (h, st) -> forall q, st <> Finished q.
Proof.
  intros cs p T fuel h st Hb Ec FT HT R q. unfold run in R.
  destruct (system p (ph_state p)) as [s0|e] eqn:Hi; [|injection R as _ <-; discriminate].
  destruct (C29_stepsize_is_one cs p Hb) as [H1 H2].
  destruct (C32_counter_starts_at_zero cs p s0 Hb) as [H3 H4].
  destruct (C36_start cs p Hb) as [_ E]. destruct (E s0 Hi) as [E1 _].
  assert (HT' : IZR (2 ^ 53 + 2) <= B2R T) by (cbn; lra).
  apply (stuck_loop TimeSinceEvent T ltac:(tauto) FT HT' fuel (set_ph_state p s0) (B754_zero false) 0%Z h st);
    try assumption; try reflexivity. lia.
Qed.
End IEEE.

(** ** Non-vacuity: a flight of ten seconds (and one of 2^60 seconds) in binary64 *)
Section Examples.
Definition first_state_ok {N : Num} (c : PhaseConfig N) : bool :=
  match phase_new None c with
  | Ret p => match system (reset p) (ph_state (reset p)) with Ret _ => true | Panic _ => false end
  | Panic _ => false
  end.
Lemma first_state : forall (N : Num) (c : PhaseConfig N) e m v, pc_end_criterion c = Some e ->
  pc_vehicle c = Some (mkVehicleConfig (N := N) m v None None None None None) ->
  first_state_ok c = true ->
  exists p s0, begins [c] p /\ initial p s0 /\ ph_end_criterion p = e /\ tables_accepted (ph_vehicle p).
Proof.
  intros N c e m v He Hv H. unfold first_state_ok in H. destruct (phase_new None c) as [p|] eqn:P; [|discriminate].
  destruct (system (reset p) (ph_state (reset p))) as [s0|] eqn:S; [|discriminate].
  exists (reset p), s0. split; [exact (begins_first c _ P)|]. split; [exact S|].
  rewrite phase_new_configured in P. destruct (pc_init c) as [i|]; [|discriminate]. injection P as <-.
  split.
  - change (inherit (pc_end_criterion c) (ph_end_criterion (default_phase (N := N))) = e). rewrite He. reflexivity.
  - change (tables_accepted (match pc_vehicle c with
      | Some v => vehicle_update_with_config (ph_vehicle (default_phase (N := N))) v
      | None => ph_vehicle (default_phase (N := N)) end)). rewrite Hv.
    repeat split; apply C18_default_table_accepted.
Qed.
Definition wait_config (T : b64) (lm : libm) : PhaseConfig (B64 (zlm lm)) :=
  mkPhaseConfig (N := B64 (zlm lm)) (site lm)
    (Some (mkVehicleConfig (N := B64 (zlm lm)) (Some (b64_lit 100 0)) None None None None None None))
    None (still_planet lm) None None None (Some (TimeSinceEvent, T)).
Example C34_ieee_nonvacuous : forall lm, standard_at_zero lm ->
  exists (c : PhaseConfig (B64 lm)) p s0 (T : b64), begins [c] p /\ tables_accepted (ph_vehicle p) /\
    ph_end_criterion p = (TimeSinceEvent, T) /\ initial p s0 /\ is_finite T = true /\ B2R T = 10.
Proof.
  intros lm H. rewrite <- (zlm_eq lm H).
  destruct (first_state _ (wait_config (b64_lit 10 0) lm) _ _ _ eq_refl eq_refl) as (p & s0 & A & B & C & D).
  { vm_compute. reflexivity. }
  exists (wait_config (b64_lit 10 0) lm), p, s0, (b64_lit 10 0). repeat (split; [assumption|]).
  destruct (B2R_lit 10 0 false 5629499534213120 (-49)) as [X [Y _]]; [vm_compute; reflexivity|].
  split; [exact Y|]. rewrite X. unfold F2R. cbn. lra.
Qed.
Example C34_clock_stalls_nonvacuous : forall lm, standard_at_zero lm ->
  exists (c : PhaseConfig (B64 lm)) p s0 (T : b64), begins [c] p /\ initial p s0 /\
    ph_end_criterion p = (TimeSinceEvent, T) /\ is_finite T = true /\ B2R T = 2 ^ 60.
Proof.
  intros lm H. rewrite <- (zlm_eq lm H).
  destruct (first_state _ (wait_config (b64_of_Z (2 ^ 60)) lm) _ _ _ eq_refl eq_refl) as (p & s0 & A & B & C & _).
  { vm_compute. reflexivity. }
  exists (wait_config (b64_of_Z (2 ^ 60)) lm), p, s0, (b64_of_Z (2 ^ 60)). repeat (split; [assumption|]).
  assert (S : B2SF (b64_of_Z (2 ^ 60)) = SpecFloat.S754_finite false 4503599627370496 8) by (vm_compute; reflexivity).
  destruct (b64_of_Z (2 ^ 60)) as [s|s| |s m e X]; cbn in S; try discriminate. injection S as -> -> ->.
  split; [reflexivity|]. unfold B2R, F2R. cbn. lra.
Qed.
End Examples.
