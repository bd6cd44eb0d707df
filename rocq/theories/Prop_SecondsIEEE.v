(** * C68 in binary64: a phase of any duration of at least a second ends at its target, bit for bit *)
From Coq Require Import ZArith List Reals Lra Lia Bool.
From Flocq Require Import Core BinarySingleNaN Sterbenz.
From Coq Require Import List.
From Verif Require Import Num Constants State Tables Config Planet Atmosphere Transformations Steering Vehicle RungeKutta Phase Simulation
  XR XRFacts B64 B64Facts SystemFacts RKFacts RunFacts PhaseNew Prop_Run Prop_Simulation Prop_Mission Prop_TimeIEEE Prop_EventIEEE Prop_Time
  Prop_Seconds.
Import ListNotations.
Local Open Scope R_scope.

(** The tolerance of the end criterion as the program has it. *)
Definition tolerance : R := B2R (b64_lit 1 (-3)).
Lemma tolerance_is : tolerance = 1152921504606847 / 1152921504606846976 /\ is_finite (b64_lit 1 (-3)) = true.
Proof. exact Verif.Prop_IEEE.tolerance_value. Qed.
Lemma format_of : forall x : b64, generic_format radix2 (SpecFloat.fexp 53 1024) (B2R x).
Proof. intros x. apply generic_format_B2R. Qed.
Lemma stays : forall x : R, generic_format radix2 (SpecFloat.fexp 53 1024) x -> round radix2 (SpecFloat.fexp 53 1024) (round_mode mode_NE) x = x.
Proof. intros x H. apply round_generic; [apply valid_rnd_N|exact H]. Qed.
Lemma near_minus : forall x y : b64, is_finite x = true -> is_finite y = true -> 0 <= B2R x -> 0 <= B2R y -> B2R y / 2 <= B2R x <= 2 * B2R y ->
  is_finite (Bminus mode_NE x y) = true /\ B2R (Bminus mode_NE x y) = B2R x - B2R y.
Proof.
  intros x y Fx Fy Px Py H. assert (G := Bminus_correct 53 1024 _ _ mode_NE x y Fx Fy).
  assert (F : generic_format radix2 (SpecFloat.fexp 53 1024) (B2R x - B2R y)).
  { apply sterbenz; [apply fexp64_valid|apply FLT_exp_monotone|apply format_of|apply format_of|exact H]. }
  rewrite (stays _ F) in G. rewrite Rlt_bool_true in G.
  - destruct G as (E & Fi & _). split; [exact Fi|exact E].
  - assert (A := abs_B2R_lt_emax 53 1024 x). assert (B := abs_B2R_lt_emax 53 1024 y). rewrite Rabs_pos_eq in A, B by assumption. apply Rabs_def1; lra.
Qed.
Lemma one_value : is_finite (b64_lit 1 0) = true /\ B2R (b64_lit 1 0) = 1.
Proof. split; [vm_compute; reflexivity|]. destruct (integer_value 1 ltac:(lia)) as [F X].
  assert (Q : Beqb (b64_lit 1 0) (b64_of_Z 1) = true) by (vm_compute; reflexivity). assert (F1 : is_finite (b64_lit 1 0) = true) by (vm_compute; reflexivity).
  rewrite Beqb_correct in Q by assumption. destruct (Req_bool_spec (B2R (b64_lit 1 0)) (B2R (b64_of_Z 1))) as [E|E]; [|discriminate Q]. rewrite E, X. reflexivity.
Qed.
Lemma times_one : forall x o : b64, is_finite x = true -> is_finite o = true -> B2R o = 1 -> is_finite (Bmult mode_NE x o) = true /\ B2R (Bmult mode_NE x o) = B2R x.
Proof.
  intros x o Fx Fo Eo. assert (G := Bmult_correct 53 1024 _ _ mode_NE x o). rewrite Eo, Rmult_1_r, (stays _ (format_of x)) in G.
  rewrite Rlt_bool_true in G by apply abs_B2R_lt_emax. destruct G as (E & F & _). split; [rewrite F, Fx, Fo; reflexivity|exact E].
Qed.
Lemma over_one : forall x o : b64, is_finite x = true -> B2R o = 1 -> is_finite (Bdiv mode_NE x o) = true /\ B2R (Bdiv mode_NE x o) = B2R x.
Proof.
  intros x o Fx Eo. assert (G := Bdiv_correct 53 1024 _ _ mode_NE x o ltac:(lra)). rewrite Eo in G. replace (B2R x / 1) with (B2R x) in G by field. rewrite (stays _ (format_of x)) in G.
  rewrite Rlt_bool_true in G by apply abs_B2R_lt_emax. destruct G as (E & F & _). split; [rewrite F; exact Fx|exact E].
Qed.

Section IEEE.
Context {lm : libm}.
Notation N := (B64 lm).
(** The whole second before the end and the one after it, [m] at least 1. *)
Section Around.
Variables (T : b64) (m : nat).
Hypothesis FT : is_finite T = true.
Hypothesis Hm : INR m <= B2R T < INR m + 1.
Hypothesis m1 : (1 <= m)%nat.
Hypothesis mZ : (Z.of_nat (S m) <= 2 ^ 53)%Z.
Let P1 : 1 <= INR m := le_INR 1 m m1.
Lemma before_minus : is_finite (Bminus mode_NE (whole m) T) = true /\ B2R (Bminus mode_NE (whole m) T) = INR m - B2R T.
Proof.
  destruct (whole_value m ltac:(lia)) as [F E]. rewrite <- E. apply near_minus; try assumption; rewrite ?E; lra.
Qed.
Lemma after_minus : is_finite (Bminus mode_NE (whole (S m)) T) = true /\ B2R (Bminus mode_NE (whole (S m)) T) = INR m + 1 - B2R T.
Proof.
  destruct (whole_value (S m) mZ) as [F E]. rewrite S_INR in E. rewrite <- E. apply near_minus; try assumption; rewrite ?E; lra.
Qed.
Lemma before_test : Bltb (Babs (Bminus mode_NE (whole m) T)) (b64_lit 1 (-3)) = Rlt_bool (B2R T - INR m) tolerance.
Proof.
  destruct before_minus as [F E]. destruct tolerance_is as [_ Ft]. rewrite Bltb_correct; [|now rewrite is_finite_Babs|exact Ft].
  rewrite B2R_Babs, E, Rabs_left1 by lra. replace (- (INR m - B2R T)) with (B2R T - INR m) by ring. reflexivity.
Qed.
Lemma after_test : Bltb (Babs (Bminus mode_NE (whole (S m)) T)) (b64_lit 1 (-3)) = Rlt_bool (INR m + 1 - B2R T) tolerance.
Proof.
  destruct after_minus as [F E]. destruct tolerance_is as [_ Ft]. rewrite Bltb_correct; [|now rewrite is_finite_Babs|exact Ft].
  rewrite B2R_Babs, E, Rabs_pos_eq by lra. reflexivity.
Qed.
(** The step to go, computed by the secant rule, and the clock after it are exact. *)
Definition to_go (h : b64) : b64 :=
  Bdiv mode_NE (Bmult mode_NE (Bopp (Bminus mode_NE (whole m) T)) h) (Bminus mode_NE (Bminus mode_NE (whole (S m)) T) (Bminus mode_NE (whole m) T)).
Lemma to_go_value : forall h, is_finite h = true -> B2R h = 1 -> is_finite (to_go h) = true /\ B2R (to_go h) = B2R T - INR m.
Proof.
  intros h Fh Eh. destruct before_minus as [F0 E0]. destruct after_minus as [F1 E1]. unfold to_go.
  set (a := Bminus mode_NE (whole m) T) in *. set (b := Bminus mode_NE (whole (S m)) T) in *.
  assert (D : B2R (Bminus mode_NE b a) = 1).
  { assert (G := Bminus_correct 53 1024 _ _ mode_NE b a F1 F0). rewrite E0, E1 in G. replace (INR m + 1 - B2R T - (INR m - B2R T)) with (B2R (b64_of_Z 1)) in G.
    2: { destruct (integer_value 1 ltac:(lia)) as [_ X]. rewrite X. ring. }
    rewrite (stays _ (format_of _)) in G. rewrite Rlt_bool_true in G by apply abs_B2R_lt_emax. destruct G as (E & _). rewrite E. destruct (integer_value 1 ltac:(lia)) as [_ X]. exact X. }
  destruct (times_one (Bopp a) h) as [F2 E2]; [now rewrite is_finite_Bopp|exact Fh|exact Eh|].
  destruct (over_one (Bmult mode_NE (Bopp a) h) _ F2 D) as [F3 E3]. split; [exact F3|]. rewrite E3, E2, B2R_Bopp, E0. ring.
Qed.
Lemma arrives : forall d : b64, is_finite d = true -> B2R d = B2R T - INR m -> Bplus mode_NE (whole m) d = T.
Proof.
  intros d Fd Ed. destruct (whole_value m ltac:(lia)) as [Fm Em]. assert (G := Bplus_correct 53 1024 _ _ mode_NE (whole m) d Fm Fd).
  rewrite Em, Ed in G. replace (INR m + (B2R T - INR m)) with (B2R T) in G by ring. rewrite (stays _ (format_of T)) in G.
  rewrite Rlt_bool_true in G by apply abs_B2R_lt_emax. destruct G as (E & F & _).
  assert (ST : forall x : b64, is_finite x = true -> 0 < B2R x -> is_finite_strict x = true).
  { intros x Fx Px. destruct x; try discriminate; [cbn in Px; lra|reflexivity]. }
  apply B2R_inj; [apply ST; [exact F|rewrite E; lra]|apply ST; [exact FT|lra]|exact E].
Qed.
(** The iteration from the last whole second. *)
Lemma overshoot_ieee : forall q q' : Phase N, ph_ended q = false -> ph_stepsize q = b64_lit 1 0 -> ph_end_criterion_tries q = 0%nat ->
  ph_end_criterion q = (TimeSinceEvent, T) -> iclock (ph_state q) = whole m -> step q = Ret q' ->
  (INR m + 1 - B2R T < tolerance /\ ph_ended q' = true /\ iclock (ph_state q') = whole (S m)) \/
  (tolerance <= INR m + 1 - B2R T /\ ph_ended q' = false /\ ph_stepsize q' = to_go (b64_lit 1 0) /\ ph_end_criterion q' = ph_end_criterion q /\ ph_state q' = ph_state q).
Proof.
  intros q q' En Eh Et Ec Ey Hs.
  destruct (candidate q) as [s|e] eqn:C; [|rewrite (Prop_TimeIEEE.step_panic_candidate q e En C) in Hs; discriminate].
  assert (V := Prop_TimeIEEE.candidate_clock q s TimeSinceEvent ltac:(tauto) C). cbn [get_value] in V. unfold iclock in Ey.
  assert (Vn : (st_time_since_event s : b64) = whole (S m)).
  { rewrite V, Ey, Eh. unfold whole. rewrite Nat2Z.inj_succ. apply integer_next; lia. }
  destruct (whole_value (S m) mZ) as [Fz Rz]. destruct (whole_value m ltac:(lia)) as [Fy Ry].
  rewrite (Prop_TimeIEEE.step_at q s TimeSinceEvent T En C Ec) in Hs. cbn [get_value] in Hs. rewrite Vn, after_test in Hs.
  destruct (Rlt_bool_spec (INR m + 1 - B2R T) tolerance) as [K|K].
  - left. injection Hs as <-. split; [exact K|]. split; [reflexivity|exact Vn].
  - right.
    assert (EA : event_is_active q (ph_state q) s = true).
    { unfold event_is_active. rewrite Ec. cbn [fst snd get_value]. rewrite Ey.
      change (n_ltb (n := N) (st_time_since_event s) (whole m)) with (Bltb (st_time_since_event s : b64) (whole m)).
      change (n_ltb (n := N) T (st_time_since_event s)) with (Bltb T (st_time_since_event s : b64)). rewrite Vn.
      rewrite (Bltb_correct 53 1024 (whole (S m)) (whole m) Fz Fy), Rlt_bool_false.
      - rewrite (Bltb_correct 53 1024 T (whole (S m)) FT Fz). apply Rlt_bool_true. rewrite Rz, S_INR. lra.
      - rewrite Rz, Ry. apply le_INR. lia. }
    rewrite EA, Et in Hs. cbn [Nat.ltb Nat.leb] in Hs. injection Hs as <-.
    split; [exact K|]. split; [exact En|]. split; [|split; reflexivity].
    assert (TG : time_to_go q (ph_state q) s = to_go (b64_lit 1 0)).
    { unfold time_to_go. rewrite Ec, Eh. cbn [fst snd get_value]. 
      change (Bdiv mode_NE (Bmult mode_NE (Bopp (Bminus mode_NE (st_time_since_event (ph_state q) : b64) T)) (b64_lit 1 0))
        (Bminus mode_NE (Bminus mode_NE (st_time_since_event s : b64) T) (Bminus mode_NE (st_time_since_event (ph_state q) : b64) T)) = to_go (b64_lit 1 0)).
      rewrite Vn, Ey. reflexivity. }
    exact TG.
Qed.
Lemma arrival_ieee : forall q q' : Phase N, ph_ended q = false -> ph_stepsize q = to_go (b64_lit 1 0) ->
  ph_end_criterion q = (TimeSinceEvent, T) -> iclock (ph_state q) = whole m -> step q = Ret q' -> ph_ended q' = true /\ iclock (ph_state q') = T.
Proof.
  intros q q' En Eh Ec Ey Hs.
  destruct (candidate q) as [s|e] eqn:C; [|rewrite (Prop_TimeIEEE.step_panic_candidate q e En C) in Hs; discriminate].
  assert (V := Prop_TimeIEEE.candidate_clock q s TimeSinceEvent ltac:(tauto) C). cbn [get_value] in V. unfold iclock in Ey.
  destruct one_value as [F1 E1]. destruct (to_go_value _ F1 E1) as [Fd Ed].
  assert (Vn : (st_time_since_event s : b64) = T) by (rewrite V, Ey, Eh; exact (arrives _ Fd Ed)).
  rewrite (Prop_TimeIEEE.step_at q s TimeSinceEvent T En C Ec) in Hs. cbn [get_value] in Hs. rewrite Vn in Hs.
  rewrite Prop_TimeIEEE.within in Hs; [|exact FT|exact FT|rewrite Rminus_diag_eq, Rabs_R0 by reflexivity; lra].
  injection Hs as <-. split; [reflexivity|exact Vn].
Qed.
Definition wholes (j n : nat) : list b64 := map (fun k => b64_of_Z (Z.of_nat k)) (seq j n).
Lemma chain_all_ieee : forall ps (q : Phase N) j, chain q ps -> ph_ended q = false -> ph_stepsize q = b64_lit 1 0 -> ph_end_criterion_tries q = 0%nat ->
  ph_end_criterion q = (TimeSinceEvent, T) -> iclock (ph_state q) = whole j -> (j <= m)%nat -> ph_ended (final q ps) = true ->
  let times := map iclock (map (@ph_state N) ps) in
  ((j < m)%nat -> B2R T - INR m < tolerance -> times = wholes (S j) (m - j)) /\
  ((j = m \/ tolerance <= B2R T - INR m) -> INR m + 1 - B2R T < tolerance -> times = wholes (S j) (S m - j)) /\
  ((j = m \/ tolerance <= B2R T - INR m) -> tolerance <= INR m + 1 - B2R T -> times = wholes (S j) (m - j) ++ [whole m; T]).
Proof.
  induction ps as [|q' l IH]; intros q j Hc En Eh Et Ec Ey Jm Hf; cbv zeta.
  { unfold final in Hf. cbn [last] in Hf. congruence. }
  inversion Hc as [|q0 q0' l0 _ St Cl]; subst. rewrite final_cons in Hf. cbn [map].
  destruct (Nat.eq_dec j m) as [->|Hne].
  - destruct (overshoot_ieee q q' En Eh Et Ec Ey St) as [(K & E1 & E2)|(K & E1 & E2 & E3 & E4)].
    + rewrite (ended_tail _ _ Cl E1). cbn [map]. rewrite E2. split; [lia|]. split; [intros _ _; replace (S m - m)%nat with 1%nat by lia; reflexivity|intros _ X; lra].
    + split; [lia|]. split; [intros _ X; lra|]. intros _ _. rewrite Nat.sub_diag. cbn [wholes seq map app].
      inversion Cl as [|q1 q2 l2 _ St2 Cl2]; subst; [unfold final in Hf; cbn [last] in Hf; congruence|].
      destruct (arrival_ieee q' q2 E1 E2 ltac:(congruence) ltac:(congruence) St2) as [F1 F2].
      rewrite (ended_tail _ _ Cl2 F1). cbn [map]. rewrite F2. unfold iclock in *. rewrite E4, Ey. reflexivity.
  - assert (Jm1 : (S j <= m)%nat) by lia. assert (Jr := le_INR _ _ Jm1).
    destruct (one_iteration_ieee q q' T j FT En Eh Et Ec Ey ltac:(lra) ltac:(lia) St) as (E5 & E & X & _ & _ & Q).
    destruct (Nat.eq_dec (S j) m) as [Em|Hne2].
    + rewrite Em, before_test in Q. rewrite E5. destruct (Rlt_bool_spec (B2R T - INR m) tolerance) as [K|K].
      * rewrite (ended_tail _ _ Cl Q). cbn [map]. rewrite Em. replace (m - j)%nat with 1%nat by lia.
        split; [intros _ _; reflexivity|]. split; [intros [Z|Z]; [lia|lra]|intros [Z|Z]; [lia|lra]].
      * destruct E as [E1|(E1 & E2 & E3 & E4)]; [congruence|].
        destruct (IH q' (S j) Cl E1 E2 E3 ltac:(congruence) E5 ltac:(lia) Hf) as (A & B & D). cbv zeta in A, B, D.
        split; [intros _ Z; lra|]. split.
        -- intros _ Z. rewrite B by (try (left; exact Em); exact Z). replace (S m - j)%nat with (S (S m - S j)) by lia. reflexivity.
        -- intros _ Z. rewrite D by (try (left; exact Em); exact Z). replace (m - j)%nat with (S (m - S j)) by lia. reflexivity.
    + assert (Ne : ph_ended q' = false). { apply X. rewrite <- S_INR. apply Rle_trans with (INR m); [apply le_INR; lia|lra]. }
      destruct E as [E1|(E1 & E2 & E3 & E4)]; [congruence|].
      destruct (IH q' (S j) Cl E1 E2 E3 ltac:(congruence) E5 ltac:(lia) Hf) as (A & B & D). cbv zeta in A, B, D. rewrite E5.
      split; [|split].
      * intros _ Z. rewrite A by (try lia; exact Z). replace (m - j)%nat with (S (m - S j)) by lia. reflexivity.
      * intros [Y|Y] Z; [lia|]. rewrite B by (try (right; exact Y); exact Z). replace (S m - j)%nat with (S (S m - S j)) by lia. reflexivity.
      * intros [Y|Y] Z; [lia|]. rewrite D by (try (right; exact Y); exact Z). replace (m - j)%nat with (S (m - S j)) by lia. reflexivity.
Qed.
End Around.
(** All records of a finished phase of at least one second, bit for bit. *)
Theorem C68_records_ieee : forall fuel (cs : list (PhaseConfig N)) ev st a i h b (T : b64) m, simulate fuel cs = (ev, st) -> block ev a i h b -> over b st ->
  criterion_in_effect cs i = (TimeSinceEvent, T) -> is_finite T = true -> INR m <= B2R T < INR m + 1 -> (1 <= m)%nat -> (Z.of_nat (S m) <= 2 ^ 53)%Z ->
  let whole_seconds j n := map (fun k => b64_of_Z (Z.of_nat k)) (seq j n) in
  (B2R T - INR m < tolerance -> map (@st_time_since_event N) h = whole_seconds 1%nat m) /\
  (tolerance <= B2R T - INR m -> INR m + 1 - B2R T < tolerance -> map (@st_time_since_event N) h = whole_seconds 1%nat (S m)) /\
  (tolerance <= B2R T - INR m -> tolerance <= INR m + 1 - B2R T -> map (@st_time_since_event N) h = whole_seconds 1%nat m ++ [b64_of_Z (Z.of_nat m); T]).
Proof.
  intros fuel cs ev st a i h b T m H Bl Ov Hc FT Hm m1 mZ ws.
  destruct (timed_chain _ _ _ _ _ _ _ _ H Bl) as [[_ X]|(p0 & ps & C & -> & E1 & E2 & E3 & E4 & E5 & E6)]; [now destruct X|].
  rewrite Hc in E4. rewrite whole_0 in E5.
  destruct (chain_all_ieee T m FT Hm m1 mZ ps p0 0 C E1 E2 E3 E4 E5 ltac:(lia) (E6 Ov)) as (A & B & D).
  rewrite !Nat.sub_0_r in *. split; [intros X; apply A; [lia|exact X]|]. split; [intros X Y; apply B; [now right|exact Y]|intros X Y; apply D; [now right|exact Y]].
Qed.
End IEEE.
