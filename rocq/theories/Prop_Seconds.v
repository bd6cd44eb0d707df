(** * C68: a timed phase reports every whole second

    The records of a phase that ends [T] seconds after its event are one second apart up to [T]; what follows is fixed by
    the distance of [T] from the whole seconds. *)
From Coq Require Import ZArith List Reals Lra Lia Bool.
From Flocq Require Import Core BinarySingleNaN.
From Coq Require Import List.
From Verif Require Import Num Constants State Tables Config Planet Atmosphere Transformations Steering Vehicle RungeKutta Phase Simulation
  XR XRFacts B64 B64Facts SystemFacts RKFacts RunFacts PhaseNew Prop_Run Prop_Simulation Prop_Mission Prop_CoastExact Prop_TimeIEEE Prop_EventIEEE Prop_Time Prop_Coast.
Import ListNotations.
Local Open Scope R_scope.

(** The end criterion in effect in phase [i] (Config.rs: the last one configured, else [time_since_event] = 0). *)
Definition criterion_in_effect {N : Num} (cs : list (PhaseConfig N)) (i : nat) : StateVariable * N :=
  last_configured (@pc_end_criterion N) (firstn i cs) (TimeSinceEvent, n_lit 0 0).
(** The phase is over: another one begins, or the simulation is finished. *)
Definition over {N : Num} (b : list (event N)) (st : status (Phase N)) : Prop := b <> [] \/ exists q, st = Finished q.

Lemma same_entries : forall (A : Type) (l m : list A), (forall k, nth_error l k = nth_error m k) -> l = m.
Proof.
  intros A. induction l as [|x l IH]; intros [|y m] H; [reflexivity|discriminate (H 0%nat)|discriminate (H 0%nat)|].
  assert (E := H 0%nat). cbn in E. injection E as ->. f_equal. apply IH. intros k. exact (H (S k)).
Qed.
Lemma map_entry : forall (A B : Type) (f : A -> B) l k, nth_error (map f l) k = option_map f (nth_error l k).
Proof. intros A B f. induction l as [|x l IH]; intros [|k]; cbn; auto. Qed.
Section WithNum.
Context {N : Num}.
(** The records of a phase come from a chain of iterations that starts at the clock zero with a step of one second. *)
Lemma timed_chain : forall fuel (cs : list (PhaseConfig N)) ev st a i h b, simulate fuel cs = (ev, st) -> block ev a i h b ->
  (h = [] /\ ~ over b st) \/ exists p0 ps, chain p0 ps /\ h = map (@ph_state N) ps /\ ph_ended p0 = false /\ ph_stepsize p0 = n_lit 1 0 /\
    ph_end_criterion_tries p0 = 0%nat /\ ph_end_criterion p0 = criterion_in_effect cs i /\ st_time_since_event (ph_state p0) = n_lit 0 0 /\
    (over b st -> ph_ended (final p0 ps) = true).
Proof.
  intros fuel cs ev st a i h b H Bl.
  destruct (simulate_blocks _ _ _ _ _ _ _ _ H Bl) as [_ [(X & Y & e & Z)|(p & st1 & Bp & R & En & Fin & _)]].
  { left. split; [exact X|]. intros [O|[q O]]; [now apply O|congruence]. }
  destruct (run_chain _ _ _ _ R) as [[e [_ [E S]]]|[s0 [ps [Hi [Hc [E S]]]]]].
  { left. split; [exact E|]. intros O. destruct (Fin O) as [q Q]. congruence. }
  right. exists (set_ph_state p s0), ps. destruct (C29_stepsize_is_one _ _ Bp) as [Z1 _]. destruct (C32_counter_starts_at_zero (firstn i cs) p s0) as [Z3 Z4]; [exact Bp|].
  split; [exact Hc|]. split; [exact E|]. split; [exact Z4|]. split; [exact Z1|]. split; [exact Z3|].
  split; [exact (f_end_criterion _ _ (C28_effective _ _ Bp))|]. split; [exact (proj1 (proj2 (C36_start _ _ Bp) s0 Hi))|].
  intros O. destruct (Fin O) as [q Q]. rewrite Q in S. destruct S as [-> S]. exact S.
Qed.
Lemma ended_tail : forall (q : Phase N) l, chain q l -> ph_ended q = true -> l = [].
Proof. intros q l H E. inversion H; subst; [reflexivity|congruence]. Qed.
Lemma final_cons : forall (q q' : Phase N) l, final q (q' :: l) = final q' l.
Proof.
  intros q q' l. unfold final. revert q'. induction l as [|x l IH]; intros q'; [reflexivity|].
  change (last (q' :: x :: l) q) with (last (x :: l) q). change (last (x :: l) q') with (match l with [] => x | _ => last l q' end).
  destruct l as [|y l]; [reflexivity|]. change (last (x :: y :: l) q) with (last (y :: l) q).
  assert (X : forall d1 d2 (z : Phase N) m, last (z :: m) d1 = last (z :: m) d2).
  { intros d1 d2 z m. revert z. induction m as [|w m IHm]; intros z; [reflexivity|]. exact (IHm w). }
  apply X.
Qed.
End WithNum.

(** ** Exact arithmetic *)
Section Exact.
Context {rot : mat3 xr -> mat3 xr}.
Notation N := (XR rot).
(** The clock readings [j], [j + 1], ... ([n] of them). *)
Definition seconds (j n : nat) : list xr := map (fun k => Fin (INR k)) (seq j n).
Definition clock (s : State N) : xr := st_time_since_event s.

Lemma step_candidate : forall q q' : Phase N, ph_ended q = false -> step q = Ret q' -> exists s, candidate q = Ret s.
Proof.
  intros q q' En S. destruct (candidate q) as [s|e] eqn:C; [now exists s|]. rewrite (step_panic_candidate q e En C) in S. discriminate.
Qed.
(** One iteration at the time [y], not after the target. *)
Lemma one_iteration : forall (q q' : Phase N) T y, ph_ended q = false -> ph_stepsize q = Fin 1 -> ph_end_criterion_tries q = 0%nat ->
  ph_end_criterion q = (TimeSinceEvent, Fin T) -> clock (ph_state q) = Fin y -> y <= T -> step q = Ret q' ->
  (Rabs (y + 1 - T) < 1 / 1000 /\ ph_ended q' = true /\ clock (ph_state q') = Fin (y + 1)) \/
  (T < y + 1 /\ 1 / 1000 <= y + 1 - T /\ ph_ended q' = false /\ ph_stepsize q' = Fin (T - y) /\ ph_end_criterion q' = ph_end_criterion q /\ ph_state q' = ph_state q) \/
  (y + 1 <= T - 1 / 1000 /\ ph_ended q' = false /\ ph_stepsize q' = Fin 1 /\ ph_end_criterion_tries q' = 0%nat /\ ph_end_criterion q' = ph_end_criterion q /\
     clock (ph_state q') = Fin (y + 1)).
Proof.
  intros q q' T y En Eh Et Ec Ey Hy S. destruct (step_candidate q q' En S) as [s C].
  assert (V := candidate_clock q s TimeSinceEvent y 1 ltac:(tauto) C Ey Eh). rewrite (step_at q s TimeSinceEvent T (y + 1) En C Ec V) in S. cbn [get_value] in V.
  destruct (Rltb (Rabs (y + 1 - T)) (1 / 1000)) eqn:M.
  - left. injection S as <-. apply Rltb_iff in M. split; [exact M|]. split; [reflexivity|exact V].
  - right. apply Rltb_iff_false in M.
    assert (EA : event_is_active q (ph_state q) s = Rltb T (y + 1)).
    { unfold event_is_active. rewrite Ec. cbn [fst snd get_value]. unfold clock in Ey. rewrite V, Ey. xrs. rewrite (Rltb_false (y + 1) y) by lra. reflexivity. }
    rewrite EA in S. destruct (Rltb T (y + 1)) eqn:B; [apply Rltb_iff in B|apply Rltb_iff_false in B].
    + left. rewrite Et in S. cbn [Nat.ltb Nat.leb] in S. injection S as <-.
      assert (EG : time_to_go q (ph_state q) s = Fin (T - y)).
      { unfold time_to_go. rewrite Ec, Eh. cbn [fst snd get_value]. unfold clock in Ey. rewrite V, Ey. xrs. rewrite xdiv_fin by lra. f_equal. field. lra. }
      rewrite Rabs_pos_eq in M by lra. split; [exact B|]. split; [exact M|]. split; [exact En|]. split; [exact EG|]. split; reflexivity.
    + right. injection S as <-. rewrite Rabs_left1 in M by lra. repeat split; try assumption. lra.
Qed.
Lemma last_iteration : forall (q q' : Phase N) T y, ph_ended q = false -> ph_stepsize q = Fin (T - y) ->
  ph_end_criterion q = (TimeSinceEvent, Fin T) -> clock (ph_state q) = Fin y -> step q = Ret q' -> ph_ended q' = true /\ clock (ph_state q') = Fin T.
Proof.
  intros q q' T y En Eh Ec Ey S. destruct (step_candidate q q' En S) as [s C].
  assert (V := candidate_clock q s TimeSinceEvent y (T - y) ltac:(tauto) C Ey Eh). rewrite (step_at q s TimeSinceEvent T _ En C Ec V) in S. cbn [get_value] in V.
  replace (y + (T - y) - T) with 0 in S by ring. rewrite Rabs_R0, Rltb_true in S by lra. injection S as <-. split; [reflexivity|].
  change (st_time_since_event s = Fin T). rewrite V. f_equal. ring.
Qed.

Lemma chain_clock : forall T ps (q : Phase N) j, chain q ps -> ph_ended q = false -> ph_stepsize q = Fin 1 -> ph_end_criterion_tries q = 0%nat ->
  ph_end_criterion q = (TimeSinceEvent, Fin T) -> clock (ph_state q) = Fin (INR j) -> INR j <= T ->
  forall k s, nth_error (map (@ph_state N) ps) k = Some s -> INR (j + k) + 1 <= T -> clock s = Fin (INR (j + k) + 1).
Proof.
  intros T. induction ps as [|q' l IH]; intros q j Hc En Eh Et Ec Ey Hy k s Hk Hs; [destruct k; discriminate|].
  inversion Hc as [|q0 q0' l0 _ St Cl]; subst.
  assert (Jk : INR j <= INR (j + k)) by (apply le_INR; lia).
  destruct (one_iteration q q' T (INR j) En Eh Et Ec Ey Hy St) as [(M & E1 & E2)|[(M & _)|(M & E1 & E2 & E3 & E4 & E5)]].
  - rewrite (ended_tail _ _ Cl E1) in Hk. destruct k as [|[|k]]; try discriminate. cbn in Hk. injection Hk as <-. rewrite Nat.add_0_r. exact E2.
  - lra.
  - destruct k as [|k].
    + cbn in Hk. injection Hk as <-. rewrite Nat.add_0_r. exact E5.
    + cbn [map nth_error] in Hk. rewrite <- S_INR in E5. replace (j + S k)%nat with (S j + k)%nat in * by lia.
      apply (IH q' (S j) Cl E1 E2 E3 ltac:(congruence) E5 ltac:(rewrite S_INR; lra) k s Hk Hs).
Qed.
Lemma chain_all : forall T m ps (q : Phase N) j, chain q ps -> ph_ended q = false -> ph_stepsize q = Fin 1 -> ph_end_criterion_tries q = 0%nat ->
  ph_end_criterion q = (TimeSinceEvent, Fin T) -> clock (ph_state q) = Fin (INR j) -> INR j <= T -> INR m <= T < INR m + 1 -> ph_ended (final q ps) = true ->
  let times := map clock (map (@ph_state N) ps) in
  ((j < m)%nat -> T - INR m < 1 / 1000 -> times = seconds (S j) (m - j)) /\
  (INR m + 1 - T < 1 / 1000 -> times = seconds (S j) (S m - j)) /\
  (j = m \/ 1 / 1000 <= T - INR m -> 1 / 1000 <= INR m + 1 - T -> times = seconds (S j) (m - j) ++ [Fin (INR m); Fin T]).
Proof.
  intros T m. induction ps as [|q' l IH]; intros q j Hc En Eh Et Ec Ey Hy Hm Hf; cbv zeta.
  { unfold final in Hf. cbn [last] in Hf. congruence. }
  inversion Hc as [|q0 q0' l0 _ St Cl]; subst. rewrite final_cons in Hf. cbn [map].
  assert (Jm : (j <= m)%nat). { assert (INR j < INR (S m)) by (rewrite S_INR; lra). apply INR_lt in H. lia. }
  destruct (one_iteration q q' T (INR j) En Eh Et Ec Ey Hy St) as [(M & E1 & E2)|[(M & M' & E1 & E2 & E3 & E4)|(M & E1 & E2 & E3 & E4 & E5)]].
  - rewrite (ended_tail _ _ Cl E1). cbn [map]. rewrite E2, <- S_INR. apply Rabs_def2 in M.
    destruct (Nat.eq_dec j m) as [->|Hne].
    + split; [lia|]. split; [intros _; replace (S m - m)%nat with 1%nat by lia; reflexivity|]. intros _ X. lra.
    + assert (Jm1 : (S j <= m)%nat) by lia. apply le_INR in Jm1. rewrite S_INR in Jm1.
      assert (m = S j). { assert (INR m < INR (S (S j))) by (rewrite !S_INR; lra). apply INR_lt in H. lia. } subst m. rewrite S_INR in *.
      split; [intros _ _; replace (S j - j)%nat with 1%nat by lia; unfold seconds; cbn [seq map]; now rewrite S_INR|]. split; [intros X; lra|].
      intros [X|X]; [lia|lra].
  - assert (j = m). { assert (INR m < INR (S j)) by (rewrite S_INR; lra). apply INR_lt in H. lia. } subst j.
    split; [lia|]. split; [intros X; lra|]. intros _ _. rewrite Nat.sub_diag. cbn [seconds seq map app].
    inversion Cl as [|q1 q2 l2 _ St2 Cl2]; subst; [unfold final in Hf; cbn [last] in Hf; congruence|].
    destruct (last_iteration q' q2 T (INR m) E1 E2) as [F1 F2]; [congruence|unfold clock in *; congruence|exact St2|].
    rewrite (ended_tail _ _ Cl2 F1). cbn [map]. rewrite F2. unfold clock in *. rewrite E4, Ey. reflexivity.
  - assert (Jm1 : (S j <= m)%nat). { assert (INR j < INR m) by lra. apply INR_lt in H. lia. }
    rewrite <- S_INR in E5. destruct (IH q' (S j) Cl E1 E2 E3 ltac:(congruence) E5 ltac:(rewrite S_INR; lra) Hm Hf) as (A & B & C). cbv zeta in A, B, C.
    rewrite E5. split; [|split].
    + intros _ X. destruct (Nat.eq_dec (S j) m) as [<-|Hne]; [rewrite S_INR in X; lra|]. rewrite A; [|lia|exact X]. replace (m - j)%nat with (S (m - S j)) by lia. reflexivity.
    + intros X. rewrite B by exact X. replace (S m - j)%nat with (S (S m - S j)) by lia. reflexivity.
    + intros X Y. assert (X' : S j = m \/ 1 / 1000 <= T - INR m) by (destruct X as [X|X]; [lia|now right]). rewrite C by assumption.
      replace (m - j)%nat with (S (m - S j)) by lia. reflexivity.
Qed.

(** Every record up to [T] seconds is one second after the one before. *)
Theorem C68_seconds : forall fuel (cs : list (PhaseConfig N)) ev st a i h b T, simulate fuel cs = (ev, st) -> block ev a i h b ->
  criterion_in_effect cs i = (TimeSinceEvent, Fin T) -> 0 <= T ->
  forall k s, nth_error h k = Some s -> INR k + 1 <= T -> st_time_since_event s = Fin (INR k + 1).
Proof.
  intros fuel cs ev st a i h b T H Bl Hc HT k s Hk Hs. destruct (lit_fin (rot := rot)) as [L0 [L1 _]].
  destruct (timed_chain _ _ _ _ _ _ _ _ H Bl) as [[-> _]|(p0 & ps & C & -> & E1 & E2 & E3 & E4 & E5 & _)]; [destruct k; discriminate|].
  assert (Q2 : ph_stepsize p0 = Fin 1) by (rewrite E2; exact L1). assert (Q4 : ph_end_criterion p0 = (TimeSinceEvent, Fin T)) by congruence.
  assert (Q5 : clock (ph_state p0) = Fin (INR 0)) by (unfold clock; rewrite E5; exact L0).
  exact (chain_clock T ps p0 0 C E1 Q2 E3 Q4 Q5 HT k s Hk Hs).
Qed.
(** All records of a phase that is over, [m] being the whole seconds of [T]: if [T] is within a millisecond of a whole second,
    one for each second; if not, the last whole second is reported twice, then [T]. *)
Theorem C68_records : forall fuel (cs : list (PhaseConfig N)) ev st a i h b T m, simulate fuel cs = (ev, st) -> block ev a i h b -> over b st ->
  criterion_in_effect cs i = (TimeSinceEvent, Fin T) -> INR m <= T < INR m + 1 ->
  ((0 < m)%nat -> T - INR m < 1 / 1000 -> map (@st_time_since_event N) h = seconds 1 m) /\
  (INR m + 1 - T < 1 / 1000 -> map (@st_time_since_event N) h = seconds 1 (S m)) /\
  (m = 0%nat \/ 1 / 1000 <= T - INR m -> 1 / 1000 <= INR m + 1 - T -> map (@st_time_since_event N) h = seconds 1 m ++ [Fin (INR m); Fin T]).
Proof.
  intros fuel cs ev st a i h b T m H Bl Ov Hc Hm. destruct (lit_fin (rot := rot)) as [L0 [L1 _]].
  destruct (timed_chain _ _ _ _ _ _ _ _ H Bl) as [[_ X]|(p0 & ps & C & -> & E1 & E2 & E3 & E4 & E5 & E6)]; [now destruct X|].
  assert (P := pos_INR m).
  assert (Q2 : ph_stepsize p0 = Fin 1) by (rewrite E2; exact L1). assert (Q4 : ph_end_criterion p0 = (TimeSinceEvent, Fin T)) by congruence.
  assert (Q5 : clock (ph_state p0) = Fin (INR 0)) by (unfold clock; rewrite E5; exact L0).
  destruct (chain_all T m ps p0 0 C E1 Q2 E3 Q4 Q5 ltac:(cbn [INR]; lra) Hm (E6 Ov)) as (A & B & D).
  rewrite !Nat.sub_0_r in *. split; [exact A|]. split; [exact B|]. intros [X|X]; apply D; auto.
Qed.
End Exact.

(** ** IEEE binary64, every mathematical library *)
Section IEEE.
Context {lm : libm}.
Notation N := (B64 lm).
Definition whole (k : nat) : b64 := b64_of_Z (Z.of_nat k).
Definition iclock (s : State N) : b64 := st_time_since_event s.
Lemma whole_0 : (n_lit 0 0 : N) = (whole 0 : N).
Proof. vm_compute. reflexivity. Qed.
Lemma whole_value : forall k, (Z.of_nat k <= 2 ^ 53)%Z -> is_finite (whole k) = true /\ B2R (whole k) = INR k.
Proof. intros k H. destruct (integer_value (Z.of_nat k) ltac:(lia)) as [F E]. split; [exact F|]. rewrite INR_IZR_INZ. exact E. Qed.
Lemma apart : forall z T : b64, is_finite z = true -> is_finite T = true -> 0 <= B2R z -> B2R z + 1 <= B2R T ->
  Bltb (Babs (Bminus mode_NE z T)) (b64_lit 1 (-3)) = false.
Proof.
  intros z T Fz FT Hz H.
  assert (G := Bminus_correct 53 1024 _ _ mode_NE z T Fz FT).
  assert (O : Rabs (rnd (B2R z - B2R T)) <= B2R T).
  { apply abs_round_le_generic; [apply fexp64_valid|apply valid_rnd_N|apply generic_format_B2R|]. apply Rabs_le. lra. }
  rewrite Rlt_bool_true in G.
  2: { eapply Rle_lt_trans; [exact O|]. rewrite <- (Rabs_pos_eq (B2R T)) by lra. apply abs_B2R_lt_emax. }
  destruct G as (E0 & F & _). assert (E : B2R (Bminus mode_NE z T) = rnd (B2R z - B2R T)) by exact E0. clear E0.
  destruct Verif.Prop_IEEE.tolerance_value as [Et Ft]. revert Et Ft. generalize (b64_lit 1 (-3)). intros tol Et Ft.
  rewrite Bltb_correct; [|now rewrite is_finite_Babs|exact Ft].
  apply Rlt_bool_false. rewrite B2R_Babs, E, Et.
  assert (L : bpow radix2 0 <= Rabs (rnd (B2R z - B2R T))).
  { apply abs_round_ge_generic; [apply fexp64_valid|apply valid_rnd_N| |].
    - apply generic_format_bpow. unfold SpecFloat.fexp, SpecFloat.emin. lia.
    - change (bpow radix2 0) with 1. rewrite Rabs_left1 by lra. lra. }
  change (bpow radix2 0) with 1 in L. lra.
Qed.
Lemma one_iteration_ieee : forall (q q' : Phase N) (T : b64) j, is_finite T = true -> ph_ended q = false -> ph_stepsize q = b64_lit 1 0 ->
  ph_end_criterion_tries q = 0%nat -> ph_end_criterion q = (TimeSinceEvent, T) -> iclock (ph_state q) = whole j ->
  INR (S j) <= B2R T -> (Z.of_nat (S j) <= 2 ^ 53)%Z -> step q = Ret q' ->
  iclock (ph_state q') = whole (S j) /\
  (ph_ended q' = true \/ ph_ended q' = false /\ ph_stepsize q' = b64_lit 1 0 /\ ph_end_criterion_tries q' = 0%nat /\ ph_end_criterion q' = ph_end_criterion q) /\
  (INR (S j) + 1 <= B2R T -> ph_ended q' = false) /\ (INR (S j) = B2R T -> ph_ended q' = true) /\
  (exists s, candidate q = Ret s /\ ph_state q' = s) /\
  ph_ended q' = Bltb (Babs (Bminus mode_NE (whole (S j)) T)) (b64_lit 1 (-3)).
Proof.
  intros q q' T j FT En Eh Et Ec Ey Hj B Hs.
  destruct (candidate q) as [s|e] eqn:C; [|rewrite (Prop_TimeIEEE.step_panic_candidate q e En C) in Hs; discriminate].
  assert (V := Prop_TimeIEEE.candidate_clock q s TimeSinceEvent ltac:(tauto) C). cbn [get_value] in V. unfold iclock in Ey.
  assert (Vn : (st_time_since_event s : b64) = whole (S j)).
  { rewrite V, Ey, Eh. unfold whole. rewrite Nat2Z.inj_succ. apply integer_next; lia. }
  destruct (whole_value (S j) B) as [Fz Rz]. destruct (whole_value j ltac:(lia)) as [Fy Ry].
  rewrite (Prop_TimeIEEE.step_at q s TimeSinceEvent T En C Ec) in Hs. cbn [get_value] in Hs. rewrite Vn in Hs.
  assert (M : INR (S j) + 1 <= B2R T -> Bltb (Babs (Bminus mode_NE (whole (S j)) T)) (b64_lit 1 (-3)) = false).
  { intros X. apply apart; [exact Fz|exact FT|rewrite Rz; apply pos_INR|rewrite Rz; exact X]. }
  assert (M' : INR (S j) = B2R T -> Bltb (Babs (Bminus mode_NE (whole (S j)) T)) (b64_lit 1 (-3)) = true).
  { intros X. apply Prop_TimeIEEE.within; [exact Fz|exact FT|]. rewrite Rz, X. replace (B2R T - B2R T) with 0 by ring. rewrite Rabs_R0. lra. }
  assert (EA : event_is_active q (ph_state q) s = false).
  { unfold event_is_active. rewrite Ec. cbn [fst snd get_value]. rewrite Ey. 
    change (n_ltb (n := N) (st_time_since_event s) (whole j)) with (Bltb (st_time_since_event s : b64) (whole j)).
    change (n_ltb (n := N) T (st_time_since_event s)) with (Bltb T (st_time_since_event s : b64)). rewrite Vn.
    rewrite (Bltb_correct 53 1024 (whole (S j)) (whole j) Fz Fy), Rlt_bool_false.
    - rewrite (Bltb_correct 53 1024 T (whole (S j)) FT Fz). apply Rlt_bool_false. lra.
    - rewrite Rz, Ry. apply le_INR. lia. }
  rewrite EA in Hs.
  destruct (Bltb (Babs (Bminus mode_NE (whole (S j)) T)) (b64_lit 1 (-3))) eqn:K; injection Hs as <-.
  - split; [exact Vn|]. split; [left; reflexivity|]. split; [intros X; now apply M in X|]. split; [reflexivity|]. split; [exists s; split; reflexivity|reflexivity].
  - split; [exact Vn|]. split; [right; split; [exact En|split; [exact Eh|split; [exact Et|reflexivity]]]|]. split; [intros _; exact En|]. split; [intros X; now apply M' in X|]. split; [exists s; split; reflexivity|exact En].
Qed.
Lemma chain_clock_ieee : forall T : b64, is_finite T = true -> forall ps (q : Phase N) j, chain q ps -> ph_ended q = false -> ph_stepsize q = b64_lit 1 0 ->
  ph_end_criterion_tries q = 0%nat -> ph_end_criterion q = (TimeSinceEvent, T) -> iclock (ph_state q) = whole j ->
  forall k s, nth_error (map (@ph_state N) ps) k = Some s -> INR (S (j + k)) <= B2R T -> (Z.of_nat (S (j + k)) <= 2 ^ 53)%Z -> iclock s = whole (S (j + k)).
Proof.
  intros T FT. induction ps as [|q' l IH]; intros q j Hc En Eh Et Ec Ey k s Hk Hs HZ; [destruct k; discriminate|].
  inversion Hc as [|q0 q0' l0 _ St Cl]; subst.
  assert (Jk : INR (S j) <= INR (S (j + k))) by (apply le_INR; lia).
  destruct (one_iteration_ieee q q' T j FT En Eh Et Ec Ey ltac:(lra) ltac:(lia) St) as (E5 & [E1|(E1 & E2 & E3 & E4)] & _).
  - rewrite (ended_tail _ _ Cl E1) in Hk. destruct k as [|[|k]]; try discriminate. cbn in Hk. injection Hk as <-. rewrite Nat.add_0_r. exact E5.
  - destruct k as [|k].
    + cbn in Hk. injection Hk as <-. rewrite Nat.add_0_r. exact E5.
    + cbn [map nth_error] in Hk. replace (j + S k)%nat with (S j + k)%nat in * by lia.
      apply (IH q' (S j) Cl E1 E2 E3 ltac:(congruence) E5 k s Hk Hs HZ).
Qed.
Lemma chain_count_ieee : forall (T : b64) m, is_finite T = true -> B2R T = INR m -> (Z.of_nat m <= 2 ^ 53)%Z ->
  forall ps (q : Phase N) j, chain q ps -> ph_ended q = false -> ph_stepsize q = b64_lit 1 0 ->
  ph_end_criterion_tries q = 0%nat -> ph_end_criterion q = (TimeSinceEvent, T) -> iclock (ph_state q) = whole j -> (j < m)%nat ->
  (length ps <= m - j)%nat /\ (ph_ended (final q ps) = true -> length ps = (m - j)%nat).
Proof.
  intros T m FT RT HZ. induction ps as [|q' l IH]; intros q j Hc En Eh Et Ec Ey Hj.
  { split; [cbn; lia|]. unfold final. cbn [last]. congruence. }
  inversion Hc as [|q0 q0' l0 _ St Cl]; subst. rewrite final_cons.
  assert (Jm : INR (S j) <= B2R T) by (rewrite RT; apply le_INR; lia).
  destruct (one_iteration_ieee q q' T j FT En Eh Et Ec Ey Jm ltac:(lia) St) as (E5 & E & X & Y & _).
  destruct (Nat.eq_dec (S j) m) as [<-|Hne].
  - rewrite (ended_tail _ _ Cl (Y (eq_sym RT))). cbn [length]. split; [lia|intros _; lia].
  - assert (En' : ph_ended q' = false). { apply X. rewrite RT, <- S_INR. apply le_INR. lia. }
    destruct E as [E|(E1 & E2 & E3 & E4)]; [congruence|].
    destruct (IH q' (S j) Cl E1 E2 E3 ltac:(congruence) E5 ltac:(lia)) as [A B]. cbn [length]. split; [lia|intros F; rewrite (B F); lia].
Qed.
(** Bit for bit: the [k]-th record up to [T] seconds (and up to 2^53) reports exactly [k] seconds. *)
Theorem C68_seconds_ieee : forall fuel (cs : list (PhaseConfig N)) ev st a i h b (T : b64), simulate fuel cs = (ev, st) -> block ev a i h b ->
  criterion_in_effect cs i = (TimeSinceEvent, T) -> is_finite T = true ->
  forall k s, nth_error h k = Some s -> INR (k + 1) <= B2R T -> (Z.of_nat (k + 1) <= 2 ^ 53)%Z -> st_time_since_event s = b64_of_Z (Z.of_nat (k + 1)).
Proof.
  intros fuel cs ev st a i h b T H Bl Hc FT k s Hk Hs HZ. replace (k + 1)%nat with (S (0 + k)) in * by lia.
  destruct (timed_chain _ _ _ _ _ _ _ _ H Bl) as [[-> _]|(p0 & ps & C & -> & E1 & E2 & E3 & E4 & E5 & _)]; [destruct k; discriminate|].
  rewrite Hc in E4. rewrite whole_0 in E5.
  exact (chain_clock_ieee T FT ps p0 0 C E1 E2 E3 E4 E5 k s Hk Hs HZ).
Qed.
(** A phase of [m] whole seconds has [m] records when it is over, never more: 1, 2, ..., [m] seconds. *)
Theorem C68_whole_ieee : forall fuel (cs : list (PhaseConfig N)) ev st a i h b (T : b64) m, simulate fuel cs = (ev, st) -> block ev a i h b ->
  criterion_in_effect cs i = (TimeSinceEvent, T) -> is_finite T = true -> B2R T = INR m -> (1 <= Z.of_nat m <= 2 ^ 53)%Z ->
  map (@st_time_since_event N) h = map (fun k => b64_of_Z (Z.of_nat k)) (seq 1 (length h)) /\ (length h <= m)%nat /\ (over b st -> length h = m).
Proof.
  intros fuel cs ev st a i h b T m H Bl Hc FT RT HZ.
  destruct (timed_chain _ _ _ _ _ _ _ _ H Bl) as [[-> X]|(p0 & ps & C & E & E1 & E2 & E3 & E4 & E5 & E6)].
  { split; [reflexivity|]. split; [cbn; lia|intros O; now destruct X]. }
  rewrite Hc in E4. rewrite whole_0 in E5.
  destruct (chain_count_ieee T m FT RT ltac:(lia) ps p0 0 C E1 E2 E3 E4 E5 ltac:(lia)) as [A B]. rewrite Nat.sub_0_r in A, B.
  assert (Len : length h = length ps) by (rewrite E; apply map_length).
  split; [|split; [lia|intros O; rewrite Len; auto]].
  apply same_entries. intros k. rewrite !map_entry.
  destruct (nth_error h k) as [s|] eqn:K; cbn [option_map].
  - assert (Kl : (k < length h)%nat) by (apply nth_error_Some; congruence).
    assert (S1 : nth_error (seq 1 (length h)) k = Some (k + 1)%nat).
    { rewrite (nth_error_nth' _ 0%nat) by (rewrite seq_length; exact Kl). f_equal. rewrite seq_nth by exact Kl. lia. }
    rewrite S1. cbn [option_map]. f_equal.
    apply (C68_seconds_ieee fuel cs ev st a i h b T H Bl Hc FT k s K); [rewrite RT; apply le_INR; lia|lia].
  - apply nth_error_None in K. assert (S1 : nth_error (seq 1 (length h)) k = None) by (apply nth_error_None; rewrite seq_length; exact K). now rewrite S1.
Qed.
End IEEE.

(** ** Non-vacuity: the second phase of a coasting mission lasts 2.5 seconds *)
Section Example.
Context {rot : mat3 xr -> mat3 xr}.
Notation N := (XR rot).
Example C68_exact_nonvacuous : exists ev q a h b, simulate 5 [coast_1; coast_2] = (ev, Finished q) /\ block (N := N) ev a 2 h b /\
  criterion_in_effect (N := N) [coast_1; coast_2] 2 = (TimeSinceEvent, Fin (5 / 2)) /\
  map (@st_time_since_event N) h = [Fin (INR 1); Fin (INR 2); Fin (INR 2); Fin (5 / 2)].
Proof.
  destruct (blocks_nonvacuous (rot := rot)) as (ev & q & a & s' & h & b & s & t0 & H & B & _ & _ & Hc).
  exists ev, q, (a ++ [ERecord s']), h, b. split; [exact H|]. split; [exact B|]. split; [exact Hc|].
  assert (O : over b (Finished q)) by (right; eauto).
  assert (M : INR 2 <= 5 / 2 < INR 2 + 1) by (cbn [INR]; lra).
  destruct (C68_records (rot := rot) 5 [coast_1; coast_2] ev (Finished q) _ 2 h b (5 / 2) 2 H B O Hc M) as (_ & _ & X).
  rewrite X; [reflexivity|right; cbn [INR]; lra|cbn [INR]; lra].
Qed.
End Example.
