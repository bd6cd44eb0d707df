(** * C65, C67, C68: timed phases

    In a phase that lasts [T] seconds the times of the records are known (C68): C65 and C67 ask of the records only that they are
    numbers. *)
From Coq Require Import ZArith List Reals Lra Lia Bool.
From Coquelicot Require Import Coquelicot.
From Coq Require Import List.
From Flocq Require Import Core BinarySingleNaN.
From Verif Require Import Num Constants State Tables Config Planet Atmosphere Transformations Steering Vehicle RungeKutta Phase Simulation
  XR XRFacts SpecReal SystemFacts B64 B64Facts Prop_Run Prop_Simulation Prop_Gravity Prop_InterpIEEE Prop_IEEE Rounding
  Prop_Mission Prop_GravityIEEE Prop_AltitudeIEEE FieldBounds RK4Error StepIEEE CoastStep Demo Prop_CoastIEEE Prop_CoastDemo Motion Prop_Motion Prop_MotionDemo
  Prop_MotionNewton Kepler Prop_Kepler Prop_EventIEEE Prop_Seconds.
Import ListNotations.
Local Open Scope R_scope.

Section Timed.
Variable lm : libm.
Notation N := (B64 lm).
(** The times of the records, as real numbers. *)
Lemma timed_records : forall fuel (cs : list (PhaseConfig N)) ev st a i h b (T : b64) n, simulate fuel cs = (ev, st) -> block ev a i h b ->
  criterion_in_effect cs i = (TimeSinceEvent, T) -> is_finite T = true -> INR n + 1 <= B2R T -> (Z.of_nat n < 2 ^ 53)%Z ->
  forall k s, (k <= n)%nat -> nth_error h k = Some s -> B2R (st_time_since_event s) = INR k + 1.
Proof.
  intros fuel cs ev st a i h b T n H Bl Hc FT HT Hn k s Hk Hs.
  assert (Q : INR (k + 1) <= B2R T) by (rewrite plus_INR; cbn [INR]; apply le_INR in Hk; lra).
  rewrite (C68_seconds_ieee fuel cs ev st a i h b T H Bl Hc FT k s Hs Q ltac:(lia)).
  destruct (integer_value (Z.of_nat (k + 1)) ltac:(lia)) as [_ E]. rewrite E, <- INR_IZR_INZ, plus_INR. reflexivity.
Qed.
(** C65 for a timed phase. *)
Theorem C65_timed : forall fuel (cs : list (PhaseConfig N)) ev st a i h b (T : b64) n Re mu J2 J3 J4 R0 M W lam (g : vec3 R -> vec3 R) s1 K x v delta,
  simulate fuel cs = (ev, st) -> block ev a i h b -> engines_in_effect cs i = [] -> atmosphere_in_effect cs i = false ->
  criterion_in_effect cs i = (TimeSinceEvent, T) -> is_finite T = true -> INR n + 1 <= B2R T -> (Z.of_nat n < 2 ^ 53)%Z ->
  circumstances lm (planet_update_with_config (planet_in_effect cs i)) Re mu J2 J3 J4 R0 M W lam ->
  (forall x, x <> zeroR -> gradient (potential mu J2 J3 J4 Re) x (g x)) ->
  (forall k s, (k <= n)%nat -> nth_error h k = Some s -> finite_state lm s) ->
  nth_error h 0 = Some s1 -> motion g (INR n) K x v ->
  lam * normR (subR (realv (st_position s1)) (x 0)) + normR (subR (realv (st_velocity s1)) (v 0)) <= delta ->
  let e := drift M W (mu / R0 ^ 2) lam n + gap W (mu / R0 ^ 2) K lam delta n / lam in
  e <= R0 / 100 ->
  (forall t, 0 <= t <= INR n -> R0 + e <= normR (x t) <= M - e /\ normR (v t) <= W - lam * e) ->
  forall k s, (k <= n)%nat -> nth_error h k = Some s -> in_range lm R0 M W s /\
    normR (subR (realv (st_position s)) (x (INR k))) <= drift M W (mu / R0 ^ 2) lam k + gap W (mu / R0 ^ 2) K lam delta k / lam /\
    normR (subR (realv (st_velocity s)) (v (INR k))) <= lam * drift M W (mu / R0 ^ 2) lam k + gap W (mu / R0 ^ 2) K lam delta k.
Proof.
  intros fuel cs ev st a i h b T n Re mu J2 J3 J4 R0 M W lam g s1 K x v delta H Bl He Ha Hc FT HT Hn C Hg Fr.
  assert (Tr := timed_records fuel cs ev st a i h b T n H Bl Hc FT HT Hn).
  apply (C65_whole lm fuel cs ev st a i h b n Re mu J2 J3 J4 R0 M W lam g s1 K x v delta H Bl He Ha C Hg).
  intros k s Hk Hs. split; [exact (Tr k s Hk Hs)|exact (Fr k s Hk Hs)].
Qed.
(** C67 for a timed phase. *)
Theorem C67_timed : forall fuel (cs : list (PhaseConfig N)) ev st a i h b (T : b64) n Re mu R0 M W lam s1,
  simulate fuel cs = (ev, st) -> block ev a i h b -> engines_in_effect cs i = [] -> atmosphere_in_effect cs i = false ->
  criterion_in_effect cs i = (TimeSinceEvent, T) -> is_finite T = true -> INR n + 1 <= B2R T -> (Z.of_nat n < 2 ^ 53)%Z ->
  circumstances lm (planet_update_with_config (planet_in_effect cs i)) Re mu 0 0 0 R0 M W lam ->
  (forall k s, (k <= n)%nat -> nth_error h k = Some s -> finite_state lm s) ->
  let e := spread mu R0 M W lam n in e <= R0 / 100 ->
  nth_error h 0 = Some s1 -> elliptic mu (R0 + e) (M - e) (W - lam * e) (realv (st_position s1)) (realv (st_velocity s1)) ->
  exists x v, kepler_orbit mu (realv (st_position s1)) (realv (st_velocity s1)) x v /\
  forall k s, (k <= n)%nat -> nth_error h k = Some s -> in_range lm R0 M W s /\
    B2R (st_time_since_event s) = INR k + 1 /\
    normR (subR (realv (st_position s)) (x (INR k))) <= spread mu R0 M W lam k /\
    normR (subR (realv (st_velocity s)) (v (INR k))) <= lam * spread mu R0 M W lam k.
Proof.
  intros fuel cs ev st a i h b T n Re mu R0 M W lam s1 H Bl He Ha Hc FT HT Hn C Fr e Hs H1 El.
  assert (Tr := timed_records fuel cs ev st a i h b T n H Bl Hc FT HT Hn).
  assert (Hr : forall k s, (k <= n)%nat -> nth_error h k = Some s -> B2R (st_time_since_event s) = INR k + 1 /\ finite_state lm s).
  { intros k s Hk Hk'. split; [exact (Tr k s Hk Hk')|exact (Fr k s Hk Hk')]. }
  assert (X := C67_ellipse lm fuel cs ev st a i h b n Re mu R0 M W lam s1 H Bl He Ha C Hr Hs H1 El).
  destruct X as (x & v & Or & Near). exists x, v. split; [exact Or|]. intros k s Hk Hk'.
  destruct (Near k s Hk Hk') as (A & B & D). split; [exact A|]. split; [exact (Tr k s Hk Hk')|]. split; assumption.
Qed.
End Timed.

(** A mission that meets the hypotheses of the IEEE theorems of C68: the orbit of Prop_MotionDemo, four seconds. *)
Example C68_nonvacuous : exists q a b c d,
  simulate 10 [orbit] = ([EPhase 1%nat; ERecord a; ERecord b; ERecord c; ERecord d], Finished q) /\
  map (@st_time_since_event DN) [a; b; c; d] = [b64_of_Z 1; b64_of_Z 2; b64_of_Z 3; b64_of_Z 4] /\
  criterion_in_effect [orbit] 1 = (TimeSinceEvent, b64_lit 4 0) /\ is_finite (b64_lit 4 0) = true /\ B2R (b64_lit 4 0) = INR 4.
Proof.
  assert (CK := orbit_checked). unfold orbit_check in CK.
  destruct (simulate 10 [orbit]) as [ev st] eqn:S.
  destruct ev as [|[n|?] [|[?|a] [|[?|b] [|[?|c] [|[?|d] [|? ?]]]]]]; try discriminate CK; destruct n as [|[|n]]; try discriminate CK; destruct st as [q|?|?]; try discriminate CK.
  clear CK.
  assert (F4 : is_finite (b64_lit 4 0) = true) by (vm_compute; reflexivity).
  assert (E4 : B2R (b64_lit 4 0) = INR 4).
  { destruct (integer_value 4 ltac:(lia)) as [F X]. assert (Q : Beqb (b64_lit 4 0) (b64_of_Z 4) = true) by (vm_compute; reflexivity).
    rewrite Beqb_correct in Q by assumption. destruct (Req_bool_spec (B2R (b64_lit 4 0)) (B2R (b64_of_Z 4))) as [E|E]; [|discriminate Q].
    rewrite E, X. cbn [INR]. lra. }
  assert (B : block (N := DN) [EPhase 1%nat; ERecord a; ERecord b; ERecord c; ERecord d] [] 1 [a; b; c; d] []) by (split; [reflexivity|now left]).
  assert (Hc : criterion_in_effect (N := DN) [orbit] 1 = (TimeSinceEvent, b64_lit 4 0)) by reflexivity.
  destruct (C68_whole_ieee (lm := demo_lm) 10 [orbit] _ _ _ _ _ _ (b64_lit 4 0) 4 S B Hc F4 E4 ltac:(lia)) as (X & _ & _).
  assert (Y : forall f : nat -> b64, map f (seq 1 (length [a; b; c; d])) = [f 1%nat; f 2%nat; f 3%nat; f 4%nat]) by reflexivity. rewrite Y in X. clear Y.
  change (Z.of_nat 1) with 1%Z in X. change (Z.of_nat 2) with 2%Z in X. change (Z.of_nat 3) with 3%Z in X. change (Z.of_nat 4) with 4%Z in X.
  exists q, a, b, c, d. split; [reflexivity|]. split; [exact X|]. split; [exact Hc|]. split; [exact F4|exact E4].
Qed.
