(** * C68: a mission of two phases of four and three seconds, executed in binary64 *)
From Coq Require Import ZArith List Reals Lra Lia Bool.
From Flocq Require Import Core BinarySingleNaN.
From Coq Require Import List.
From Verif Require Import Num Constants State Tables Config Planet Atmosphere Transformations Steering Vehicle RungeKutta Phase Simulation
  XR XRFacts B64 B64Facts Prop_Run Prop_Simulation Demo Prop_EventIEEE Prop_Seconds Prop_MotionDemo Prop_MissionClock Prop_SecondsIEEE.
Import ListNotations.
Local Open Scope R_scope.

Definition three_more : PhaseConfig DN := mkPhaseConfig (N := DN) None None None None None None None (Some (TimeSinceEvent, b64_lit 3 0)).
Definition two_phases_check : bool := match simulate 10 [orbit; three_more] with (_, Finished _) => true | _ => false end.
Lemma two_phases_checked : two_phases_check = true.
Proof. vm_compute. reflexivity. Qed.
Lemma literal_value : forall n, (0 <= n <= 2 ^ 53)%Z -> is_finite (b64_lit n 0) = true -> Beqb (b64_lit n 0) (b64_of_Z n) = true -> B2R (b64_lit n 0) = IZR n.
Proof.
  intros n Hn F4 Q. destruct (integer_value n Hn) as [F X].
  rewrite Beqb_correct in Q by assumption. destruct (Req_bool_spec (B2R (b64_lit n 0)) (B2R (b64_of_Z n))) as [E|E]; [|discriminate Q]. now rewrite E, X.
Qed.
Definition four_three (i : nat) : nat := match i with 1%nat => 4 | _ => 3 end.
Lemma two_phases_last : lasts (lm := demo_lm) [orbit; three_more] four_three.
Proof.
  assert (F4 : is_finite (b64_lit 4 0) = true) by (vm_compute; reflexivity). assert (Q4 : Beqb (b64_lit 4 0) (b64_of_Z 4) = true) by (vm_compute; reflexivity).
  assert (F3 : is_finite (b64_lit 3 0) = true) by (vm_compute; reflexivity). assert (Q3 : Beqb (b64_lit 3 0) (b64_of_Z 3) = true) by (vm_compute; reflexivity).
  intros i Hi. cbn [length] in Hi. destruct i as [|[|[|i]]]; try lia.
  - exists (b64_lit 4 0). split; [reflexivity|]. split; [exact F4|]. cbn [four_three]. split; [|lia].
    rewrite (literal_value 4 ltac:(lia) F4 Q4). cbn [INR]. lra.
  - exists (b64_lit 3 0). split; [reflexivity|]. split; [exact F3|]. cbn [four_three]. split; [|lia].
    rewrite (literal_value 3 ltac:(lia) F3 Q3). cbn [INR]. lra.
Qed.
Example C68_mission_nonvacuous : exists ev q, simulate 10 [orbit; three_more] = (ev, Finished q) /\ records ev = 7%nat /\ st_time (ph_state q) = b64_of_Z 7.
Proof.
  assert (K := two_phases_checked). unfold two_phases_check in K. destruct (simulate 10 [orbit; three_more]) as [ev st] eqn:S.
  destruct st as [q|e|q]; try discriminate K. clear K. exists ev, q.
  destruct (C68_total_ieee (lm := demo_lm) 10 [orbit; three_more] ev q four_three S two_phases_last ltac:(discriminate)) as [A B].
  cbn [length seq map four_three list_sum fold_right Nat.add] in A, B. split; [reflexivity|]. split; [exact A|]. apply B. lia.
Qed.

(** A phase of 2.5 seconds: 1, 2, 2, 2.5 seconds, bit for bit. *)
Definition two_and_a_half : PhaseConfig DN :=
  mkPhaseConfig (N := DN) (Some (mkInitConfig (N := DN) (b64_lit 0 0) (b64_lit 0 0) (b64_lit 90 0) (b64_lit 0 0)))
    (Some (mkVehicleConfig (N := DN) (Some (b64_lit 1000 0)) None None None None None None))
    None (Some spin_planet) (Some (mkAtmosphereConfig (N := DN) (Some false) None)) None None (Some (TimeSinceEvent, b64_lit 25 (-1))).
Definition half_check : bool := match simulate 10 [two_and_a_half] with (EPhase 1%nat :: _, Finished _) => true | _ => false end.
Lemma half_checked : half_check = true.
Proof. vm_compute. reflexivity. Qed.
Lemma half_value : is_finite (b64_lit 25 (-1)) = true /\ B2R (b64_lit 25 (-1)) = 5 / 2.
Proof.
  assert (H : B2SF (b64_lit 25 (-1)) = SpecFloat.S754_finite false 5629499534213120 (-51)) by (vm_compute; reflexivity).
  destruct (b64_lit 25 (-1)) as [? |?| |sg m e Hb]; try discriminate. injection H as -> -> ->. split; [reflexivity|].
  unfold B2R, F2R. cbn [Fnum Fexp cond_Zopp]. change (bpow radix2 (-51)) with (/ 2251799813685248). lra.
Qed.
Example C68_half_nonvacuous : exists ev q h b, simulate 10 [two_and_a_half] = (ev, Finished q) /\ block (N := DN) ev [] 1 h b /\
  map (@st_time_since_event DN) h = [b64_of_Z 1; b64_of_Z 2; b64_of_Z 2; b64_lit 25 (-1)].
Proof.
  assert (K := half_checked). unfold half_check in K. destruct (simulate 10 [two_and_a_half]) as [ev st] eqn:S.
  destruct ev as [|[n|?] r]; try discriminate K. destruct n as [|[|n]]; try discriminate K. destruct st as [q|e|q]; try discriminate K. clear K.
  destruct (header_block (N := DN) (EPhase 1 :: r) [] 1 r eq_refl) as (h & b & B). exists (EPhase 1 :: r), q, h, b. split; [reflexivity|]. split; [exact B|].
  assert (Hc : criterion_in_effect (N := DN) [two_and_a_half] 1 = (TimeSinceEvent, b64_lit 25 (-1))) by reflexivity.
  destruct half_value as [F E]. destruct tolerance_is as [Et _].
  assert (O : over (N := DN) b (Finished q)) by (right; eauto).
  destruct (C68_records_ieee (lm := demo_lm) 10 [two_and_a_half] _ _ [] 1 h b (b64_lit 25 (-1)) 2 S B O Hc F ltac:(rewrite E; cbn [INR]; lra) ltac:(lia) ltac:(lia)) as (_ & _ & X).
  assert (X' := X ltac:(rewrite E, Et; cbn [INR]; lra) ltac:(rewrite E, Et; cbn [INR]; lra)). clear X. exact X'.
Qed.
