(** * C57: the printed output, and concrete cases *)
From Coq Require Import ZArith Reals Lra Lia Bool.
From Flocq Require Import Core BinarySingleNaN.
From Coq Require Import List.
From Verif Require Import Num XR XRFacts B64 Constants State Tables Config Planet Atmosphere Transformations
  Steering Vehicle RungeKutta Phase Simulation Text SystemFacts RKFacts RunFacts PhaseNew
  Prop_Run SystemTotal Prop_Tables Prop_Panics Prop_Steering Prop_TimeForward Prop_Coast Prop_Split Prop_Event Prop_EventIEEE Demo.
Import ListNotations.

(** The text of the records, without the headers of the phases. *)
Definition printed {N0 : Num} (show : N0 -> text) (ev : list (event N0)) : text := flat_map (show_record show) (records ev).
(** The same flight is printed the same way: the time since the last event is not shown. *)
Theorem C57_printed : forall {N0 : Num} (show : N0 -> text) (a b : list (event N0) * status (Phase N0)), same_flight a b ->
  printed show (fst a) = printed show (fst b).
Proof.
  intros N0 show a b [H _]. unfold printed.
  assert (G : forall l : list (State N0), flat_map (show_record show) l = flat_map (show_record show) (map erased l)).
  { induction l as [|s l IH]; [reflexivity|]. cbn [flat_map map]. rewrite <- IH. reflexivity. }
  rewrite (G (records (fst a))), (G (records (fst b))), H. reflexivity.
Qed.

(** ** In exact arithmetic: a glide with drag, in which the vehicle pitches at a constant rate *)
Section Exact.
Context {rot : mat3 xr -> mat3 xr}.
Notation N := (XR rot).
Local Open Scope R_scope.
Definition turn_drag : Table N := D1 (mkT1 (N := N) (MachNumber, [Fin 0; Fin 1]) [Fin (1 / 5); Fin (1 / 2)] Linear).
Definition turn_1 : PhaseConfig N :=
  mkPhaseConfig (N := N) (Some (mkInitConfig (N := N) (Fin 28) (Fin 10) (Fin 90) (Fin 0)))
    (Some (mkVehicleConfig (N := N) (Some (Fin 1000)) None (Some (Fin 1)) (Some turn_drag) (Some turn_drag) None None))
    None None (Some (mkAtmosphereConfig (N := N) (Some true) None)) None None (Some (TimeSinceEvent, Fin (5 / 2))).
Definition turn_2 : PhaseConfig N :=
  mkPhaseConfig (N := N) None None
    (Some (mkSteeringConfig (N := N) None None (Some (TimeSinceEvent, V3 (Fin (- 1)) (Fin 0) (Fin 0)))))
    None None None None None.
Definition turn_3 : PhaseConfig N := lasting (Fin 2 : N) unchanged.
Lemma turn_drag_accepted : accepted turn_drag.
Proof.
  exists (MachNumber, [Fin 0 : N; Fin 1 : N]), [Fin (1 / 5) : N; Fin (1 / 2) : N], Linear.
  apply C17_table1_accepted. split; [|reflexivity]. split; [|reflexivity]. apply windows2_increasing.
  cbn. xrs. rewrite !Rltb_true by lra. reflexivity.
Qed.
Lemma turn_tables : Forall configured_tables_accepted [turn_1; turn_2].
Proof.
  constructor; [|constructor; [|constructor]]; intros v t E; [|discriminate]. injection E as <-. cbn.
  intros [X|[X|X]]; try discriminate X; injection X as <-; exact turn_drag_accepted.
Qed.
(** Hypotheses of C57_event; the flight arrives after eight and a half seconds. *)
Example ex_event :
  same_flight (simulate 6 [turn_1; lasting (Fin (INR 4) : N) turn_2; turn_3])
    (simulate 6 [turn_1; lasting (Fin (INR 1) : N) turn_2; lasting (Fin (INR 3) : N) unchanged; turn_3]) /\
  exists ev q t, simulate 6 [turn_1; lasting (Fin (INR 4) : N) turn_2; turn_3] = (ev, Finished q) /\
    st_time (ph_state q) = Fin t /\ Rabs (t - 17 / 2) <= 3 / 1000.
Proof.
  split.
  - assert (St : steady turn_drag) by (constructor; [split; [reflexivity|discriminate]|constructor]).
    apply (C57_event 1 3 6 [turn_1] turn_2 [turn_3]); try lia.
    + exact turn_tables.
    + exact St.
    + exact St.
    + constructor; [split; [reflexivity|discriminate]|constructor].
    + right. reflexivity.
    + right. reflexivity.
    + left. exists (- 1). reflexivity.
    + right. exists turn_3, []. split; [reflexivity|discriminate].
  - assert (C : Forall coasting [turn_1; lasting (Fin (INR 4) : N) turn_2; turn_3]).
    { assert (T := turn_tables). inversion T as [|? ? T1 _].
      constructor; [|constructor; [|constructor; [|constructor]]]; (split; [|split]).
      - exact T1.
      - intros v es E. injection E as <-. discriminate.
      - discriminate.
      - intros v t E. discriminate.
      - intros v es E. discriminate.
      - discriminate.
      - intros v t E. discriminate.
      - intros v es E. discriminate.
      - discriminate. }
    assert (D : Forall has_duration [turn_1; lasting (Fin (INR 4) : N) turn_2; turn_3]).
    { constructor; [|constructor; [|constructor; [|constructor]]]; intros v T E; injection E as <- <-; (split; [reflexivity|]);
        eexists; (split; [reflexivity|]); cbn [INR]; lra. }
    destruct (simulate 6 [turn_1; lasting (Fin (INR 4) : N) turn_2; turn_3]) as [ev st] eqn:H.
    destruct (C34_coast 6 turn_1 [lasting (Fin (INR 4) : N) turn_2; turn_3] ev st 4 C D) as (q & t & -> & Et & Bt); try exact H.
    + discriminate.
    + cbn [durations turn_1 turn_3 lasting pc_end_criterion]. repeat constructor; cbn [INR]; lra.
    + lia.
    + exists ev, q, t. split; [reflexivity|]. split; [exact Et|].
      revert Bt. cbn [durations turn_1 turn_3 lasting pc_end_criterion total fold_right length].
      replace (5 / 2 + (INR 4 + (2 + 0))) with (17 / 2) by (cbn [INR]; field). cbn [INR]. lra.
Qed.
End Exact.

(** ** In IEEE arithmetic: the powered launch of [Demo], without steering *)
Definition straight : PhaseConfig DN :=
  mkPhaseConfig (N := DN) (pc_init demo_phase_1) (pc_vehicle demo_phase_1) None None (pc_atmosphere demo_phase_1)
    (pc_max_acceleration demo_phase_1) None None.
Example ex_event_ieee : forall fuel, (3 <= fuel)%nat ->
  same_flight (simulate fuel [lasting (b64_of_Z 3 : DN) straight; demo_phase_2])
    (simulate fuel [lasting (b64_of_Z 1 : DN) straight; lasting (b64_of_Z 2 : DN) unchanged; demo_phase_2]).
Proof.
  assert (A : forall k, accepted (demo_table k)).
  { intros k. do 3 eexists. apply C17_table1_accepted. split; [|reflexivity]. split; [|reflexivity]. apply windows2_increasing. vm_compute. reflexivity. }
  assert (St : forall k, steady (demo_table k)) by (intros k; constructor; [split; [reflexivity|discriminate]|constructor]).
  intros fuel Hf. apply (C57_event_ieee demo_lm 1 2 fuel [] straight [demo_phase_2]); try lia.
  - constructor; [|constructor]. intros v t E. injection E as <-. cbn. intros [X|[X|X]]; try discriminate X; injection X as <-; apply A.
  - apply St.
  - apply St.
  - constructor; [split; [reflexivity|discriminate]|constructor].
  - constructor; [reflexivity|constructor].
  - right. exists demo_phase_2, []. split; [reflexivity|discriminate].
Qed.
(** This launch does fly: three seconds, three records. *)
Definition straight_check : bool :=
  match simulate 10 [lasting (b64_of_Z 3 : DN) straight] with
  | (ev, Finished q) => Nat.eqb (length (records ev)) 3 && Beqb (st_time (ph_state q) : b64) (b64_of_Z 3)
  | _ => false
  end.
Example ex_straight : straight_check = true.
Proof. vm_compute. reflexivity. Qed.
