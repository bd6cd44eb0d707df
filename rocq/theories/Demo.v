(** * A concrete simulation, executed in binary64

    Two phases: a launch with tables, steering and an acceleration
    limit, and a second stage.  It serves to show that the hypotheses of the
    theorems about runs are met.  The mathematical library is a crude stand-in
    (the theorems hold for every library). *)
From Coq Require Import ZArith List Bool.
From Flocq Require Import Core BinarySingleNaN.
From Verif Require Import Num Constants State Tables Config Planet Atmosphere Transformations
  Steering Vehicle RungeKutta Phase Simulation B64 B64Facts SystemFacts RKFacts RunFacts PhaseNew
  Prop_Run Prop_IEEE.
Import ListNotations.

Definition demo_lm : libm := {|
  lm_sin := fun x => x; lm_cos := fun _ => b64_lit 1 0; lm_tan := fun x => x;
  lm_asin := fun x => x; lm_acos := fun _ => b64_lit 1 0; lm_atan := fun x => x;
  lm_exp := fun _ => b64_lit 1 0; lm_powf := fun _ _ => b64_lit 1 0; lm_rot := fun m => m |}.
Notation DN := (B64 demo_lm).

Definition demo_engine (t : Z) : Engine DN :=
  mkEngine (N := DN) (b64_lit 0 0, b64_lit 0 0) (b64_lit t 0) (b64_lit 300 0) (b64_lit 1 0).
Definition demo_table (k : Z) : Table DN :=
  D1 (mkT1 (N := DN) (MachNumber, [b64_lit 0 0; b64_lit 1 0; b64_lit 5 0])
        [b64_lit k (-1); b64_lit 5 (-1); b64_lit 3 (-1)] Linear).
Definition demo_phase_1 : PhaseConfig DN :=
  mkPhaseConfig (N := DN) (Some (mkInitConfig (N := DN) (b64_lit 28 0) (b64_lit 3 0) (b64_lit 90 0) (b64_lit 0 0)))
    (Some (mkVehicleConfig (N := DN) (Some (b64_lit 1000 0)) (Some (b64_lit 5000 0)) (Some (b64_lit 1 0))
             (Some (demo_table 2)) (Some (demo_table 0)) None (Some [demo_engine 250000; demo_engine 100])))
    (Some (mkSteeringConfig (N := DN) None None
             (Some (TimeSinceEvent, V3 (b64_lit (-1) 0) (b64_lit 0 0) (b64_lit 0 0)))))
    None (Some (mkAtmosphereConfig (N := DN) (Some false) None))
    (Some (b64_lit 30 0)) None (Some (TimeSinceEvent, b64_lit 15 (-1))).
Definition demo_phase_2 : PhaseConfig DN :=
  mkPhaseConfig (N := DN) None
    (Some (mkVehicleConfig (N := DN) (Some (b64_lit 500 0)) None None None None None (Some [demo_engine 20000])))
    None None (Some (mkAtmosphereConfig (N := DN) (Some false) None)) (Some (b64_lit (-1) 0)) None
    (Some (Time, b64_lit 2 0)).

Definition demo : list (event DN) * status (Phase DN) := simulate 10 [demo_phase_1; demo_phase_2].
(** Finished, with seven lines of output, one of them with a partial throttle. *)
Definition demo_check : bool :=
  match demo with
  | (ev, Finished q) =>
      Nat.eqb (length ev) 7
      && existsb (fun e : event DN => match e with
           | ERecord s => Bltb (st_throttle s : b64) (b64_lit 1 0) | EPhase _ => false end) ev
      && Beqb (st_time (ph_state q) : b64) (b64_lit 2 0)
  | _ => false
  end.
Lemma demo_checked : demo_check = true.
Proof. vm_compute. reflexivity. Qed.

(** Hypotheses of C21_reported, C45_*, C30_*: a simulation that finishes, prints two
    headers and five records, one with a throttle below 1. *)
Example ex_simulation : exists ev q s,
  simulate 10 [demo_phase_1; demo_phase_2] = (ev, Finished q) /\ length ev = 7%nat /\
  In (ERecord s) ev /\ Bltb (st_throttle s : b64) (b64_lit 1 0) = true.
Proof.
  assert (H := demo_checked). unfold demo_check, demo in H.
  destruct (simulate 10 [demo_phase_1; demo_phase_2]) as [ev [q|e|q]]; try discriminate.
  apply andb_prop in H. destruct H as [H _]. apply andb_prop in H. destruct H as [L E].
  apply existsb_exists in E. destruct E as [[i|s] [Hin Hs]]; [discriminate|].
  exists ev, q, s. apply Nat.eqb_eq in L. auto.
Qed.
(** Hypotheses of C13_reported, C14_reported, C37_reported, C28_effective. *)
Example ex_reported : exists (p : Phase DN) s, reported [demo_phase_1; demo_phase_2] p s /\
  Bltb (st_throttle s : b64) (b64_lit 1 0) = true.
Proof.
  destruct ex_simulation as (ev & q & s & H & _ & Hin & T).
  destruct (C45_reported _ _ _ _ _ H Hin) as [p Hp]. eauto.
Qed.
(** Hypotheses of C31_finished, C26_start, C32_*: a first phase that finishes and a
    second one made from it. *)
Example ex_two_phases : exists (p : Phase DN) h q p',
  begins [demo_phase_1] p /\ ph_ended p = false /\ run 10 p = (h, Finished q) /\
  phase_new (Some q) demo_phase_2 = Ret p' /\ begins [demo_phase_1; demo_phase_2] (reset p').
Proof.
  destruct ex_simulation as (ev & q & s & H & _).
  exact (two_phases _ _ _ _ _ H).
Qed.
(** Hypotheses of C07_at_rest_ieee: the launch velocity is finite. *)
Definition demo_velocity_check : bool :=
  match phase_new None demo_phase_1 with
  | Ret p => let v := st_velocity (ph_state (reset p)) in
      is_finite (vx v : b64) && is_finite (vy v : b64) && is_finite (vz v : b64)
      && Bltb (b64_lit 100 0) (vy v)
      && match system (reset p) (ph_state (reset p)) with Ret _ => true | _ => false end
  | Panic _ => false
  end.
Lemma demo_velocity_checked : demo_velocity_check = true.
Proof. vm_compute. reflexivity. Qed.
Example ex_at_rest : exists (p : Phase DN) s, begins [demo_phase_1] p /\ initial p s /\
  vfinite (st_velocity s) /\ Bltb (b64_lit 100 0) (vy (st_velocity s)) = true.
Proof.
  assert (H := demo_velocity_checked). unfold demo_velocity_check in H.
  generalize dependent demo_phase_1. intros c H.
  destruct (phase_new None c) as [p|e] eqn:Hn; [|discriminate].
  apply andb_prop in H. destruct H as [H S]. apply andb_prop in H. destruct H as [H V].
  apply andb_prop in H. destruct H as [H F3]. apply andb_prop in H. destruct H as [F1 F2].
  destruct (system (reset p) (ph_state (reset p))) as [s|] eqn:Hs; [|discriminate].
  exists (reset p), s. split; [apply begins_first; exact Hn|]. split; [exact Hs|].
  destruct (C37_initial _ _ Hs) as (_ & _ & _ & E & _). rewrite E. unfold vfinite. auto.
Qed.
(** Hypotheses of C25_mass_ieee. *)
Definition demo_engine_check : bool :=
  forallb (fun e : Engine DN => is_finite (en_thrust_vac e : b64) && negb (Bsign (en_thrust_vac e : b64))
            && is_finite_strict (en_isp_vac e : b64) && negb (Bsign (en_isp_vac e : b64)))
    [demo_engine 250000; demo_engine 100].
Example ex_proper_engines : Forall (proper_engine demo_lm) [demo_engine 250000; demo_engine 100].
Proof.
  assert (H : demo_engine_check = true) by (vm_compute; reflexivity).
  unfold demo_engine_check in H. apply Forall_forall. intros e He.
  rewrite forallb_forall in H. specialize (H e He).
  apply andb_prop in H. destruct H as [H S2]. apply andb_prop in H. destruct H as [H F2].
  apply andb_prop in H. destruct H as [F1 S1].
  unfold proper_engine. split; [exact F1|]. split; [|split].
  - apply nneg_B2R. apply sign_nneg. right. destruct (Bsign _); [discriminate|reflexivity].
  - destruct (en_isp_vac e : b64); try discriminate; reflexivity.
  - destruct (en_isp_vac e : b64) as [s|s| |s m x B]; try discriminate.
    cbn in S2. destruct s; [discriminate|]. cbn. apply F2R_gt_0. reflexivity.
Qed.
