(** * C64: missions that meet the hypotheses *)
From Coq Require Import ZArith List Reals Lra Lia Bool.
From Verif Require Import Num Constants State Tables Config Planet Atmosphere Transformations
  Steering Vehicle RungeKutta Phase Simulation XR XRFacts SpecReal SystemFacts RKFacts RunFacts PhaseNew
  Prop_Run SystemTotal TablesFacts Prop_Tables Prop_Panics Prop_Time Prop_Planet Prop_Gravity Prop_Frames Prop_Atmosphere Prop_Interp Prop_Aero
  Prop_Throttle Prop_Steering Prop_Limit Prop_Real Prop_RealSim Prop_TimeForward Prop_Coast DemoExact Prop_Longitude Prop_LongitudeDemo Prop_Mirror.
Import ListNotations.
Local Open Scope R_scope.

Section Exact.
Context {rot : mat3 xr -> mat3 xr}.
Notation N := (XR rot).

Lemma drift_even : no_hemisphere (drift_config (rot := rot)).
Proof. constructor; cbn [drift_config pc_init pc_vehicle pc_steering pc_planet_model pc_atmosphere pc_end_criterion opt]; try exact I.
  - split; [|split]; exact I.
  - reflexivity.
Qed.
(** The mission of C56, launched at 28 N, and its mirror image, launched at 28 S. *)
Example C64_nonvacuous : rot_contract rot ->
  exists ev q t ev' q', simulate 5 [drift_config (rot := rot)] = (ev, Finished q) /\ st_time (ph_state q) = Fin t /\ Rabs (t - 5 / 2) <= 1 / 1000 /\
    option_map (@ic_latitude N) (pc_init (mirror_config (drift_config (rot := rot)))) = Some (Fin (- 28)) /\
    simulate 5 [mirror_config (drift_config (rot := rot))] = (ev', Finished q') /\
    Forall2 mirrored_event ev ev' /\ mirrored (ph_state q) (ph_state q').
Proof.
  intros Hrot. destruct (ex_longitude Hrot) as (ev & q & t & _ & _ & H & Et & Bt & _).
  destruct (C64_mirror Hrot 5 [drift_config] ev (Finished q)) as (ev' & st' & H' & A & B); try assumption.
  - constructor; [apply drift_real|constructor].
  - constructor; [apply drift_even|constructor].
  - intros cs1 cs2 p E Bg. destruct cs1 as [|c1 cs1]; [inversion Bg; destruct cs; discriminate|].
    injection E as <- E. destruct cs1; [|discriminate]. now apply drift_begins_regular.
  - destruct st' as [q'|e|q']; try contradiction.
    exists ev, q, t, ev', q'. split; [exact H|]. split; [exact Et|]. split; [exact Bt|]. split; [reflexivity|].
    split; [exact H'|]. split; assumption.
Qed.

(** A powered vehicle with a canted engine and a side force, that rolls and yaws in an oblique wind, on a
    pear-shaped planet. *)
Definition banked_config : PhaseConfig N :=
  mkPhaseConfig (N := N) (Some (mkInitConfig (N := N) (Fin 28) (Fin 10) (Fin 60) (Fin 0)))
    (Some (mkVehicleConfig (N := N) (Some (Fin 100)) (Some (Fin 50)) (Some (Fin 2)) (Some (rt1 MachNumber [0] [1 / 2]))
             (Some (rt1 Alpha [0] [1])) (Some (rt1 Altitude [0] [1 / 4]))
             (Some [mkEngine (N := N) (Fin (1 / 10), Fin (1 / 5)) (Fin 2000) (Fin 300) (Fin (1 / 100))])))
    (Some (mkSteeringConfig (N := N) (Some (TimeSinceEvent, finv (V3 5 0 0))) (Some (Altitude, finv (V3 (1 / 10) 0 0)))
             (Some (TimeSinceEvent, finv (V3 1 0 0)))))
    (Some (Custom (N := N) (Fin 6378000) (Fin 6357000) (Fin (4 * 10 ^ 14), Fin (1 / 1000), Fin (- (1 / 400000)), Fin (- (1 / 600000))) (Fin (7 / 100000))))
    (Some (mkAtmosphereConfig (N := N) (Some true) (Some (finv (V3 10 20 30)))))
    (Some (Fin 30)) None (Some (Altitude, Fin 100)).
Lemma banked_real : real_config banked_config.
Proof.
  constructor.
  - exists 28, 10, 60, 0. split; [reflexivity|lra].
  - constructor; cbn [banked_config vc_structure_mass vc_propellant_mass vc_reference_area vc_drag_coeff vc_lift_coeff vc_side_force_coeff vc_engines opt];
      try (eexists; reflexivity); try (apply real_1d, constant_accepted).
    exists [{| pitch := 1 / 10; yaw := 1 / 5; thrust_vac := 2000; isp := 300; exit_area := 1 / 100 |}]. split; [reflexivity|]. constructor; [cbn; lra|constructor].
  - split; [eexists; reflexivity|]. split; [eexists; reflexivity|]. eexists; reflexivity.
  - constructor; lra.
  - eexists; reflexivity.
  - eexists; reflexivity.
Qed.
Lemma banked_even : no_hemisphere banked_config.
Proof. constructor; cbn [banked_config pc_vehicle pc_steering pc_end_criterion opt vc_drag_coeff vc_lift_coeff vc_side_force_coeff sc_roll sc_yaw sc_pitch fst].
  - split; [|split]; (constructor; [reflexivity|constructor]).
  - split; [|split]; reflexivity.
  - reflexivity.
Qed.
Example C64_evaluation_nonvacuous : rot_contract rot -> exists p p' : Phase N,
  begins [banked_config] p /\ begins [mirror_config banked_config] p' /\
  mirror_twins p p' /\ even_phase p /\ real_phase p /\ real_input (ph_state p) /\ ~ singular p (ph_state p) /\
  mirrored (ph_state p) (ph_state p').
Proof.
  intros Hrot. set (i := mkInitConfig (N := N) (Fin 28) (Fin 10) (Fin 60) (Fin 0)).
  exists (reset (phase_init (configured default_phase banked_config) i)),
    (reset (phase_init (configured default_phase (mirror_config banked_config)) (mirror_site i))).
  assert (B : begins [banked_config] (reset (phase_init (configured default_phase banked_config) i))).
  { apply begins_first. rewrite phase_new_configured. reflexivity. }
  assert (S := first_sound banked_config i eq_refl banked_real).
  assert (W := mirror_twins_reset _ _ (first_mirror_twins banked_config i eq_refl banked_real)).
  split; [exact B|]. split; [apply begins_first; rewrite phase_new_configured; reflexivity|]. split; [exact W|].
  split. { apply even_reset. destruct (even_configured _ _ even_default banked_even). constructor; assumption. }
  split. { apply sound_real_phase; [exact S|]. intros _. reflexivity. }
  split; [apply S|]. split; [|apply W].
  rewrite (C52_start banked_config _ B banked_real). rewrite reset_state.
  intros X. 
  change (Fin (100 + 50) = Fin 0) in X. injection X. lra.
Qed.
End Exact.
