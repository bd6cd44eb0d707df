(** * C66: missions that meet the hypotheses *)
From Coq Require Import ZArith List Reals Lra Lia Bool.
From Verif Require Import Num Constants State Tables Config Planet Atmosphere Transformations
  Steering Vehicle RungeKutta Phase Simulation XR XRFacts SpecReal SystemFacts RKFacts RunFacts PhaseNew
  Prop_Run SystemTotal TablesFacts Prop_Tables Prop_Panics Prop_Time Prop_Planet Prop_Gravity Prop_Frames Prop_Atmosphere Prop_Interp Prop_Aero
  Prop_Throttle Prop_Steering Prop_Limit Prop_Real Prop_RealSim Prop_TimeForward Prop_Coast DemoExact Prop_Longitude Prop_LongitudeDemo Prop_Mirror Prop_MirrorDemo Prop_EastWest.
Import ListNotations.
Local Open Scope R_scope.

Section Exact.
Context {rot : mat3 xr -> mat3 xr}.
Notation N := (XR rot).
Notation banked := (banked_config (rot := rot)).

Lemma drift_centred : no_side (drift_config (rot := rot)).
Proof. constructor; cbn [drift_config pc_init pc_vehicle pc_steering pc_planet_model pc_atmosphere pc_end_criterion opt]; try exact I.
  - split; [|split]; exact I.
  - reflexivity.
Qed.
(** The mission of C56, and its mirror image. *)
Example C66_nonvacuous : rot_contract rot ->
  exists ev q t ev' q', simulate 5 [drift_config (rot := rot)] = (ev, Finished q) /\ st_time (ph_state q) = Fin t /\ Rabs (t - 5 / 2) <= 1 / 1000 /\
    map (fun c => option_map (@ic_azimuth N) (pc_init c)) (reflect_mission [drift_config (rot := rot)]) = [Some (Fin (- 90))] /\
    simulate 5 (reflect_mission [drift_config (rot := rot)]) = (ev', Finished q') /\
    Forall2 reflected_event ev ev' /\ reflected (ph_state q) (ph_state q').
Proof.
  intros Hrot. destruct (ex_longitude Hrot) as (ev & q & t & _ & _ & H & Et & Bt & _).
  destruct (C66_mirror Hrot 5 [drift_config] ev (Finished q)) as (ev' & st' & H' & A & B); try assumption.
  - constructor; [apply drift_real|constructor].
  - constructor; [apply drift_centred|constructor].
  - intros cs1 cs2 p E Bg. destruct cs1 as [|c1 cs1]; [inversion Bg; destruct cs; discriminate|].
    injection E as <- E. destruct cs1; [|discriminate]. now apply drift_begins_regular.
  - destruct st' as [q'|e|q']; try contradiction.
    exists ev, q, t, ev', q'. split; [exact H|]. split; [exact Et|]. split; [exact Bt|]. split; [reflexivity|].
    split; [exact H'|]. split; assumption.
Qed.

(** The powered vehicle of C64: canted engine, side force, roll and yaw, oblique wind, pear-shaped planet. *)
Lemma banked_centred : no_side banked.
Proof. constructor; cbn [banked_config pc_vehicle pc_steering pc_end_criterion opt vc_drag_coeff vc_lift_coeff vc_side_force_coeff sc_roll sc_yaw sc_pitch fst].
  - split; [|split]; (constructor; [reflexivity|constructor]).
  - split; [|split]; reflexivity.
  - reflexivity.
Qed.
Example C66_evaluation_nonvacuous : rot_contract rot -> exists p p' : Phase N,
  begins [banked] p /\ begins (reflect_mission [banked]) p' /\
  reflect_twins p p' /\ centred_phase p /\ real_phase p /\ real_input (ph_state p) /\ ~ singular p (ph_state p) /\
  reflected (ph_state p) (ph_state p').
Proof.
  intros Hrot. set (i := mkInitConfig (N := N) (Fin 28) (Fin 10) (Fin 60) (Fin 0)).
  exists (reset (phase_init (configured default_phase banked) i)),
    (reset (phase_init (configured default_phase (reflect_config (planet_named banked))) (reflect_site i))).
  assert (B : begins [banked] (reset (phase_init (configured default_phase banked) i))).
  { apply begins_first. rewrite phase_new_configured. reflexivity. }
  assert (S := first_sound banked i eq_refl banked_real).
  assert (W := reflect_twins_reset _ _ (first_reflect_twins banked i eq_refl banked_real)).
  split; [exact B|]. split; [apply begins_first; rewrite phase_new_configured; reflexivity|]. split; [exact W|].
  split. { apply centred_reset. destruct (centred_configured _ _ centred_default banked_centred). constructor; assumption. }
  split. { apply sound_real_phase; [exact S|]. intros _. reflexivity. }
  split; [apply S|]. split; [|apply W].
  rewrite (C52_start banked _ B banked_real). rewrite reset_state.
  intros X. 
  change (Fin (100 + 50) = Fin 0) in X. injection X. lra.
Qed.
End Exact.
