(** * C61: only the settings in effect matter

    Whether a phase inherits a setting or repeats it, whether a default is written down or left out, changes no bit of the
    result: the simulation depends on the configuration only through the settings in effect in each phase and
    the masses given at events. *)
From Coq Require Import ZArith Reals Lra List Bool Lia.
From Verif Require Import Num Constants State Tables Config Planet Atmosphere Transformations
  Steering Vehicle RungeKutta Phase Simulation SystemFacts RunFacts PhaseNew XR XRFacts SpecReal Prop_Run Prop_Mission Prop_Coast.
Import ListNotations.

(** ** Specification *)
Section WithNum.
Context {N : Num}.
Local Open Scope num_scope.
(** The masses given by a phase (they re-weigh the vehicle, so giving a mass is not the same as leaving it out). *)
Definition masses_given (c : PhaseConfig N) : option N * option N :=
  (within (@pc_vehicle N) (@vc_structure_mass N) c, within (@pc_vehicle N) (@vc_propellant_mass N) c).
(** Two missions with the same settings in effect in phase 1, phase 2, ... (a limit of -1 is no limit). *)
Record same_settings (cs cs' : list (PhaseConfig N)) : Prop := {
  ss_masses : map masses_given cs' = map masses_given cs;
  ss_init : option_map (@pc_init N) (hd_error cs') = option_map (@pc_init N) (hd_error cs);
  ss_planet : forall i, planet_in_effect cs' i = planet_in_effect cs i;
  ss_atmosphere : forall i, atmosphere_in_effect cs' i = atmosphere_in_effect cs i;
  ss_wind : forall i, wind_in_effect cs' i = wind_in_effect cs i;
  ss_engines : forall i, engines_in_effect cs' i = engines_in_effect cs i;
  ss_reference_area : forall i, in_effect (within (@pc_vehicle N) (@vc_reference_area N)) cs' i #0 = in_effect (within (@pc_vehicle N) (@vc_reference_area N)) cs i #0;
  ss_drag : forall i, in_effect (within (@pc_vehicle N) (@vc_drag_coeff N)) cs' i default_table = in_effect (within (@pc_vehicle N) (@vc_drag_coeff N)) cs i default_table;
  ss_lift : forall i, in_effect (within (@pc_vehicle N) (@vc_lift_coeff N)) cs' i default_table = in_effect (within (@pc_vehicle N) (@vc_lift_coeff N)) cs i default_table;
  ss_side : forall i, in_effect (within (@pc_vehicle N) (@vc_side_force_coeff N)) cs' i default_table = in_effect (within (@pc_vehicle N) (@vc_side_force_coeff N)) cs i default_table;
  ss_limit : forall i, in_effect (fun c => option_map (fun m => if m =? - #1 then n_inf else m) (pc_max_acceleration c)) cs' i n_inf
    = in_effect (fun c => option_map (fun m => if m =? - #1 then n_inf else m) (pc_max_acceleration c)) cs i n_inf;
  ss_roll : forall i, in_effect (within (@pc_steering N) (@sc_roll N)) cs' i (Time, V3 #0 #0 #0) = in_effect (within (@pc_steering N) (@sc_roll N)) cs i (Time, V3 #0 #0 #0);
  ss_yaw : forall i, in_effect (within (@pc_steering N) (@sc_yaw N)) cs' i (Time, V3 #0 #0 #0) = in_effect (within (@pc_steering N) (@sc_yaw N)) cs i (Time, V3 #0 #0 #0);
  ss_pitch : forall i, in_effect (within (@pc_steering N) (@sc_pitch N)) cs' i (Time, V3 #0 #0 #0) = in_effect (within (@pc_steering N) (@sc_pitch N)) cs i (Time, V3 #0 #0 #0);
  ss_criterion : forall i, in_effect (@pc_end_criterion N) cs' i (TimeSinceEvent, #0) = in_effect (@pc_end_criterion N) cs i (TimeSinceEvent, #0) }.

(** ** Proof *)
Lemma in_effect_prefix : forall A (f : PhaseConfig N -> option A) a c b d,
  in_effect f (a ++ c :: b) (S (length a)) d = last_configured f (a ++ [c]) d.
Proof.
  intros A f a c b d. unfold in_effect. change (a ++ c :: b) with (a ++ [c] ++ b). rewrite app_assoc.
  replace (S (length a)) with (length (a ++ [c])) by (rewrite app_length; cbn; lia). now rewrite firstn_app, Nat.sub_diag, firstn_O, app_nil_r, firstn_all.
Qed.
Lemma effective_same : forall a c b a' c' b' (p p' : Phase N), same_settings (a ++ c :: b) (a' ++ c' :: b') -> length a' = length a ->
  effective (a ++ [c]) p -> effective (a' ++ [c']) p' ->
  ph_planet p' = ph_planet p /\ ph_atmosphere p' = ph_atmosphere p /\ ve_reference_area (ph_vehicle p') = ve_reference_area (ph_vehicle p) /\
  ve_drag_coeff (ph_vehicle p') = ve_drag_coeff (ph_vehicle p) /\ ve_lift_coeff (ph_vehicle p') = ve_lift_coeff (ph_vehicle p) /\
  ve_side_force_coeff (ph_vehicle p') = ve_side_force_coeff (ph_vehicle p) /\ ve_engines (ph_vehicle p') = ve_engines (ph_vehicle p) /\
  ph_max_acceleration p' = ph_max_acceleration p /\
  (ax_var (sg_roll (ph_steering p')), ax_c (sg_roll (ph_steering p'))) = (ax_var (sg_roll (ph_steering p)), ax_c (sg_roll (ph_steering p))) /\
  (ax_var (sg_yaw (ph_steering p')), ax_c (sg_yaw (ph_steering p'))) = (ax_var (sg_yaw (ph_steering p)), ax_c (sg_yaw (ph_steering p))) /\
  (ax_var (sg_pitch (ph_steering p')), ax_c (sg_pitch (ph_steering p'))) = (ax_var (sg_pitch (ph_steering p)), ax_c (sg_pitch (ph_steering p))) /\
  ph_end_criterion p' = ph_end_criterion p.
Proof.
  intros a c b a' c' b' p p' [S1 S2 S3 S4 S5 S6 S7 S8 S9 S10 S11 S12 S13 S14 S15] L E E'.
  assert (P : forall A (f : PhaseConfig N -> option A) d, in_effect f (a' ++ c' :: b') (S (length a)) d = in_effect f (a ++ c :: b) (S (length a)) d ->
    last_configured f (a' ++ [c']) d = last_configured f (a ++ [c]) d).
  { intros A f d H. rewrite <- (in_effect_prefix A f a c b d), <- H, <- L. symmetry. apply in_effect_prefix. }
  destruct E as [E1 E2 E3 E4 E5 E6 E7 E8 E9 E10 E11 E12 E13 E14], E' as [F1 F2 F3 F4 F5 F6 F7 F8 F9 F10 F11 F12 F13 F14].
  split; [|split].
  - rewrite E1, F1. change EARTH_SPHERICAL with (planet_of (N := N) Spherical). rewrite !last_configured_map. f_equal. apply P, S3.
  - assert (A1 : at_model (ph_atmosphere p') = at_model (ph_atmosphere p)).
    { rewrite E2, F2.
      assert (W : forall cs : list (PhaseConfig N), last_configured (within (@pc_atmosphere N)
        (fun a => option_map (fun b : bool => if b then StandardAtmosphere1962 else NoAtmosphere) (ac_enabled a))) cs NoAtmosphere
        = (fun b : bool => if b then StandardAtmosphere1962 else NoAtmosphere) (last_configured (within (@pc_atmosphere N) (@ac_enabled N)) cs false)).
      { intros cs. rewrite <- (last_configured_map _ _ (fun b : bool => if b then StandardAtmosphere1962 else NoAtmosphere)).
        assert (G : forall f g : PhaseConfig N -> option AtmosphereModel, (forall c, f c = g c) -> forall l d, last_configured f l d = last_configured g l d).
        { intros f g Ef l. induction l as [|x l IH]; intros d; [reflexivity|]. unfold last_configured in *. cbn [fold_left]. rewrite (Ef x). apply IH. }
        apply G. intros x. unfold within. destruct (pc_atmosphere x); reflexivity. }
      rewrite !W, (P _ _ _ (S4 _)). reflexivity. }
    assert (A2 : at_wind (ph_atmosphere p') = at_wind (ph_atmosphere p)) by (rewrite E3, F3; apply P, S5).
    destruct (ph_atmosphere p), (ph_atmosphere p'). cbn in A1, A2. now subst.
  - rewrite E5, F5, E6, F6, E7, F7, E8, F8, E9, F9, E10, F10, E11, F11, E12, F12, E13, F13, E14, F14.
    repeat (split; [apply P; auto|]); [apply S6|]. apply P, S15.
Qed.

Lemma configured_masses : forall (q : Phase N) c c', masses_given c' = masses_given c ->
  ph_state (configured q c') = ph_state (configured q c) /\
  ve_structure_mass (ph_vehicle (configured q c')) = ve_structure_mass (ph_vehicle (configured q c)) /\
  ve_initial_propellant_mass (ph_vehicle (configured q c')) = ve_initial_propellant_mass (ph_vehicle (configured q c)).
Proof.
  intros q c c' H. unfold masses_given, within in H. injection H as H1 H2. unfold configured, mass_of. cbn [ph_state ph_vehicle].
  destruct (pc_vehicle c) as [v|], (pc_vehicle c') as [v'|]; cbn [vehicle_update_with_config ve_structure_mass ve_initial_propellant_mass];
    rewrite ?H1, ?H2; unfold over; repeat split; try reflexivity; try (rewrite <- ?H1, <- ?H2; reflexivity).
Qed.
Lemma reset_configured_same : forall a c b a' c' b' (q : Phase N), same_settings (a ++ c :: b) (a' ++ c' :: b') -> length a' = length a ->
  masses_given c' = masses_given c ->
  effective (a ++ [c]) (reset (configured q c)) -> effective (a' ++ [c']) (reset (configured q c')) ->
  reset (configured q c') = reset (configured q c).
Proof.
  intros a c b a' c' b' q S L M E E'.
  destruct (effective_same _ _ _ _ _ _ _ _ S L E E') as (G1 & G2 & G3 & G4 & G5 & G6 & G7 & G8 & G9 & G10 & G11 & G12).
  destruct (configured_masses q c c' M) as (M1 & M2 & M3). clear E E' S.
  unfold reset in *.
  remember (configured q c) as p eqn:Hp. remember (configured q c') as p' eqn:Hp'.
  assert (X1 : ph_launch p' = ph_launch p) by (subst; reflexivity). assert (X2 : ph_base_stepsize p' = ph_base_stepsize p) by (subst; reflexivity).
  clear Hp Hp'.
  destruct p as [s v sg am pl la ma ss bs ec tr en], p' as [s' v' sg' am' pl' la' ma' ss' bs' ec' tr' en'].
  destruct v as [v1 v2 v3 v4 v5 v6 v7], v' as [w1 w2 w3 w4 w5 w6 w7].
  destruct sg as [[r1 r2 r3] [y1 y2 y3] [p1 p2 p3]], sg' as [[r1' r2' r3'] [y1' y2' y3'] [p1' p2' p3']].
  cbn in *.
  injection G9 as G9 G9'. injection G10 as G10 G10'. injection G11 as G11 G11'. subst. reflexivity.
Qed.
Lemma sim_settings : forall fuel b b' a a' i prev (p : Phase N), same_settings (a ++ b) (a' ++ b') -> length a' = length a ->
  map masses_given b' = map masses_given b ->
  match prev with
  | None => a = [] /\ a' = []
  | Some q => exists p0 f0 h0, begins a p0 /\ begins a' p0 /\ run f0 p0 = (h0, Finished q)
  end ->
  sim_loop fuel i prev p b' = sim_loop fuel i prev p b.
Proof.
  intros fuel b. induction b as [|c b IH]; intros b' a a' i prev p S L M H; destruct b' as [|c' b']; try discriminate M; [reflexivity|].
  cbn [map] in M. injection M as M1 M1' M2. assert (Mc : masses_given c' = masses_given c) by (unfold masses_given; now rewrite M1, M1').
  assert (N1 : exists o o', phase_new prev c = o /\ phase_new prev c' = o' /\
    match o, o' with
    | Ret x, Ret x' => reset x' = reset x /\ begins (a ++ [c]) (reset x) /\ begins (a' ++ [c']) (reset x)
    | Panic e, Panic e' => e' = e
    | _, _ => False
    end).
  { exists (phase_new prev c), (phase_new prev c'). split; [reflexivity|]. split; [reflexivity|].
    destruct prev as [q|].
    - destruct H as (p0 & f0 & h0 & B & B' & R). 
      assert (Hn : phase_new (Some q) c = Ret (configured q c)) by (now rewrite phase_new_configured).
      assert (Hn' : phase_new (Some q) c' = Ret (configured q c')) by (now rewrite phase_new_configured).
      rewrite Hn, Hn'. assert (Y := begins_next _ _ _ _ _ _ _ B R Hn). assert (Y' := begins_next _ _ _ _ _ _ _ B' R Hn').
      assert (Q := reset_configured_same a c b a' c' b' q S L Mc (C28_effective _ _ Y) (C28_effective _ _ Y')).
      split; [exact Q|]. split; [exact Y|]. now rewrite <- Q.
    - destruct H as [-> ->]. assert (Hi := ss_init _ _ S). cbn [app hd_error option_map] in Hi. injection Hi as Hi.
      rewrite !phase_new_configured, Hi. destruct (pc_init c) as [k|] eqn:Ek; [|reflexivity].
      assert (Hn : phase_new None c = Ret (phase_init (configured default_phase c) k)) by (now rewrite phase_new_configured, Ek).
      assert (Hn' : phase_new None c' = Ret (phase_init (configured default_phase c') k)) by (now rewrite phase_new_configured, Hi).
      assert (Y := begins_first _ _ Hn). assert (Y' := begins_first _ _ Hn').
      assert (E := C28_effective _ _ Y). assert (E' := C28_effective _ _ Y').
      assert (Q : reset (configured default_phase c') = reset (configured default_phase c)).
      { apply (reset_configured_same [] c b [] c' b'); auto.
        - destruct E. constructor; assumption.
        - destruct E'. constructor; assumption. }
      assert (T : forall x : Phase N, reset (phase_init x k) = reset (phase_init (reset x) k)) by (intros x; reflexivity).
      assert (Q2 : reset (phase_init (configured default_phase c') k) = reset (phase_init (configured default_phase c) k)).
      { rewrite (T (configured default_phase c')), Q. symmetry. apply T. }
      split; [exact Q2|]. split; [exact Y|]. rewrite <- Q2. exact Y'. }
  destruct N1 as (o & o' & E1 & E2 & G). cbn [sim_loop]. rewrite E1, E2.
  destruct o as [x|e], o' as [x'|e']; try contradiction G; [|now subst].
  destruct G as (-> & B & B'). destruct (run fuel (reset x)) as [h st] eqn:R. destruct st as [q|e|q]; [|reflexivity|reflexivity].
  rewrite (IH b' (a ++ [c]) (a' ++ [c']) (Datatypes.S i) (Some q) q); [reflexivity| |now rewrite !app_length, L|exact M2|now exists (reset x), fuel, h].
  now rewrite <- !app_assoc.
Qed.
(** Missions with the same settings in effect have the same result, in every arithmetic. *)
Theorem C61_settings : forall fuel (cs cs' : list (PhaseConfig N)), same_settings cs cs' -> simulate fuel cs' = simulate fuel cs.
Proof.
  intros fuel cs cs' S. unfold simulate. apply (sim_settings fuel cs cs' [] []); auto. exact (ss_masses _ _ S).
Qed.
End WithNum.

(** ** Non-vacuity *)
Section Example.
Context {rot : mat3 xr -> mat3 xr}.
Notation N := (XR rot).
Local Open Scope R_scope.
(** The mission of [ex_coast] with its defaults written down in the first phase and everything repeated in the
    second, which also has an [init] section and a step size. *)
Definition spelled_1 : PhaseConfig N :=
  mkPhaseConfig (N := N) (Some (mkInitConfig (N := N) (Fin 28) (Fin 10) (Fin 90) (Fin 0)))
    (Some (mkVehicleConfig (N := N) (Some (Fin 1000)) None (Some (Fin 1)) None (Some default_table) None (Some [])))
    (Some (mkSteeringConfig (N := N) (Some (Time, V3 (n_lit 0 0) (n_lit 0 0) (n_lit 0 0))) None None)) (Some Spherical)
    (Some (mkAtmosphereConfig (N := N) (Some true) (Some (V3 (n_lit 0 0) (n_lit 0 0) (n_lit 0 0))))) (Some (Fin (-1))) (Some (Fin 7))
    (Some (TimeSinceEvent, Fin (5 / 2))).
Definition spelled_2 : PhaseConfig N :=
  mkPhaseConfig (N := N) (Some (mkInitConfig (N := N) (Fin 1) (Fin 2) (Fin 3) (Fin 4)))
    (Some (mkVehicleConfig (N := N) None None (Some (Fin 1)) (Some default_table) None (Some default_table) None))
    None (Some Spherical) (Some (mkAtmosphereConfig (N := N) (Some true) None)) None (Some (Fin (1 / 2)))
    (Some (TimeSinceEvent, Fin (5 / 2))).
Example C61_nonvacuous : same_settings [coast_1 (rot := rot); coast_2] [spelled_1; spelled_2] /\
  [spelled_1; spelled_2] <> [coast_1; coast_2] /\
  exists ev q, simulate 5 [spelled_1; spelled_2] = (ev, Finished q) /\ simulate 5 [coast_1; coast_2] = (ev, Finished q).
Proof.
  assert (S : same_settings [coast_1 (rot := rot); coast_2] [spelled_1; spelled_2]).
  { constructor; try (intros [|[|[|i]]]; reflexivity); try reflexivity.
    assert (U : @n_eqb N (Fin (-1)) (n_neg (n_lit 1 0)) = true) by (xrs; apply Reqb_true; lra).
    assert (U2 : @n_eqb N (Fin (- 1)) (n_neg (n_lit 1 0)) = true) by (xrs; apply Reqb_true; lra).
    intros [|[|[|i]]]; unfold in_effect, last_configured; cbn [firstn fold_left inherit spelled_1 spelled_2 coast_1 coast_2 pc_max_acceleration option_map];
      rewrite ?U, ?U2; reflexivity. }
  split; [exact S|]. split.
  - unfold spelled_1, spelled_2, coast_1, coast_2. discriminate.
  - destruct (ex_coast (rot := rot)) as (_ & _ & ev & q & _ & E & _). exists ev, q. split; [|exact E]. now rewrite (C61_settings 5 _ _ S).
Qed.
End Example.
