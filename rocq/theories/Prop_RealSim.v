(** * C52 for whole simulations: from real configurations only real records, unless ... *)
From Coq Require Import ZArith List Reals Lra Lia Bool Classical_Prop.
From Verif Require Import Num Constants State Tables Config Planet Atmosphere Transformations
  Steering Vehicle RungeKutta Phase Simulation XR XRFacts SpecReal SystemFacts RKFacts RunFacts PhaseNew
  Prop_Run SystemTotal TablesFacts Prop_Tables Prop_Panics Prop_Time Prop_Planet Prop_Gravity Prop_Frames
  Prop_Atmosphere Prop_Interp Prop_Aero Prop_Throttle Prop_Steering Prop_Limit Prop_Json Prop_Real.
Import ListNotations.
Local Open Scope R_scope.

Section Exact.
Context {rot : mat3 xr -> mat3 xr}.
Notation N := (XR rot).

(** If configured at all. *)
Definition opt {A} (P : A -> Prop) (o : option A) : Prop := match o with Some a => P a | None => True end.

(** ** Real configurations: every number in the configuration is a real number (so no NaN, no
    infinity); radii are positive, specific impulses not zero, latitudes strictly between the poles. *)
Inductive real_planet_config : PlanetConfig N -> Prop :=
| rpc_spherical : real_planet_config Spherical
| rpc_fisher : real_planet_config Fisher1960
| rpc_smithsonian : real_planet_config Smithsonian
| rpc_custom : forall Re Rp mu J2 J3 J4 w, 0 < Re -> 0 < Rp ->
    real_planet_config (Custom (N := N) (Fin Re) (Fin Rp) (Fin mu, Fin J2, Fin J3, Fin J4) (Fin w)).
Definition real_init (i : InitConfig N) : Prop := exists lat long az alt,
  i = mkInitConfig (N := N) (Fin lat) (Fin long) (Fin az) (Fin alt) /\ -90 < lat < 90.
Record real_vehicle_config (v : VehicleConfig N) : Prop := {
  rv_structure : opt real (vc_structure_mass v);
  rv_propellant : opt real (vc_propellant_mass v);
  rv_area : opt real (vc_reference_area v);
  rv_drag : opt real_table (vc_drag_coeff v);
  rv_lift : opt real_table (vc_lift_coeff v);
  rv_side : opt real_table (vc_side_force_coeff v);
  rv_engines : opt (fun es => exists l, es = map finE l /\ Forall (fun e => isp e <> 0) l) (vc_engines v) }.
Record real_config (c : PhaseConfig N) : Prop := {
  rc_init : opt real_init (pc_init c);
  rc_vehicle : opt real_vehicle_config (pc_vehicle c);
  rc_steering : opt (fun s : SteeringConfig N => opt (fun a => realv (snd a)) (sc_roll s) /\ opt (fun a => realv (snd a)) (sc_yaw s)
                              /\ opt (fun a => realv (snd a)) (sc_pitch s)) (pc_steering c);
  rc_planet : opt real_planet_config (pc_planet_model c);
  rc_atmosphere : opt (fun a : AtmosphereConfig N => opt realv (ac_wind a)) (pc_atmosphere c);
  rc_criterion : opt (fun e : StateVariable * N => real (snd e)) (pc_end_criterion c) }.

(** The Mach number has no value without an atmosphere: neither the steering nor the end criterion
    asks for it then. *)
Definition no_mach_in_vacuum (p : Phase N) : Prop :=
  In MachNumber (steering_variables (ph_steering p)) \/ fst (ph_end_criterion p) = MachNumber -> with_air p.

(** ** The exceptions *)
(** During the phase entered as [p] the equations of motion are evaluated at a singular state, or
    an iteration overshoots without changing the criterion variable. *)
Definition exceptional (p : Phase N) : Prop :=
  singular p (ph_state p) \/
  exists fuel h st s0 ps q, run fuel p = (h, st) /\ initial p s0 /\ chain (set_ph_state p s0) ps /\
    h = map (@ph_state N) ps /\ In q (set_ph_state p s0 :: ps) /\
    ((exists d, evaluates q d /\ singular p d) \/ stalled q).

(** ** Proof *)
Record real_params (p : Phase N) : Prop := {
  pp_planet : exists Re Rp mu J2 J3 J4 w, real_planet (ph_planet p) Re Rp mu J2 J3 J4 w /\ 0 < Re /\ 0 < Rp;
  pp_wind : realv (at_wind (ph_atmosphere p));
  pp_structure : real (ve_structure_mass (ph_vehicle p));
  pp_area : real (ve_reference_area (ph_vehicle p));
  pp_drag : real_table (ve_drag_coeff (ph_vehicle p));
  pp_lift : real_table (ve_lift_coeff (ph_vehicle p));
  pp_side : real_table (ve_side_force_coeff (ph_vehicle p));
  pp_engines : exists es, engines_are (ph_vehicle p) es /\ Forall (fun e => isp e <> 0) es;
  pp_roll : real_axis (sg_roll (ph_steering p));
  pp_yaw : real_axis (sg_yaw (ph_steering p));
  pp_pitch : real_axis (sg_pitch (ph_steering p));
  pp_target : real (snd (ph_end_criterion p)) }.

Lemma real_zero : real (@n_lit N 0 0).
Proof. apply real_lits. Qed.
Lemma real_default_table : real_table (@default_table N).
Proof. apply (real_1d Time [] []). exact (C18_default_table_accepted (N := N)). Qed.
Lemma real_default_axis : real_axis (@default_axis N).
Proof. split; [apply real_zero|]. exists zeroR. unfold default_axis, vzero, zeroR, finv. cbn. xrs. reflexivity. Qed.

Lemma spherical_real : exists Re Rp mu J2 J3 J4 w, real_planet (@EARTH_SPHERICAL N) Re Rp mu J2 J3 J4 w /\ 0 < Re /\ 0 < Rp.
Proof.
  destruct (C43_constants (rot := rot)) as (E & _). unfold planet_is in E.
  do 7 eexists. split; [exact E|]. unfold foot. lra.
Qed.
Lemma planet_config_real : forall c, real_planet_config c ->
  exists Re Rp mu J2 J3 J4 w, real_planet (planet_of c) Re Rp mu J2 J3 J4 w /\ 0 < Re /\ 0 < Rp.
Proof.
  destruct (C43_constants (rot := rot)) as (E1 & E2 & E3). unfold planet_is in E1, E2, E3.
  intros c [| | |Re Rp mu J2 J3 J4 w P1 P2].
  - exact spherical_real.
  - do 7 eexists. split; [exact E2|]. unfold foot. lra.
  - do 7 eexists. split; [exact E3|]. unfold foot. lra.
  - do 7 eexists. split; [reflexivity|]. lra.
Qed.
Lemma default_params : real_params (@default_phase N).
Proof.
  constructor; try apply real_zero; try apply real_default_table; try apply real_default_axis.
  - exact spherical_real.
  - exists []. split; [reflexivity|constructor].
Qed.

Lemma over_real : forall A (P : A -> Prop) o a, opt P o -> P a -> P (over o a).
Proof. intros A P [b|] a H K; assumption. Qed.
Lemma axis_real : forall (a : axis N) o, real_axis a -> opt (fun a => realv (snd a)) o -> real_axis (axis_update a o).
Proof. intros a [c|] [H1 H2] K; [|split; assumption]. split; [exact H1|exact K]. Qed.

Lemma configured_params : forall (q : Phase N) c, real_params q -> real_config c -> real_params (configured q c).
Proof.
  intros q c H K. destruct H as [H1 H2 H3 H4 H5 H6 H7 H8 H9 H10 H11 H12].
  destruct K as [K1 K2 K3 K4 K5 K6].
  assert (V : real (ve_structure_mass (ph_vehicle (configured q c))) /\ real (ve_reference_area (ph_vehicle (configured q c))) /\
     real_table (ve_drag_coeff (ph_vehicle (configured q c))) /\ real_table (ve_lift_coeff (ph_vehicle (configured q c))) /\
     real_table (ve_side_force_coeff (ph_vehicle (configured q c))) /\
     exists es, engines_are (ph_vehicle (configured q c)) es /\ Forall (fun e => isp e <> 0) es).
  { cbn [configured ph_vehicle]. destruct (pc_vehicle c) as [v|]; [|tauto]. destruct K2.
    cbn [vehicle_update_with_config ve_structure_mass ve_reference_area ve_drag_coeff ve_lift_coeff ve_side_force_coeff].
    split; [now apply over_real|]. split; [now apply over_real|]. split; [now apply over_real|].
    split; [now apply over_real|]. split; [now apply over_real|].
    unfold engines_are in *. cbn [vehicle_update_with_config ve_engines].
    destruct (vc_engines v) as [es|]; [exact rv_engines0|exact H8]. }
  destruct V as (V1 & V2 & V3 & V4 & V5 & V6).
  assert (S : real_axis (sg_roll (ph_steering (configured q c))) /\ real_axis (sg_yaw (ph_steering (configured q c))) /\
     real_axis (sg_pitch (ph_steering (configured q c)))).
  { cbn [configured ph_steering]. destruct (pc_steering c) as [s|]; [|tauto]. destruct K3 as (A1 & A2 & A3).
    cbn [steering_update_with_config sg_roll sg_yaw sg_pitch].
    split; [now apply axis_real|]. split; now apply axis_real. }
  destruct S as (S1 & S2 & S3).
  constructor; try assumption.
  - cbn [configured ph_planet]. destruct (pc_planet_model c) as [m|]; [|exact H1]. now apply planet_config_real.
  - cbn [configured ph_atmosphere]. destruct (pc_atmosphere c) as [[e w]|]; [|exact H2].
    unfold atmosphere_update_with_config. cbn [ac_enabled ac_wind] in *.
    destruct w as [w|]; [exact K5|]. destruct e as [[|]|]; exact H2.
  - cbn [configured ph_end_criterion]. destruct (pc_end_criterion c) as [e|]; [exact K6|exact H12].
Qed.

Lemma real_default_input : real_input (@default_state N).
Proof.
  constructor; first [apply real_zero | exists zeroR; cbn; unfold vzero, zeroR, finv; cbn; xrs; reflexivity | eexists; cbn; xrs; reflexivity].
Qed.
Lemma real_input_mass : forall (s : State N) m, real_input s -> real m -> real_input (set_mass s m).
Proof. intros s m []; constructor; assumption. Qed.
Lemma real_input_event : forall (s : State N) m, real_input s -> real m -> real_input (set_time_since_event s m).
Proof. intros s m []; constructor; assumption. Qed.
Lemma real_input_site : forall (s : State N) r v, real_input s -> realv r -> realv v ->
  real_input (set_velocity (set_position s r) v).
Proof. intros s r v []; constructor; assumption. Qed.
Lemma real_state_input : forall air (s : State N), real_state air s -> real_input s.
Proof. intros air s []. constructor; assumption. Qed.

Lemma configured_input : forall (q : Phase N) c, real_params q -> real_config c -> real_input (ph_state q) ->
  real (st_propellant_mass (ph_state q)) -> real_input (ph_state (configured q c)).
Proof.
  intros q c H K I P. destruct K as [_ K _ _ _ _]. destruct H as [_ _ H _ _ _ _ _ _ _ _ _].
  cbn [configured ph_state]. unfold mass_of. destruct (pc_vehicle c) as [[[m|] [k|] ra dc lc sf en]|]; [| | | |exact I];
    cbn [vc_structure_mass vc_propellant_mass]; destruct K as [K1 K2 _ _ _ _ _]; cbn [vc_structure_mass vc_propellant_mass opt] in *;
    try exact I; apply real_input_mass; try exact I; try destruct K1 as [k1 ->]; try destruct K2 as [k2 ->];
    try (destruct P as [k3 ->]); try (destruct H as [k4 ->]); xrs; eexists; reflexivity.
Qed.

(** What a phase starts with. *)
Definition sound (p : Phase N) : Prop :=
  real_params p /\ realv (ph_launch p) /\ real_input (ph_state p) /\ real (st_propellant_mass (ph_state p)).

Lemma sound_phase : forall p : Phase N, real_params p -> realv (ph_launch p) -> real_input (ph_state p) ->
  real (st_propellant_mass (ph_state p)) -> sound (reset p).
Proof.
  intros p H L I P. split; [|split; [exact L|split]].
  - destruct (ri_euler_angles _ I) as [e E].
    destruct H as [H1 H2 H3 H4 H5 H6 H7 H8 H9 H10 H11 H12]. constructor; try assumption.
    + split; [|apply H9]. change (real (to_degrees (vx (st_euler_angles (ph_state p))))). rewrite E. eexists. apply to_degrees_fin.
    + split; [|apply H10]. change (real (to_degrees (vy (st_euler_angles (ph_state p))))). rewrite E. eexists. apply to_degrees_fin.
    + split; [|apply H11]. change (real (to_degrees (vz (st_euler_angles (ph_state p))))). rewrite E. eexists. apply to_degrees_fin.
  - rewrite reset_state. apply real_input_event; [exact I|apply real_zero].
  - rewrite reset_state. exact P.
Qed.
Lemma sound_real_phase : forall p : Phase N, sound p -> no_mach_in_vacuum p -> real_phase p.
Proof.
  intros p ([H1 H2 H3 H4 H5 H6 H7 H8 H9 H10 H11 H12] & L & _) M.
  constructor; try assumption. intros I. apply M. left. exact I.
Qed.

Lemma sound_run : rot_contract rot -> forall (cs : list (PhaseConfig N)) (p : Phase N) fuel h st,
  begins cs p -> sound p -> no_mach_in_vacuum p -> run fuel p = (h, st) ->
  exceptional p \/ Forall (real_state (with_air p)) h.
Proof.
  intros Hrot cs p fuel h st B S M R. assert (RP := sound_real_phase p S M).
  destruct S as (PP & L & I & P).
  destruct (classic (singular p (ph_state p))) as [X|X]; [left; now left|].
  destruct (C29_stepsize_is_one cs p B) as [E1 _].
  destruct (C52_run_partial Hrot p fuel h st R RP I X) as [F|(s0 & ps & q & A)].
  - rewrite E1. apply real_lits.
  - split; [apply PP|]. intros E. apply M. now right.
  - now right.
  - left. right. exists fuel, h, st, s0, ps, q. tauto.
Qed.

Lemma first_sound : forall (c : PhaseConfig N) i, pc_init c = Some i -> real_config c ->
  sound (reset (phase_init (configured default_phase c) i)).
Proof.
  intros c i Ei Hc1.
  assert (PP := configured_params _ c default_params Hc1).
  destruct (pp_planet _ PP) as (Re & Rp & mu & J2 & J3 & J4 & w & HP & P1 & P2).
  assert (HI := rc_init _ Hc1). rewrite Ei in HI. destruct HI as (lat & long & az & alt & -> & Hlat).
  destruct (phase_init_fin (configured default_phase c) Re Rp w lat long az (Fin alt)) as (F1 & F2 & F3).
  { rewrite HP. repeat split; assumption. }
  { rewrite HP. reflexivity. }
  { exact Hlat. }
  assert (CI : real_input (ph_state (configured default_phase c))).
  { apply configured_input; [apply default_params|exact Hc1|apply real_default_input|apply real_zero]. }
  destruct (phase_init_state (configured default_phase c) (mkInitConfig (N := N) (Fin lat) (Fin long) (Fin az) (Fin alt)))
    as (r & v & E). set (p := phase_init _ _) in *.
  apply sound_phase.
  + destruct PP as [H1 H2 H3 H4 H5 H6 H7 H8 H9 H10 H11 H12]. constructor; assumption.
  + rewrite F3. eexists; reflexivity.
  + rewrite E in F1, F2 |- *. apply real_input_site; [exact CI| |].
    * change (st_position (set_velocity (set_position (ph_state (configured default_phase c)) r) v)) with r in F1.
      rewrite F1. eexists; reflexivity.
    * change (st_velocity (set_velocity (set_position (ph_state (configured default_phase c)) r) v)) with v in F2.
      rewrite F2. eexists; reflexivity.
  + rewrite E. destruct (configured_state default_phase c) as [m E2]. rewrite E2. apply real_zero.
Qed.

Lemma begins_sound : rot_contract rot -> forall (cs : list (PhaseConfig N)) (p : Phase N), begins cs p ->
  Forall real_config cs ->
  (forall cs1 cs2 q, cs = cs1 ++ cs2 -> begins cs1 q -> no_mach_in_vacuum q) ->
  (exists cs1 cs2 q, cs = cs1 ++ cs2 /\ begins cs1 q /\ exceptional q) \/ sound p.
Proof.
  intros Hrot cs p B. induction B as [c p Hn|cs p fuel h q c p' B IH R Hn]; intros Hc Hm.
  - right. inversion Hc as [|? ? Hc1 _]; subst. rewrite phase_new_configured in Hn.
    destruct (pc_init c) as [i|] eqn:Ei; [|discriminate]. injection Hn as <-. now apply first_sound.
  - apply Forall_app in Hc. destruct Hc as [Hc1 Hc2]. inversion Hc2 as [|? ? Hc3 _]; subst.
    destruct IH as [(cs1 & cs2 & q1 & E & B1 & X)|S].
    { exact Hc1. }
    { intros cs1 cs2 q1 -> B1. apply (Hm cs1 (cs2 ++ [c]) q1); [now rewrite app_assoc|exact B1]. }
    { left. exists cs1, (cs2 ++ [c]), q1. rewrite E, app_assoc. auto. }
    assert (M : no_mach_in_vacuum p) by (apply (Hm cs [c] p); auto).
    destruct (sound_run Hrot cs p fuel h _ B S M R) as [X|F]; [left; exists cs, [c], p; auto|].
    right. destruct (C32_counter_starts_at_zero cs p default_state B) as [_ He].
    assert (C := C31_finished fuel p h q He R). destruct (ph_end_criterion p) as [v tgt]. cbv zeta in C.
    destruct C as (h' & -> & _). apply Forall_app in F. destruct F as [_ F]. inversion F as [|? ? RS _]; subst.
    assert (K := C28_run_keeps_parameters fuel p _ q (or_introl R)). destruct K as (E1 & E2 & E3 & E4 & E5 & _ & _ & E8).
    destruct S as (PP & L & _ & _).
    assert (PQ : real_params q).
    { destruct PP as [H1 H2 H3 H4 H5 H6 H7 H8 H9 H10 H11 H12].
      constructor; rewrite ?E1, ?E2, ?E3, ?E4, ?E8; assumption. }
    rewrite phase_new_configured in Hn. injection Hn as <-.
    apply sound_phase.
    + now apply configured_params.
    + cbn [configured ph_launch]. rewrite E5. exact L.
    + apply configured_input; [exact PQ|exact Hc3|exact (real_state_input _ _ RS)|exact (r_propellant_mass _ _ RS)].
    + destruct (configured_state q c) as [m ->]. exact (r_propellant_mass _ _ RS).
Qed.

(** ** C52 *)
(** A simulation of real configurations: every number of every record is real (the Mach number in
    phases with an atmosphere), unless, in the same or an earlier phase, the equations of motion were
    evaluated at a singular state or an iteration left the criterion variable unchanged. *)
Theorem C52_simulation_partial : rot_contract rot -> forall (cs : list (PhaseConfig N)) (p : Phase N) s,
  Forall real_config cs ->
  (forall cs1 cs2 q, cs = cs1 ++ cs2 -> begins cs1 q -> no_mach_in_vacuum q) ->
  reported cs p s ->
  real_state (with_air p) s \/
  exists cs1 cs2 q, cs = cs1 ++ cs2 /\ begins cs1 q /\ exceptional q.
Proof.
  intros Hrot cs p s Hc Hm (cs1 & cs2 & fuel & h & st & -> & B & R & Hs).
  apply Forall_app in Hc. destruct Hc as [Hc _].
  destruct (begins_sound Hrot cs1 p B Hc) as [(cs3 & cs4 & q & -> & B' & X)|S].
  - intros cs3 cs4 q -> B'. apply (Hm cs3 (cs4 ++ cs2) q); [now rewrite app_assoc|exact B'].
  - right. exists cs3, (cs4 ++ cs2), q. rewrite app_assoc. auto.
  - assert (M : no_mach_in_vacuum p) by (apply (Hm cs1 cs2 p); auto).
    destruct (sound_run Hrot cs1 p fuel h st B S M R) as [X|F].
    + right. exists cs1, cs2, p. auto.
    + left. rewrite Forall_forall in F. now apply F.
Qed.
(** The first evaluation of a simulation does not take place at a singular state if the vehicle has
    a mass. *)
Theorem C52_start : forall (c : PhaseConfig N) (p : Phase N), begins [c] p -> real_config c ->
  (singular p (ph_state p) <-> st_mass (ph_state p) = Fin 0).
Proof.
  intros c p B Hc. split; [|intros E; right; now left].
  destruct (begins_single c p B) as [i [Ei ->]].
  assert (PP := configured_params _ c default_params Hc).
  destruct (pp_planet _ PP) as (Re & Rp & mu & J2 & J3 & J4 & w & HP & P1 & P2).
  assert (HR : radii (ph_planet (configured default_phase c)) Re Rp) by (rewrite HP; repeat split; assumption).
  assert (HI := rc_init _ Hc). rewrite Ei in HI. destruct HI as (lat & long & az & alt & -> & Hlat).
  destruct (phase_init_fin (configured default_phase c) Re Rp w lat long az (Fin alt) HR) as (F1 & _ & _).
  { rewrite HP. reflexivity. }
  { exact Hlat. }
  destruct (site_level Re Rp (atan (Re / Rp * (Re / Rp) * (Re / Rp * (Re / Rp)) * tan (deg lat))) (deg long) P1 P2)
    as (_ & _ & HL).
  match type of F1 with _ = finv ?x => set (r := x) in * end.
  change (level Re Rp r = 1) in HL.
  assert (Hr0 : r <> zeroR).
  { intros E. rewrite E in HL. unfold level, zeroR in HL. cbn [vx vy vz] in HL. unfold Rdiv in HL. lra. }
  set (p := phase_init _ _) in *.
  assert (E : st_position (ph_state (reset p)) = finv r) by exact F1.
  intros [S|[S|(Re' & Rp' & HR' & S)]]; [|exact S|]; exfalso; rewrite E in S.
  - apply Hr0. destruct r as [r0 r1 r2]. unfold zeroR, finv in *. cbn [vx vy vz] in S. injection S as -> -> ->. reflexivity.
  - change (radii (ph_planet (configured default_phase c)) Re' Rp') in HR'.
    change (ph_planet (reset p)) with (ph_planet (configured default_phase c)) in S.
    destruct (C05_sign (ph_planet (configured default_phase c)) Re' Rp' r HR' Hr0) as (h & Eh & A & _).
    rewrite S in Eh. injection Eh as Eh. destruct HR' as (X1 & X2 & X3 & X4). destruct HR as (Y1 & Y2 & _).
    rewrite Y1 in X1. rewrite Y2 in X2. injection X1 as <-. injection X2 as <-.
    apply A in HL. lra.
Qed.
End Exact.
