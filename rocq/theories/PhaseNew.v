(** * [Phase::new] as one record of inherited parameters *)
From Coq Require Import ZArith List Bool Lia.
From Verif Require Import Num Constants State Tables Config Planet Atmosphere Transformations
  Steering Vehicle RungeKutta Phase.
Import ListNotations.

Section WithNum.
Context {N : Num}.
Local Open Scope num_scope.

(** The value of a parameter after configuration: the configured one, else the old. *)
Definition inherit {A} (configured : option A) (old : A) : A :=
  match configured with Some a => a | None => old end.
(** A parameter of a section that may be missing altogether. *)
Definition inherit2 {C A} (section : option C) (field : C -> option A) (old : A) : A :=
  match section with Some c => inherit (field c) old | None => old end.

Definition planet_of (c : PlanetConfig N) : Planet N :=
  match c with
  | Spherical => EARTH_SPHERICAL
  | Fisher1960 => EARTH_FISHER_1960
  | Smithsonian => EARTH_SMITHSONIAN
  | Custom re rp g w => mkPlanet re rp g w
  end.

(** The effect of [Phase::new] on the mass (see C26). *)
Definition mass_of (old : Phase N) (c : PhaseConfig N) : N :=
  match pc_vehicle c with
  | None => st_mass (ph_state old)
  | Some v =>
      match vc_structure_mass v, vc_propellant_mass v with
      | None, None => st_mass (ph_state old)
      | Some m, None => st_propellant_mass (ph_state old) + m
      | None, Some k => ve_structure_mass (ph_vehicle old) + k
      | Some m, Some k => m + k
      end
  end.

(** [Phase::new] before the handling of [init]. *)
Definition configured (old : Phase N) (c : PhaseConfig N) : Phase N := {|
  ph_state := match pc_vehicle c with
              | None => ph_state old
              | Some v => match vc_structure_mass v, vc_propellant_mass v with
                          | None, None => ph_state old
                          | _, _ => set_mass (ph_state old) (mass_of old c)
                          end
              end;
  ph_vehicle := match pc_vehicle c with
                | Some v => vehicle_update_with_config (ph_vehicle old) v
                | None => ph_vehicle old
                end;
  ph_steering := match pc_steering c with
                 | Some v => steering_update_with_config (ph_steering old) v
                 | None => ph_steering old
                 end;
  ph_atmosphere := match pc_atmosphere c with
                   | Some v => atmosphere_update_with_config (ph_atmosphere old) v
                   | None => ph_atmosphere old
                   end;
  ph_planet := inherit (option_map planet_of (pc_planet_model c)) (ph_planet old);
  ph_launch := ph_launch old;
  ph_max_acceleration :=
    inherit (option_map (fun m => if m =? - #1 then n_inf else m) (pc_max_acceleration c))
      (ph_max_acceleration old);
  ph_stepsize := inherit (pc_stepsize c) (ph_stepsize old);
  ph_base_stepsize := ph_base_stepsize old;
  ph_end_criterion := inherit (pc_end_criterion c) (ph_end_criterion old);
  ph_end_criterion_tries := ph_end_criterion_tries old;
  ph_ended := ph_ended old |}.

Lemma phase_new_configured : forall prev c,
  phase_new prev c =
    match prev with
    | Some old => Ret (configured old c)
    | None => match pc_init c with
              | Some i => Ret (phase_init (configured default_phase c) i)
              | None => Panic PNoInit
              end
    end.
Proof.
  intros prev c. unfold phase_new.
  set (old := match prev with Some p => p | None => default_phase end).
  destruct c as [i v st pl at_ ma ss ec]. cbn [pc_init pc_vehicle pc_steering pc_planet_model pc_atmosphere pc_max_acceleration
    pc_stepsize pc_end_criterion].
  assert (Hc : forall old : Phase N,
    (let phase := old in
     let phase := match pl with Some c => set_ph_planet phase (planet_update_with_config c) | None => phase end in
     let phase := match at_ with Some c => set_ph_atmosphere phase (atmosphere_update_with_config (ph_atmosphere phase) c) | None => phase end in
     let phase := match v with
       | Some c =>
        let phase := set_ph_vehicle phase (vehicle_update_with_config (ph_vehicle phase) c) in
        let phase :=
          match vc_structure_mass c with
          | Some m => set_ph_state phase (set_mass (ph_state phase)
                        (st_propellant_mass (ph_state phase) + m))
          | None => phase
          end in
        match vc_propellant_mass c with
        | Some m => set_ph_state phase (set_mass (ph_state phase)
                      (ve_structure_mass (ph_vehicle phase) + m))
        | None => phase
        end
       | None => phase end in
     let phase := match ma with
       | Some c => if c =? - #1 then set_ph_max_acceleration phase n_inf else set_ph_max_acceleration phase c
       | None => phase end in
     let phase := match st with Some c => set_ph_steering phase (steering_update_with_config (ph_steering phase) c) | None => phase end in
     let phase := match ss with Some c => set_ph_stepsize phase c | None => phase end in
     match ec with Some c => set_ph_end_criterion phase c | None => phase end)
    = configured old (mkPhaseConfig i v st pl at_ ma ss ec)).
  { clear. intros [s ve sg at0 pl0 la ma0 h bh ec0 tr en].
    unfold configured, mass_of.
    cbn [pc_init pc_vehicle pc_steering pc_planet_model pc_atmosphere pc_max_acceleration
      pc_stepsize pc_end_criterion].
    destruct pl as [plc|]; destruct at_ as [atc|]; destruct ma as [m|]; destruct st as [sc|];
      destruct ss as [h'|]; destruct ec as [ec'|];
    try destruct (m =? - #1) eqn:Em;
    (destruct v as [[sm pm ra dc lc sf en']|];
     [destruct sm as [sm|]; destruct pm as [pm|]|];
     cbn -[set_mass vehicle_update_with_config steering_update_with_config planet_update_with_config atmosphere_update_with_config];
     rewrite ?Em; try reflexivity). }
  cbv zeta in Hc |- *. destruct prev as [p|].
  - subst old. f_equal. exact (Hc p).
  - subst old. destruct i as [i|]; [|reflexivity]. f_equal.
    rewrite <- (Hc default_phase). reflexivity.
Qed.
End WithNum.
