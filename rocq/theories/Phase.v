(** * Phase: equations of motion, event handling, configuration inheritance

    Models /repo/sim/src/phase.rs. *)
From Coq Require Import ZArith List.
From Verif Require Import Num Constants State Tables Config Planet Atmosphere Transformations
  Steering Vehicle RungeKutta.
Import ListNotations.
Set Implicit Arguments.
Set Contextual Implicit.

(** phase.rs:23-52, [struct Phase].  The field [integrator] is dropped: the enum
    has the single value [RK4].  The arrays [launch] is a [vec3] (geocentric
    latitude, longitude, azimuth). *)
Record Phase (N : Num) := mkPhase {
  ph_state : State N;
  ph_vehicle : Vehicle N;
  ph_steering : Steering N;
  ph_atmosphere : Atmosphere N;
  ph_planet : Planet N;
  ph_launch : vec3 N;
  ph_max_acceleration : carrier N;
  ph_stepsize : carrier N;
  ph_base_stepsize : carrier N;
  ph_end_criterion : (StateVariable * carrier N)%type;
  ph_end_criterion_tries : nat;
  ph_ended : bool }.

Section WithNum.
Context {N : Num}.
Local Open Scope num_scope.

(** Field assignments [phase.f = v]. *)
Definition set_ph_state (p : Phase N) (v : State N) : Phase N := {|
  ph_state := v; ph_vehicle := ph_vehicle p; ph_steering := ph_steering p; ph_atmosphere := ph_atmosphere p; ph_planet := ph_planet p; ph_launch := ph_launch p; ph_max_acceleration := ph_max_acceleration p; ph_stepsize := ph_stepsize p; ph_base_stepsize := ph_base_stepsize p; ph_end_criterion := ph_end_criterion p; ph_end_criterion_tries := ph_end_criterion_tries p; ph_ended := ph_ended p |}.
Definition set_ph_vehicle (p : Phase N) (v : Vehicle N) : Phase N := {|
  ph_state := ph_state p; ph_vehicle := v; ph_steering := ph_steering p; ph_atmosphere := ph_atmosphere p; ph_planet := ph_planet p; ph_launch := ph_launch p; ph_max_acceleration := ph_max_acceleration p; ph_stepsize := ph_stepsize p; ph_base_stepsize := ph_base_stepsize p; ph_end_criterion := ph_end_criterion p; ph_end_criterion_tries := ph_end_criterion_tries p; ph_ended := ph_ended p |}.
Definition set_ph_steering (p : Phase N) (v : Steering N) : Phase N := {|
  ph_state := ph_state p; ph_vehicle := ph_vehicle p; ph_steering := v; ph_atmosphere := ph_atmosphere p; ph_planet := ph_planet p; ph_launch := ph_launch p; ph_max_acceleration := ph_max_acceleration p; ph_stepsize := ph_stepsize p; ph_base_stepsize := ph_base_stepsize p; ph_end_criterion := ph_end_criterion p; ph_end_criterion_tries := ph_end_criterion_tries p; ph_ended := ph_ended p |}.
Definition set_ph_atmosphere (p : Phase N) (v : Atmosphere N) : Phase N := {|
  ph_state := ph_state p; ph_vehicle := ph_vehicle p; ph_steering := ph_steering p; ph_atmosphere := v; ph_planet := ph_planet p; ph_launch := ph_launch p; ph_max_acceleration := ph_max_acceleration p; ph_stepsize := ph_stepsize p; ph_base_stepsize := ph_base_stepsize p; ph_end_criterion := ph_end_criterion p; ph_end_criterion_tries := ph_end_criterion_tries p; ph_ended := ph_ended p |}.
Definition set_ph_planet (p : Phase N) (v : Planet N) : Phase N := {|
  ph_state := ph_state p; ph_vehicle := ph_vehicle p; ph_steering := ph_steering p; ph_atmosphere := ph_atmosphere p; ph_planet := v; ph_launch := ph_launch p; ph_max_acceleration := ph_max_acceleration p; ph_stepsize := ph_stepsize p; ph_base_stepsize := ph_base_stepsize p; ph_end_criterion := ph_end_criterion p; ph_end_criterion_tries := ph_end_criterion_tries p; ph_ended := ph_ended p |}.
Definition set_ph_launch (p : Phase N) (v : vec3 N) : Phase N := {|
  ph_state := ph_state p; ph_vehicle := ph_vehicle p; ph_steering := ph_steering p; ph_atmosphere := ph_atmosphere p; ph_planet := ph_planet p; ph_launch := v; ph_max_acceleration := ph_max_acceleration p; ph_stepsize := ph_stepsize p; ph_base_stepsize := ph_base_stepsize p; ph_end_criterion := ph_end_criterion p; ph_end_criterion_tries := ph_end_criterion_tries p; ph_ended := ph_ended p |}.
Definition set_ph_max_acceleration (p : Phase N) (v : carrier N) : Phase N := {|
  ph_state := ph_state p; ph_vehicle := ph_vehicle p; ph_steering := ph_steering p; ph_atmosphere := ph_atmosphere p; ph_planet := ph_planet p; ph_launch := ph_launch p; ph_max_acceleration := v; ph_stepsize := ph_stepsize p; ph_base_stepsize := ph_base_stepsize p; ph_end_criterion := ph_end_criterion p; ph_end_criterion_tries := ph_end_criterion_tries p; ph_ended := ph_ended p |}.
Definition set_ph_stepsize (p : Phase N) (v : carrier N) : Phase N := {|
  ph_state := ph_state p; ph_vehicle := ph_vehicle p; ph_steering := ph_steering p; ph_atmosphere := ph_atmosphere p; ph_planet := ph_planet p; ph_launch := ph_launch p; ph_max_acceleration := ph_max_acceleration p; ph_stepsize := v; ph_base_stepsize := ph_base_stepsize p; ph_end_criterion := ph_end_criterion p; ph_end_criterion_tries := ph_end_criterion_tries p; ph_ended := ph_ended p |}.
Definition set_ph_base_stepsize (p : Phase N) (v : carrier N) : Phase N := {|
  ph_state := ph_state p; ph_vehicle := ph_vehicle p; ph_steering := ph_steering p; ph_atmosphere := ph_atmosphere p; ph_planet := ph_planet p; ph_launch := ph_launch p; ph_max_acceleration := ph_max_acceleration p; ph_stepsize := ph_stepsize p; ph_base_stepsize := v; ph_end_criterion := ph_end_criterion p; ph_end_criterion_tries := ph_end_criterion_tries p; ph_ended := ph_ended p |}.
Definition set_ph_end_criterion (p : Phase N) (v : (StateVariable * carrier N)%type) : Phase N := {|
  ph_state := ph_state p; ph_vehicle := ph_vehicle p; ph_steering := ph_steering p; ph_atmosphere := ph_atmosphere p; ph_planet := ph_planet p; ph_launch := ph_launch p; ph_max_acceleration := ph_max_acceleration p; ph_stepsize := ph_stepsize p; ph_base_stepsize := ph_base_stepsize p; ph_end_criterion := v; ph_end_criterion_tries := ph_end_criterion_tries p; ph_ended := ph_ended p |}.
Definition set_ph_end_criterion_tries (p : Phase N) (v : nat) : Phase N := {|
  ph_state := ph_state p; ph_vehicle := ph_vehicle p; ph_steering := ph_steering p; ph_atmosphere := ph_atmosphere p; ph_planet := ph_planet p; ph_launch := ph_launch p; ph_max_acceleration := ph_max_acceleration p; ph_stepsize := ph_stepsize p; ph_base_stepsize := ph_base_stepsize p; ph_end_criterion := ph_end_criterion p; ph_end_criterion_tries := v; ph_ended := ph_ended p |}.
Definition set_ph_ended (p : Phase N) (v : bool) : Phase N := {|
  ph_state := ph_state p; ph_vehicle := ph_vehicle p; ph_steering := ph_steering p; ph_atmosphere := ph_atmosphere p; ph_planet := ph_planet p; ph_launch := ph_launch p; ph_max_acceleration := ph_max_acceleration p; ph_stepsize := ph_stepsize p; ph_base_stepsize := ph_base_stepsize p; ph_end_criterion := ph_end_criterion p; ph_end_criterion_tries := ph_end_criterion_tries p; ph_ended := v |}.

(** Sequencing of assignments [s.field = e; k]: [let] under a name, so that
    proofs can treat one assignment at a time. *)
Definition assign {A B} (v : A) (k : A -> B) : B := k v.
Notation "'set!' s := e 'in' k" := (assign e (fun s => k))
  (at level 200, s name, e at level 200, k at level 200, right associativity).

(** phase.rs:67-126, [Phase::system], statement by statement. *)
Definition system (self : Phase N) (s : State N) : outcome (State N) :=
  let planet := ph_planet self in
  let atmosphere := ph_atmosphere self in
  let vehicle := ph_vehicle self in
  (* Additional primary state values *)
  let i2p := inertial_to_planet (st_time s) (pl_rotation_rate planet) in
  set! s := set_position_planet s (mulv i2p (st_position s)) in
  set! s := set_velocity_planet s (velocity_planet planet (st_position s) (st_velocity s)) in
  set! s := set_altitude s (altitude planet (st_position s)) in
  set! s := set_altitude_geopotential s (geopotential_altitude planet (st_position s)) in
  set! s := set_velocity_planet s (velocity_planet planet (st_position s) (st_velocity s)) in
  set! s := set_propellant_mass s (st_mass s - ve_structure_mass vehicle) in
  (* Gravity acceleration *)
  set! s := set_gravity_acceleration s (gravity planet (st_position s)) in
  (* Atmospheric data *)
  set! s := set_velocity_atmosphere s (at_velocity_atmosphere atmosphere s) in
  let* x := at_temperature atmosphere s in
  set! s := set_temperature s x in
  let* x := at_pressure atmosphere s in
  set! s := set_pressure s x in
  let* x := at_density atmosphere s in
  set! s := set_density s x in
  let* x := at_mach_number atmosphere s in
  set! s := set_mach_number s x in
  set! s := set_dynamic_pressure s (at_dynamic_pressure atmosphere s) in
  (* Attitude *)
  set! s := set_euler_angles s (steering_euler_angles (ph_steering self) s) in
  let i2b := inertial_to_body (ph_launch self) (st_euler_angles s) in
  (* Aerodynamic acceleration *)
  set! s := set_alpha s (alpha (mulv i2b (st_velocity_atmosphere s))) in
  let* x := aero_force vehicle s in
  set! s := set_aero_force_body s x in
  (* Thrust acceleration *)
  set! s := set_throttle s (auto_throttle vehicle (ph_max_acceleration self) (st_mass s)
             (st_pressure s) (st_aero_force_body s)) in
  set! s := set_thrust_force_body s (thrust_force vehicle (st_throttle s) (st_pressure s)) in
  set! s := set_massflow s (massflow vehicle (st_throttle s)) in
  (* Vehicle acceleration *)
  set! s := set_vehicle_acceleration_body s
             (vdiv (vadd (st_aero_force_body s) (st_thrust_force_body s)) (st_mass s)) in
  if ((norm (st_vehicle_acceleration_body s) >? ph_max_acceleration self * n_lit 1001 (-3))
      || n_isnan (st_throttle s))%bool
  then Panic PMaxAcceleration
  else
    (* Acceleration *)
    set! s := set_acceleration s
               (vadd (mulv (transpose i2b) (st_vehicle_acceleration_body s))
                     (st_gravity_acceleration s)) in
    Ret s.

(** phase.rs:133-139, [Phase::time_to_go]. *)
Definition time_to_go (self : Phase N) (old_state new_state : State N) : N :=
  let y_t := get_value (fst (ph_end_criterion self)) old_state - snd (ph_end_criterion self) in
  let y_t_1 := get_value (fst (ph_end_criterion self)) new_state - snd (ph_end_criterion self) in
  let dt := ph_stepsize self in
  - y_t * dt / (y_t_1 - y_t).

(** phase.rs:146-154, [Phase::event_is_active]. *)
Definition event_is_active (self : Phase N) (old_state new_state : State N) : bool :=
  if get_value (fst (ph_end_criterion self)) new_state
       <? get_value (fst (ph_end_criterion self)) old_state
  then get_value (fst (ph_end_criterion self)) new_state <? snd (ph_end_criterion self)
  else get_value (fst (ph_end_criterion self)) new_state >? snd (ph_end_criterion self).

(** phase.rs:166-191, [Phase::step]. *)
Definition step (self : Phase N) : outcome (Phase N) :=
  if ph_ended self then Panic PPhaseEnded
  else
    let* state := integrator_step (fun s => system self s) (ph_state self) (ph_stepsize self) in
    if n_abs (get_value (fst (ph_end_criterion self)) state - snd (ph_end_criterion self))
         <? n_lit 1 (-3)
    then Ret (set_ph_state (set_ph_ended self true) state)
    else if event_is_active self (ph_state self) state then
      if (20 <? ph_end_criterion_tries self)%nat then Panic PNoZeroCrossing
      else
        let self := set_ph_stepsize self (time_to_go self (ph_state self) state) in
        Ret (set_ph_end_criterion_tries self (ph_end_criterion_tries self + 1))
    else Ret (set_ph_state self state).

(** What a run of the loop of [Phase::run] (phase.rs:201-211) has led to:
    finished, aborted by a panic, or still running. *)
Inductive status (A : Type) := Finished (a : A) | Aborted (e : panic) | Running (a : A).
Arguments Finished {A} _.
Arguments Aborted {A} _.
Arguments Running {A} _.

(** phase.rs:201-211, the [while !self.ended] loop, followed for at most [fuel]
    iterations.  The list holds the state after each iteration, i.e. the state
    from which the record of that iteration is printed (phase.rs:203-210; the text is [Text.show_record]). *)
Fixpoint run_loop (fuel : nat) (self : Phase N) : list (State N) * status (Phase N) :=
  if ph_ended self then ([], Finished self)
  else match fuel with
  | O => ([], Running self)
  | S fuel =>
      match step self with
      | Panic e => ([], Aborted e)
      | Ret self =>
          let (h, st) := run_loop fuel self in (ph_state self :: h, st)
      end
  end.

(** phase.rs:197-212, [Phase::run]. *)
Definition run (fuel : nat) (self : Phase N) : list (State N) * status (Phase N) :=
  match system self (ph_state self) with
  | Panic e => ([], Aborted e)
  | Ret s => run_loop fuel (set_ph_state self s)
  end.

(** phase.rs:218-234, [Phase::default]. *)
Definition default_phase : Phase N := {|
  ph_state := default_state;
  ph_vehicle := default_vehicle;
  ph_steering := default_steering;
  ph_atmosphere := default_atmosphere;
  ph_planet := default_planet;
  ph_launch := V3 #0 #0 #0;
  ph_max_acceleration := n_inf;
  ph_stepsize := #1;
  ph_base_stepsize := #1;
  ph_end_criterion := (TimeSinceEvent, #0);
  ph_end_criterion_tries := 0;
  ph_ended := false |}.

(** phase.rs:311-339, [Phase::init]. *)
Definition phase_init (self : Phase N) (config : InitConfig N) : Phase N :=
  let lat := to_radians (ic_latitude config) in
  let long := to_radians (ic_longitude config) in
  let az := to_radians (ic_azimuth config) in
  let planet := ph_planet self in
  let k := powi (pl_equatorial_radius planet / pl_polar_radius planet) 2 in
  let geocentric_lat := n_atan (powi k 2 * n_tan lat) in
  let self := set_ph_launch self (V3 geocentric_lat long az) in
  let distance_to_surface :=
    pl_equatorial_radius planet
      / n_sqrt (#1 + (k - #1) * powi (n_sin geocentric_lat) 2) in
  let self := set_ph_state self (set_position (ph_state self)
    (vscale distance_to_surface
       (V3 (n_cos geocentric_lat * n_cos long)
           (n_cos geocentric_lat * n_sin long)
           (n_sin geocentric_lat)))) in
  set_ph_state self (set_velocity (ph_state self)
    (vneg (velocity_planet planet (st_position (ph_state self)) vzero))).

(** phase.rs:238-291, [Phase::new]. *)
Definition phase_new (prev_phase : option (Phase N)) (config : PhaseConfig N)
    : outcome (Phase N) :=
  let phase := match prev_phase with Some p => p | None => default_phase end in
  let phase :=
    match pc_planet_model config with
    | Some c => set_ph_planet phase (planet_update_with_config c)
    | None => phase
    end in
  let phase :=
    match pc_atmosphere config with
    | Some c => set_ph_atmosphere phase (atmosphere_update_with_config (ph_atmosphere phase) c)
    | None => phase
    end in
  let phase :=
    match pc_vehicle config with
    | Some c =>
        let phase := set_ph_vehicle phase (vehicle_update_with_config (ph_vehicle phase) c) in
        let phase :=
          match vc_structure_mass c with
          | Some m => set_ph_state phase (set_mass (ph_state phase)
                        (st_propellant_mass (ph_state phase) + m))
          | None => phase
          end in
        match vc_propellant_mass c with
        | Some m => set_ph_state phase (set_mass (ph_state phase)
                      (ve_structure_mass (ph_vehicle phase) + m))
        | None => phase
        end
    | None => phase
    end in
  let phase :=
    match pc_max_acceleration config with
    | Some c => if c =? - #1 then set_ph_max_acceleration phase n_inf
                else set_ph_max_acceleration phase c
    | None => phase
    end in
  let phase :=
    match pc_steering config with
    | Some c => set_ph_steering phase (steering_update_with_config (ph_steering phase) c)
    | None => phase
    end in
  let phase :=
    match pc_stepsize config with
    | Some c => set_ph_stepsize phase c
    | None => phase
    end in
  let phase :=
    match pc_end_criterion config with
    | Some c => set_ph_end_criterion phase c
    | None => phase
    end in
  match prev_phase with
  | Some _ => Ret phase
  | None =>
      match pc_init config with
      | Some c => Ret (phase_init phase c)
      | None => Panic PNoInit
      end
  end.

(** phase.rs:298-305, [Phase::reset]. *)
Definition reset (self : Phase N) : Phase N :=
  let self := set_ph_state self (set_time_since_event (ph_state self) #0) in
  let self := set_ph_stepsize self (ph_base_stepsize self) in
  let self := set_ph_steering self
                (steering_init (ph_steering self) (st_euler_angles (ph_state self))) in
  let self := set_ph_ended self false in
  set_ph_end_criterion_tries self 0.

End WithNum.
Arguments Finished {A} _.
Arguments Aborted {A} _.
Arguments Running {A} _.
