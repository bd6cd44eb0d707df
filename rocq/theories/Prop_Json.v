(** * C42, C43, C44: the configuration file *)
From Coq Require Import ZArith List String Ascii Bool Permutation Lia Reals Lra.
From Verif Require Import Num Constants State Tables Config Planet Json XR XRFacts Prop_Tables Prop_Panics.
Import ListNotations.

Section Generic.
Context {N : Num}.
Local Open Scope num_scope.

(** ** C42 *)
(** The table "Simulation Variables" of the user manual
    (/repo/docs/user-manual/project.tex:503-544) with the quantity of the state that the
    description of each line refers to. *)
Definition manual_variables : list (string * (State N -> N)) := [
  ("time"%string, fun s => st_time s);
  ("time_since_event"%string, fun s => st_time_since_event s);
  ("position1"%string, fun s => vx (st_position s));
  ("position2"%string, fun s => vy (st_position s));
  ("position3"%string, fun s => vz (st_position s));
  ("position_norm"%string, fun s => norm (st_position s));
  ("position_planet1"%string, fun s => vx (st_position_planet s));
  ("position_planet2"%string, fun s => vy (st_position_planet s));
  ("position_planet3"%string, fun s => vz (st_position_planet s));
  ("altitude"%string, fun s => st_altitude s);
  ("altitude_geopotential"%string, fun s => st_altitude_geopotential s);
  ("velocity1"%string, fun s => vx (st_velocity s));
  ("velocity2"%string, fun s => vy (st_velocity s));
  ("velocity3"%string, fun s => vz (st_velocity s));
  ("velocity_norm"%string, fun s => norm (st_velocity s));
  ("velocity_planet1"%string, fun s => vx (st_velocity_planet s));
  ("velocity_planet2"%string, fun s => vy (st_velocity_planet s));
  ("velocity_planet3"%string, fun s => vz (st_velocity_planet s));
  ("velocity_planet_norm"%string, fun s => norm (st_velocity_planet s));
  ("velocity_atmosphere1"%string, fun s => vx (st_velocity_atmosphere s));
  ("velocity_atmosphere2"%string, fun s => vy (st_velocity_atmosphere s));
  ("velocity_atmosphere3"%string, fun s => vz (st_velocity_atmosphere s));
  ("velocity_atmosphere_norm"%string, fun s => norm (st_velocity_atmosphere s));
  ("gravity_acceleration1"%string, fun s => vx (st_gravity_acceleration s));
  ("gravity_acceleration2"%string, fun s => vy (st_gravity_acceleration s));
  ("gravity_acceleration3"%string, fun s => vz (st_gravity_acceleration s));
  ("gravity_acceleration_norm"%string, fun s => norm (st_gravity_acceleration s));
  ("mass"%string, fun s => st_mass s);
  ("propellant_mass"%string, fun s => st_propellant_mass s);
  ("temperature"%string, fun s => st_temperature s);
  ("pressure"%string, fun s => st_pressure s);
  ("density"%string, fun s => st_density s);
  ("mach_number"%string, fun s => st_mach_number s);
  ("dynamic_pressure"%string, fun s => st_dynamic_pressure s);
  ("alpha"%string, fun s => st_alpha s);
  ("euler_angles_roll"%string, fun s => vx (st_euler_angles s));
  ("euler_angles_yaw"%string, fun s => vy (st_euler_angles s));
  ("euler_angles_pitch"%string, fun s => vz (st_euler_angles s))].
(** Quantities of the state that the manual does not list. *)
Definition undocumented_variables : list (string * (State N -> N)) := [
  ("acceleration1"%string, fun s => vx (st_acceleration s));
  ("acceleration2"%string, fun s => vy (st_acceleration s));
  ("acceleration3"%string, fun s => vz (st_acceleration s));
  ("acceleration_norm"%string, fun s => norm (st_acceleration s));
  ("thrust_force_body1"%string, fun s => vx (st_thrust_force_body s));
  ("thrust_force_body2"%string, fun s => vy (st_thrust_force_body s));
  ("thrust_force_body3"%string, fun s => vz (st_thrust_force_body s));
  ("thrust_force_body_norm"%string, fun s => norm (st_thrust_force_body s));
  ("aero_force_body1"%string, fun s => vx (st_aero_force_body s));
  ("aero_force_body2"%string, fun s => vy (st_aero_force_body s));
  ("aero_force_body3"%string, fun s => vz (st_aero_force_body s));
  ("aero_force_body_norm"%string, fun s => norm (st_aero_force_body s));
  ("vehicle_acceleration_body1"%string, fun s => vx (st_vehicle_acceleration_body s));
  ("vehicle_acceleration_body2"%string, fun s => vy (st_vehicle_acceleration_body s));
  ("vehicle_acceleration_body3"%string, fun s => vz (st_vehicle_acceleration_body s));
  ("vehicle_acceleration_body_norm"%string, fun s => norm (st_vehicle_acceleration_body s));
  ("massflow"%string, fun s => st_massflow s);
  ("throttle"%string, fun s => st_throttle s)].
Lemma find_some_in : forall (l : list (StateVariable * string)) n v,
  option_map fst (find (fun p => String.eqb (snake_case (snd p)) n) l) = Some v ->
  exists id, In (v, id) l /\ snake_case id = n.
Proof.
  induction l as [|[w id] l IH]; intros n v H; [discriminate|]. cbn [find snd] in H.
  destruct (String.eqb (snake_case id) n) eqn:E.
  - cbn in H. injection H as ->. apply String.eqb_eq in E. exists id. split; [left; reflexivity|exact E].
  - destruct (IH n v H) as (i & A & B). exists i. split; [right; exact A|exact B].
Qed.
Definition name_of (v : StateVariable) : string :=
  match find (fun p => match fst p, v with
    | Time, Time | TimeSinceEvent, TimeSinceEvent | Position1, Position1 | Position2, Position2
    | Position3, Position3 | PositionNorm, PositionNorm | PositionPlanet1, PositionPlanet1
    | PositionPlanet2, PositionPlanet2 | PositionPlanet3, PositionPlanet3 | Altitude, Altitude
    | AltitudeGeopotential, AltitudeGeopotential | Velocity1, Velocity1 | Velocity2, Velocity2
    | Velocity3, Velocity3 | VelocityNorm, VelocityNorm | VelocityPlanet1, VelocityPlanet1
    | VelocityPlanet2, VelocityPlanet2 | VelocityPlanet3, VelocityPlanet3
    | VelocityPlanetNorm, VelocityPlanetNorm | VelocityAtmosphere1, VelocityAtmosphere1
    | VelocityAtmosphere2, VelocityAtmosphere2 | VelocityAtmosphere3, VelocityAtmosphere3
    | VelocityAtmosphereNorm, VelocityAtmosphereNorm | Acceleration1, Acceleration1
    | Acceleration2, Acceleration2 | Acceleration3, Acceleration3 | AccelerationNorm, AccelerationNorm
    | ThrustForceBody1, ThrustForceBody1 | ThrustForceBody2, ThrustForceBody2
    | ThrustForceBody3, ThrustForceBody3 | ThrustForceBodyNorm, ThrustForceBodyNorm
    | AeroForceBody1, AeroForceBody1 | AeroForceBody2, AeroForceBody2 | AeroForceBody3, AeroForceBody3
    | AeroForceBodyNorm, AeroForceBodyNorm | VehicleAccelerationBody1, VehicleAccelerationBody1
    | VehicleAccelerationBody2, VehicleAccelerationBody2 | VehicleAccelerationBody3, VehicleAccelerationBody3
    | VehicleAccelerationBodyNorm, VehicleAccelerationBodyNorm
    | GravityAcceleration1, GravityAcceleration1 | GravityAcceleration2, GravityAcceleration2
    | GravityAcceleration3, GravityAcceleration3 | GravityAccelerationNorm, GravityAccelerationNorm
    | Mass, Mass | PropellantMass, PropellantMass | Massflow, Massflow | Temperature, Temperature
    | Pressure, Pressure | Density, Density | MachNumber, MachNumber | DynamicPressure, DynamicPressure
    | Alpha, Alpha | EulerAnglesRoll, EulerAnglesRoll | EulerAnglesYaw, EulerAnglesYaw
    | EulerAnglesPitch, EulerAnglesPitch | Throttle, Throttle => true
    | _, _ => false end) all_variables with
  | Some (_, id) => snake_case id
  | None => EmptyString
  end.
Lemma name_of_variable : forall v, variable_of_name (name_of v) = Some v.
Proof. intros v. destruct v; reflexivity. Qed.
Lemma variable_name : forall n v, variable_of_name n = Some v -> n = name_of v.
Proof.
  intros n v H. destruct (find_some_in _ _ _ H) as (id & A & <-). clear H.
  unfold all_variables in A. cbn [In] in A.
  repeat (destruct A as [A|A]; [injection A as <- <-; reflexivity|]). destruct A.
Qed.
(** Every name of the manual is accepted and selects the described quantity. *)
Theorem C42_manual : forall n q, In (n, q) manual_variables ->
  exists v, d_variable (N := N) (JStr n) = Some v /\ forall s : State N, get_value v s = q s.
Proof.
  intros n q H. unfold manual_variables in H. cbn [In] in H.
  repeat (destruct H as [H|H]; [injection H as <- <-; eexists; split; [reflexivity|intros s; reflexivity]|]).
  destruct H.
Qed.
(** The undocumented names read the quantity of that name. *)
Lemma undocumented_read : forall n q, In (n, q) undocumented_variables ->
  exists v, d_variable (N := N) (JStr n) = Some v /\ forall s : State N, get_value v s = q s.
Proof.
  intros n q H. unfold undocumented_variables in H. cbn [In] in H.
  repeat (destruct H as [H|H]; [injection H as <- <-; eexists; split; [reflexivity|intros s; reflexivity]|]).
  destruct H.
Qed.
(** Exactly these names and the undocumented ones are accepted. *)
Lemma name_of_listed : forall v,
  existsb (String.eqb (name_of v)) (map fst (manual_variables ++ undocumented_variables)) = true.
Proof. intros v. destruct v; vm_compute; reflexivity. Qed.
Theorem C42_accepted : forall n, (exists v, d_variable (N := N) (JStr n) = Some v) <->
  In n (map fst (manual_variables ++ undocumented_variables)).
Proof.
  intros n. split.
  - intros [v H]. assert (E := variable_name n v H). rewrite E.
    assert (X := name_of_listed v). apply existsb_exists in X. destruct X as (m & A & B).
    apply String.eqb_eq in B. rewrite B. exact A.
  - intros H. apply in_map_iff in H. destruct H as ([n' q] & E & H). cbn [fst] in E. subst n'.
    apply in_app_or in H. destruct H as [H|H].
    + destruct (C42_manual n q H) as (v & A & _). exists v. exact A.
    + destruct (undocumented_read n q H) as (v & A & _). exists v. exact A.
Qed.
(** Names are unambiguous: different names stand for different variables, a name stands for
    one variable. *)
Theorem C42_unambiguous : forall n1 n2 v1 v2, d_variable (N := N) (JStr n1) = Some v1 ->
  d_variable (N := N) (JStr n2) = Some v2 -> (n1 = n2 <-> v1 = v2).
Proof.
  intros n1 n2 v1 v2 H1 H2. split; [intros ->; congruence|intros ->].
  now rewrite (variable_name _ _ H1), (variable_name _ _ H2).
Qed.
(** The undocumented names are not in the manual. *)
Theorem C42_undocumented : forall n q q', In (n, q) undocumented_variables -> ~ In (n, q') manual_variables.
Proof.
  intros n q q' H G.
  assert (A : In n (map fst undocumented_variables)) by (apply (in_map fst _ _ H)).
  assert (B : In n (map fst manual_variables)) by (apply (in_map fst _ _ G)). clear H G.
  assert (C : forallb (fun x => negb (existsb (String.eqb x) (map fst manual_variables))) (map fst undocumented_variables) = true)
    by (vm_compute; reflexivity).
  rewrite forallb_forall in C. specialize (C n A). apply negb_true_iff in C.
  assert (D : existsb (String.eqb n) (map fst manual_variables) = true).
  { apply existsb_exists. exists n. split; [exact B|apply String.eqb_refl]. }
  congruence.
Qed.

(** ** C43 *)
(** Accepted names of planet models; the name of the manual for the Fisher model is not
    among them. *)
Theorem C43_names : forall n c, d_planet (N := N) (JStr n) = Some c <->
  (n = "spherical"%string /\ c = Spherical) \/ (n = "fisher1960"%string /\ c = Fisher1960) \/
  (n = "smithsonian"%string /\ c = Smithsonian).
Proof.
  intros n c. cbn [d_planet]. unfold planet_of_name.
  change (snake_case "Spherical") with "spherical"%string.
  change (snake_case "Fisher1960") with "fisher1960"%string.
  change (snake_case "Smithsonian") with "smithsonian"%string.
  split.
  - destruct (String.eqb_spec n "spherical") as [->|_]; [intros [= <-]; auto|].
    destruct (String.eqb_spec n "fisher1960") as [->|_]; [intros [= <-]; auto|].
    destruct (String.eqb_spec n "smithsonian") as [->|_]; [intros [= <-]; auto|]. discriminate.
  - intros [[-> ->]|[[-> ->]|[-> ->]]]; reflexivity.
Qed.
Theorem C43_refuted : d_planet (N := N) (JStr "fisher_1960"%string) = None.
Proof. reflexivity. Qed.
(** The custom model takes the given values. *)
Theorem C43_custom : forall Re Rp mu j2 j3 j4 w : N,
  option_map planet_update_with_config
    (d_planet (JObj [("custom"%string, JObj [
      ("equatorial_radius"%string, JNum Re); ("polar_radius"%string, JNum Rp);
      ("gravitational_parameters"%string, JArr [JNum mu; JNum j2; JNum j3; JNum j4]);
      ("rotation_rate"%string, JNum w)])])) =
  Some (mkPlanet Re Rp (mu, j2, j3, j4) w).
Proof. reflexivity. Qed.

(** ** C44 *)
Lemma mem_In : forall k l, mem k l = true <-> In k l.
Proof.
  intros k l. unfold mem. rewrite existsb_exists. split.
  - intros [x [H E]]. apply String.eqb_eq in E. congruence.
  - intros H. exists k. split; [exact H|apply String.eqb_refl].
Qed.
Lemma no_dup_NoDup : forall l, no_dup l = true <-> NoDup l.
Proof.
  induction l as [|k l IH]; cbn [no_dup]; [split; [constructor|reflexivity]|].
  rewrite andb_true_iff, negb_true_iff, IH. split.
  - intros [A B]. constructor; [|exact B]. intros C. apply mem_In in C. congruence.
  - intros H. inversion H as [|? ? A B]; subst. split; [|exact B].
    destruct (mem k l) eqn:E; [|reflexivity]. apply mem_In in E. contradiction.
Qed.
Lemma lookup_None : forall k (l : list (string * json N)), ~ In k (map fst l) -> lookup k l = None.
Proof.
  intros k l. induction l as [|[k' v] l IH]; intros H; [reflexivity|]. cbn [lookup].
  destruct (String.eqb_spec k k') as [->|E]; [exfalso; apply H; left; reflexivity|].
  apply IH. intros G. apply H. right. exact G.
Qed.
Lemma lookup_In : forall k v (l : list (string * json N)), NoDup (map fst l) -> In (k, v) l -> lookup k l = Some v.
Proof.
  intros k v l. induction l as [|[k' v'] l IH]; intros D H; [destruct H|]. cbn [lookup].
  cbn [map fst] in D. inversion D as [|? ? D1 D2]; subst.
  destruct H as [E|H].
  - injection E as -> ->. now rewrite String.eqb_refl.
  - destruct (String.eqb_spec k k') as [->|E]; [|now apply IH].
    exfalso. apply D1. apply (in_map fst _ _ H).
Qed.
Lemma lookup_Some : forall k v (l : list (string * json N)), lookup k l = Some v -> In (k, v) l.
Proof.
  intros k v l. induction l as [|[k' v'] l IH]; intros H; [discriminate|]. cbn [lookup] in H.
  destruct (String.eqb_spec k k') as [->|E]; [left; congruence|right; auto].
Qed.
Lemma lookup_perm : forall k (l l' : list (string * json N)), Permutation l l' -> NoDup (map fst l) ->
  lookup k l = lookup k l'.
Proof.
  intros k l l' P D. destruct (lookup k l) as [v|] eqn:E.
  - apply lookup_Some in E. symmetry. apply lookup_In.
    + apply (Permutation_NoDup (Permutation_map fst P) D).
    + apply (Permutation_in _ P E).
  - destruct (lookup k l') as [v|] eqn:E'; [|reflexivity]. apply lookup_Some in E'.
    apply (Permutation_in _ (Permutation_sym P)) in E'. rewrite (lookup_In _ _ _ D E') in E. discriminate.
Qed.
Lemma fields_perm : forall names (l l' : list (string * json N)), Permutation l l' ->
  fields_of names (JObj l) = fields_of names (JObj l').
Proof.
  intros names l l' P. unfold fields_of. cbv zeta.
  assert (A : forall a b : list (string * json N), Permutation a b ->
    forallb (fun k => mem k names) (map fst a) && no_dup (map fst a) = true ->
    forallb (fun k => mem k names) (map fst b) && no_dup (map fst b) = true).
  { intros a b Q H. apply andb_prop in H. destruct H as [H1 H2]. apply andb_true_intro. split.
    - rewrite forallb_forall in *. intros x Hx. apply H1.
      apply (Permutation_in _ (Permutation_map fst (Permutation_sym Q)) Hx).
    - apply no_dup_NoDup. apply no_dup_NoDup in H2. apply (Permutation_NoDup (Permutation_map fst Q) H2). }
  destruct (forallb (fun k => mem k names) (map fst l) && no_dup (map fst l)) eqn:E.
  - rewrite (A _ _ P E). f_equal. f_equal. apply map_ext. intros k. apply lookup_perm; [exact P|].
    apply andb_prop in E. now apply no_dup_NoDup.
  - destruct (forallb (fun k => mem k names) (map fst l') && no_dup (map fst l')) eqn:E'; [|reflexivity].
    rewrite (A _ _ (Permutation_sym P) E') in E. discriminate.
Qed.

(** The decoders of objects with their keys. *)
Definition any {A} (d : json N -> option A) (j : json N) : bool :=
  match d j with Some _ => true | None => false end.
Inductive object_decoder : (json N -> bool) -> list string -> Prop :=
| od_phase : object_decoder (any d_phase) ["init"; "vehicle"; "steering"; "planet_model"; "atmosphere";
    "max_acceleration"; "stepsize"; "end_criterion"]%string
| od_vehicle : object_decoder (any d_vehicle) ["structure_mass"; "propellant_mass"; "reference_area";
    "drag_coeff"; "lift_coeff"; "side_force_coeff"; "engines"]%string
| od_steering : object_decoder (any d_steering) ["roll"; "yaw"; "pitch"]%string
| od_atmosphere : object_decoder (any d_atmosphere) ["enabled"; "wind"]%string
| od_init : object_decoder (any d_init) ["latitude"; "longitude"; "azimuth"; "altitude"]%string
| od_engine : object_decoder (any d_engine) ["incidence"; "thrust_vac"; "isp_vac"; "exit_area"]%string
| od_custom : object_decoder (any d_custom) ["equatorial_radius"; "polar_radius";
    "gravitational_parameters"; "rotation_rate"]%string
| od_table : object_decoder (any d_table) ["x"; "y"; "z"; "data"; "interpolator"]%string
| od_planet : object_decoder (any d_planet) ["spherical"; "fisher1960"; "smithsonian"; "custom"]%string.

Lemma fields_strict : forall names (l : list (string * json N)) r, fields_of names (JObj l) = Some r ->
  NoDup (map fst l) /\ (forall k, In k (map fst l) -> In k names) /\ r = (true, map (fun n => lookup n l) names).
Proof.
  intros names l r H. cbn [fields_of] in H.
  destruct (forallb (fun k => mem k names) (map fst l) && no_dup (map fst l)) eqn:E; [|discriminate].
  apply andb_prop in E. destruct E as [E1 E2]. split; [now apply no_dup_NoDup|]. split; [|congruence].
  intros k Hk. rewrite forallb_forall in E1. apply mem_In. now apply E1.
Qed.
Lemma bind_fields : forall A names (l : list (string * json N)) (f : bool * list (option (json N)) -> option A) a,
  opt_bind (fields_of names (JObj l)) f = Some a ->
  NoDup (map fst l) /\ (forall k, In k (map fst l) -> In k names) /\ f (true, map (fun n => lookup n l) names) = Some a.
Proof.
  intros A names l f a H. destruct (fields_of names (JObj l)) as [r|] eqn:E; [|discriminate].
  destruct (fields_strict _ _ _ E) as (D & K & ->). auto.
Qed.
Lemma table_cases : forall j t, d_table (N := N) j = Some t ->
  (exists u, t = D1 u /\ d_table1 j = Some u) \/ (exists u, t = D2 u /\ d_table2 j = Some u) \/
  (exists u, t = D3 u /\ d_table3 j = Some u).
Proof.
  intros j t H. unfold d_table in H. destruct (d_table1 j) as [u|]; [injection H as <-; eauto|].
  destruct (d_table2 j) as [u|]; [injection H as <-; eauto|].
  destruct (d_table3 j) as [u|]; [injection H as <-; eauto|discriminate].
Qed.
(** Objects with unknown or repeated keys are rejected, at every level. *)
Theorem C44_strict : forall d names (l : list (string * json N)), object_decoder d names -> d (JObj l) = true ->
  NoDup (map fst l) /\ forall k, In k (map fst l) -> In k names.
Proof.
  intros d names l H E. destruct H; unfold any in E;
    match type of E with match ?d ?j with _ => _ end = true => destruct (d j) as [a|] eqn:F; [clear E|discriminate] end;
    try (apply bind_fields in F; destruct F as (A & B & _); split; assumption).
  - destruct (table_cases _ _ F) as [(u & _ & G)|[(u & _ & G)|(u & _ & G)]];
      apply bind_fields in G; destruct G as (A & B & _); split; try assumption; intros k Hk; specialize (B k Hk); cbn in *; tauto.
  - cbn [d_planet] in F. destruct l as [|[k v] [|kv l]]; try discriminate.
    change (snake_case "Custom") with "custom"%string in F.
    split; [repeat constructor; intros []|].
    intros k' [<-|[]]. cbn [fst]. destruct (String.eqb_spec k "custom") as [->|_]; [cbn; auto|].
    destruct v; try discriminate. apply (proj1 (C43_names k a)) in F.
    destruct F as [[-> _]|[[-> _]|[-> _]]]; cbn; auto.
Qed.
(** The order of the keys is irrelevant. *)
Theorem C44_order : forall l l' : list (string * json N), Permutation l l' ->
  d_phase (JObj l) = d_phase (JObj l') /\ d_vehicle (JObj l) = d_vehicle (JObj l') /\
  d_steering (JObj l) = d_steering (JObj l') /\ d_atmosphere (JObj l) = d_atmosphere (JObj l') /\
  d_init (JObj l) = d_init (JObj l') /\ d_engine (JObj l) = d_engine (JObj l') /\
  d_custom (JObj l) = d_custom (JObj l') /\ d_table (JObj l) = d_table (JObj l') /\
  d_planet (JObj l) = d_planet (JObj l').
Proof.
  intros l l' P.
  assert (F := fun names => fields_perm names l l' P).
  assert (Pl : d_planet (JObj l) = d_planet (JObj l')).
  { destruct l as [|a [|b l]].
    - apply Permutation_nil in P. now subst.
    - apply Permutation_length_1_inv in P. now subst.
    - assert (L := Permutation_length P). destruct l' as [|c [|e l']]; cbn in L; try lia.
      destruct a, c. reflexivity. }
  unfold d_table, d_phase, d_vehicle, d_steering, d_atmosphere, d_init, d_engine, d_custom, d_table1, d_table2, d_table3.
  rewrite !F. repeat split; exact Pl.
Qed.

(** null *)
Lemma lookup_null : forall k k' (l1 l2 : list (string * json N)), k <> k' ->
  lookup k (l1 ++ (k', JNull) :: l2) = lookup k (l1 ++ l2).
Proof.
  intros k k' l1 l2 H. induction l1 as [|[a v] l1 IH]; cbn [app lookup].
  - destruct (String.eqb_spec k k'); [contradiction|reflexivity].
  - now rewrite IH.
Qed.
Lemma lookup_null_same : forall k (l1 l2 : list (string * json N)), ~ In k (map fst (l1 ++ l2)) ->
  lookup k (l1 ++ (k, JNull) :: l2) = Some JNull /\ lookup k (l1 ++ l2) = None.
Proof.
  intros k l1 l2 H. split; [|now apply lookup_None].
  rewrite map_app, in_app_iff in H. induction l1 as [|[a v] l1 IH]; cbn [app lookup].
  - now rewrite String.eqb_refl.
  - destruct (String.eqb_spec k a) as [->|_]; [exfalso; apply H; left; left; reflexivity|].
    apply IH. intros [G|G]; apply H; [left; right; exact G|right; exact G].
Qed.
(** Two field values that an optional field treats alike. *)
Inductive alike : option (json N) -> option (json N) -> Prop :=
| alike_refl : forall v, alike v v
| alike_null : alike (Some JNull) None.
Lemma alike_opt : forall A (d : json N -> option A) v v', alike v v' -> opt true d v = opt true d v'.
Proof. intros A d v v' H. destruct H; reflexivity. Qed.
Lemma fields_null : forall names k (l1 l2 : list (string * json N)), In k names -> ~ In k (map fst (l1 ++ l2)) ->
  (fields_of names (JObj (l1 ++ (k, JNull) :: l2)) = None /\ fields_of names (JObj (l1 ++ l2)) = None) \/
  exists f f', fields_of names (JObj (l1 ++ (k, JNull) :: l2)) = Some (true, map f names) /\
    fields_of names (JObj (l1 ++ l2)) = Some (true, map f' names) /\ forall n, alike (f n) (f' n).
Proof.
  intros names k l1 l2 Hk Hn. unfold fields_of. cbv zeta.
  assert (E : forallb (fun x => mem x names) (map fst (l1 ++ (k, JNull) :: l2)) && no_dup (map fst (l1 ++ (k, JNull) :: l2))
            = forallb (fun x => mem x names) (map fst (l1 ++ l2)) && no_dup (map fst (l1 ++ l2))).
  { assert (M : mem k names = true) by now apply mem_In.
    rewrite !map_app in *. cbn [map fst]. rewrite !forallb_app. cbn [forallb]. rewrite M. cbn [andb].
    destruct (forallb _ (map fst l1) && forallb _ (map fst l2)); [|reflexivity]. cbn [andb].
    apply eq_true_iff_eq. rewrite !no_dup_NoDup. split.
    - apply NoDup_remove_1.
    - intros D. apply (Permutation_NoDup (l := k :: map fst l1 ++ map fst l2)); [apply Permutation_middle|].
      now constructor. }
  rewrite E. destruct (forallb _ (map fst (l1 ++ l2)) && _); [|left; auto].
  right. exists (fun n => lookup n (l1 ++ (k, JNull) :: l2)), (fun n => lookup n (l1 ++ l2)).
  split; [reflexivity|]. split; [reflexivity|]. intros n.
  destruct (string_dec n k) as [->|D].
  - destruct (lookup_null_same k l1 l2 Hn) as [-> ->]. constructor.
  - rewrite lookup_null by exact D. constructor.
Qed.
(** Setting a parameter to null is the same as not specifying it, in all sections whose
    parameters are optional. *)
Theorem C44_null : forall (l1 l2 : list (string * json N)) k, ~ In k (map fst (l1 ++ l2)) ->
  let nulled := JObj (l1 ++ (k, JNull) :: l2) in let omitted := JObj (l1 ++ l2) in
  (In k ["init"; "vehicle"; "steering"; "planet_model"; "atmosphere"; "max_acceleration"; "stepsize";
     "end_criterion"]%string -> d_phase nulled = d_phase omitted) /\
  (In k ["structure_mass"; "propellant_mass"; "reference_area"; "drag_coeff"; "lift_coeff"; "side_force_coeff";
     "engines"]%string -> d_vehicle nulled = d_vehicle omitted) /\
  (In k ["roll"; "yaw"; "pitch"]%string -> d_steering nulled = d_steering omitted) /\
  (In k ["enabled"; "wind"]%string -> d_atmosphere nulled = d_atmosphere omitted).
Proof.
  intros l1 l2 k Hn nulled omitted.
  split; [|split; [|split]]; intros Hk; unfold nulled, omitted, d_phase, d_vehicle, d_steering, d_atmosphere;
    destruct (fields_null _ k l1 l2 Hk Hn) as [[-> ->]|(f & f' & -> & -> & A)]; try reflexivity; cbn [opt_bind map];
    repeat match goal with |- context [opt true ?d (f ?n)] => rewrite (alike_opt _ d (f n) (f' n) (A n)) end; reflexivity.
Qed.

(** The dimension of a table is given by its keys. *)
Theorem C44_table_dimension : forall (l : list (string * json N)) t, d_table (JObj l) = Some t ->
  In "x"%string (map fst l) /\ In "data"%string (map fst l) /\
  match t with
  | D1 _ => ~ In "y"%string (map fst l) /\ ~ In "z"%string (map fst l)
  | D2 _ => In "y"%string (map fst l) /\ ~ In "z"%string (map fst l)
  | D3 _ => In "y"%string (map fst l) /\ In "z"%string (map fst l)
  end.
Proof.
  intros l t H.
  assert (R : forall A (d : json N -> option A) k, (exists a, req d (lookup k l) = Some a) -> In k (map fst l)).
  { intros A d k [a E]. destruct (lookup k l) as [v|] eqn:F; [|discriminate].
    apply lookup_Some in F. apply (in_map fst _ _ F). }
  destruct (table_cases _ _ H) as [(u & -> & G)|[(u & -> & G)|(u & -> & G)]];
    apply bind_fields in G; destruct G as (_ & B & G); cbn [map] in G.
  - destruct (req d_axis (lookup "x" l)) as [a1|] eqn:E1; [|discriminate].
    destruct (req (d_list d_f64) (lookup "data" l)) as [a2|] eqn:E2; [|discriminate].
    split; [eapply R; eauto|]. split; [eapply R; eauto|].
    split; intros K; specialize (B _ K); cbn in B; intuition discriminate.
  - destruct (req d_axis (lookup "x" l)) as [a1|] eqn:E1; [|discriminate].
    destruct (req d_axis (lookup "y" l)) as [a3|] eqn:E3; [|discriminate].
    destruct (req (d_list (d_list d_f64)) (lookup "data" l)) as [a2|] eqn:E2; [|discriminate].
    split; [eapply R; eauto|]. split; [eapply R; eauto|]. split; [eapply R; eauto|].
    intros K; specialize (B _ K); cbn in B; intuition discriminate.
  - destruct (req d_axis (lookup "x" l)) as [a1|] eqn:E1; [|discriminate].
    destruct (req d_axis (lookup "y" l)) as [a3|] eqn:E3; [|discriminate].
    destruct (req d_axis (lookup "z" l)) as [a4|] eqn:E4; [|discriminate].
    destruct (req (d_list (d_list (d_list d_f64))) (lookup "data" l)) as [a2|] eqn:E2; [|discriminate].
    split; [eapply R; eauto|]. split; [eapply R; eauto|]. split; eapply R; eauto.
Qed.

(** Every configuration can be written down: a document for it, and the decoder reads it
    back. *)
Definition e_variable (v : StateVariable) : json N := JStr (name_of v).
Definition e_list {A} (e : A -> json N) (l : list A) : json N := JArr (map e l).
Definition e_option {A} (e : A -> json N) (o : option A) : json N :=
  match o with Some a => e a | None => JNull end.
Definition e_axis (x : StateVariable * list N) : json N := JArr [e_variable (fst x); e_list JNum (snd x)].
Definition e_table (t : Table N) : json N :=
  match t with
  | D1 t => JObj [("x"%string, e_axis (t1_x t)); ("data"%string, e_list JNum (t1_data t))]
  | D2 t => JObj [("x"%string, e_axis (t2_x t)); ("y"%string, e_axis (t2_y t));
                  ("data"%string, e_list (e_list JNum) (t2_data t))]
  | D3 t => JObj [("x"%string, e_axis (t3_x t)); ("y"%string, e_axis (t3_y t)); ("z"%string, e_axis (t3_z t));
                  ("data"%string, e_list (e_list (e_list JNum)) (t3_data t))]
  end.
Definition e_engine (e : Engine N) : json N :=
  JObj [("incidence"%string, JArr [JNum (fst (en_incidence e)); JNum (snd (en_incidence e))]);
        ("thrust_vac"%string, JNum (en_thrust_vac e)); ("isp_vac"%string, JNum (en_isp_vac e));
        ("exit_area"%string, JNum (en_exit_area e))].
Definition e_vec (v : vec3 N) : json N := JArr [JNum (vx v); JNum (vy v); JNum (vz v)].
Definition e_planet (c : PlanetConfig N) : json N :=
  match c with
  | Spherical => JStr "spherical"
  | Fisher1960 => JStr "fisher1960"
  | Smithsonian => JStr "smithsonian"
  | Custom a b (g0, g1, g2, g3) w => JObj [("custom"%string, JObj [("equatorial_radius"%string, JNum a);
      ("polar_radius"%string, JNum b);
      ("gravitational_parameters"%string, JArr [JNum g0; JNum g1; JNum g2; JNum g3]);
      ("rotation_rate"%string, JNum w)])]
  end.
Definition e_atmosphere (c : AtmosphereConfig N) : json N :=
  JObj [("enabled"%string, e_option JBool (ac_enabled c)); ("wind"%string, e_option e_vec (ac_wind c))].
Definition e_init (c : InitConfig N) : json N :=
  JObj [("latitude"%string, JNum (ic_latitude c)); ("longitude"%string, JNum (ic_longitude c));
        ("azimuth"%string, JNum (ic_azimuth c)); ("altitude"%string, JNum (ic_altitude c))].
Definition e_vehicle (c : VehicleConfig N) : json N :=
  JObj [("structure_mass"%string, e_option JNum (vc_structure_mass c));
        ("propellant_mass"%string, e_option JNum (vc_propellant_mass c));
        ("reference_area"%string, e_option JNum (vc_reference_area c));
        ("drag_coeff"%string, e_option e_table (vc_drag_coeff c));
        ("lift_coeff"%string, e_option e_table (vc_lift_coeff c));
        ("side_force_coeff"%string, e_option e_table (vc_side_force_coeff c));
        ("engines"%string, e_option (e_list e_engine) (vc_engines c))].
Definition e_poly (x : StateVariable * vec3 N) : json N := JArr [e_variable (fst x); e_vec (snd x)].
Definition e_steering (c : SteeringConfig N) : json N :=
  JObj [("roll"%string, e_option e_poly (sc_roll c)); ("yaw"%string, e_option e_poly (sc_yaw c));
        ("pitch"%string, e_option e_poly (sc_pitch c))].
Definition e_phase (c : PhaseConfig N) : json N :=
  JObj [("init"%string, e_option e_init (pc_init c)); ("vehicle"%string, e_option e_vehicle (pc_vehicle c));
        ("steering"%string, e_option e_steering (pc_steering c));
        ("planet_model"%string, e_option e_planet (pc_planet_model c));
        ("atmosphere"%string, e_option e_atmosphere (pc_atmosphere c));
        ("max_acceleration"%string, e_option JNum (pc_max_acceleration c));
        ("stepsize"%string, e_option JNum (pc_stepsize c));
        ("end_criterion"%string, e_option (fun x => JArr [e_variable (fst x); JNum (snd x)]) (pc_end_criterion c))].

Lemma de_list : forall A (e : A -> json N) d l, (forall a, In a l -> d (e a) = Some a) -> d_list d (e_list e l) = Some l.
Proof.
  intros A e d l H. unfold d_list, e_list. induction l as [|a l IH]; [reflexivity|].
  cbn [map mapM]. rewrite (H a (or_introl eq_refl)). cbn [opt_bind].
  rewrite IH by (intros b Hb; apply H; right; exact Hb). reflexivity.
Qed.
Lemma de_option : forall A (e : A -> json N) d o, (forall a, o = Some a -> e a <> JNull /\ d (e a) = Some a) ->
  d_option d (e_option e o) = Some o.
Proof.
  intros A e d [a|] H; [|reflexivity]. destruct (H a eq_refl) as [X Y]. cbn [e_option].
  unfold d_option. destruct (e a) eqn:E; [contradiction|rewrite Y; reflexivity..].
Qed.
Lemma de_axis : forall x, d_axis (e_axis x) = Some x.
Proof.
  intros [v l]. unfold d_axis, e_axis, d_pair. cbn [fst snd].
  change (d_variable (e_variable v)) with (variable_of_name (name_of v)). rewrite name_of_variable. cbn [opt_bind].
  rewrite (de_list N JNum d_f64) by reflexivity. reflexivity.
Qed.
Lemma de_table : forall t, accepted t -> d_table (e_table t) = Some t.
Proof.
  intros t H.
  assert (L1 : forall l, d_list d_f64 (e_list JNum l) = Some l) by (intros l; now apply de_list).
  assert (L2 : forall l, d_list (d_list d_f64) (e_list (e_list JNum) l) = Some l) by (intros l; apply de_list; auto).
  assert (L3 : forall l, d_list (d_list (d_list d_f64)) (e_list (e_list (e_list JNum)) l) = Some l)
    by (intros l; apply de_list; auto).
  destruct t as [t|t|t]; cbn [accepted] in H.
  - destruct H as (x & data & i & H). assert (E := H). apply C17_table1_accepted in E. destruct E as [_ ->].
    unfold e_table, d_table, d_table1. cbn [t1_x t1_data fields_of map fst forallb mem existsb no_dup lookup
      String.eqb Ascii.eqb Bool.eqb andb orb negb opt_bind req dflt].
    rewrite de_axis, L1. cbn [opt_bind]. destruct i. rewrite H. reflexivity.
  - destruct H as (x & y & data & i & H). assert (E := H). apply C17_table2_accepted in E. destruct E as [_ ->].
    unfold e_table, d_table.
    match goal with |- match d_table1 ?j with _ => _ end = _ => assert (Z : d_table1 j = None) by reflexivity; rewrite Z end.
    unfold d_table2. cbn [t2_x t2_y t2_data fields_of map fst forallb mem existsb no_dup lookup
      String.eqb Ascii.eqb Bool.eqb andb orb negb opt_bind req dflt].
    rewrite !de_axis. cbn [opt_bind]. rewrite L2. cbn [opt_bind]. destruct i. rewrite H. reflexivity.
  - destruct H as (x & y & z & data & i & H). assert (E := H). apply C17_table3_accepted in E. destruct E as [_ ->].
    unfold e_table, d_table.
    match goal with |- match d_table1 ?j with _ => _ end = _ => assert (Z : d_table1 j = None) by reflexivity; rewrite Z end.
    match goal with |- match d_table2 ?j with _ => _ end = _ => assert (Z' : d_table2 j = None) by reflexivity; rewrite Z' end.
    unfold d_table3. cbn [t3_x t3_y t3_z t3_data fields_of map fst forallb mem existsb no_dup lookup
      String.eqb Ascii.eqb Bool.eqb andb orb negb opt_bind req dflt].
    rewrite !de_axis. cbn [opt_bind]. rewrite ?de_axis. cbn [opt_bind].
    rewrite L3. cbn [opt_bind]. destruct i. rewrite H. reflexivity.
Qed.
(** The tables of a configuration file are checked like those built by hand: the document
    describing a table is read back exactly if the table is well formed, and whatever document
    is read, the table it yields is well formed. *)
Definition well_formed (t : Table N) : Prop :=
  match t with
  | D1 u => well_formed1 (snd (t1_x u)) (t1_data u)
  | D2 u => well_formed2 (snd (t2_x u)) (snd (t2_y u)) (t2_data u)
  | D3 u => well_formed3 (snd (t3_x u)) (snd (t3_y u)) (snd (t3_z u)) (t3_data u)
  end.
Lemma accepted_well_formed : forall t : Table N, accepted t <-> well_formed t.
Proof.
  intros [t|t|t]; cbn [accepted well_formed]; split.
  - intros (x & d & i & H). apply C17_table1_accepted in H. destruct H as [H ->]. exact H.
  - intros H. exists (t1_x t), (t1_data t), (t1_interp t). apply C17_table1_accepted. split; [exact H|]. now destruct t.
  - intros (x & y & d & i & H). apply C17_table2_accepted in H. destruct H as [H ->]. exact H.
  - intros H. exists (t2_x t), (t2_y t), (t2_data t), (t2_interp t). apply C17_table2_accepted. split; [exact H|]. now destruct t.
  - intros (x & y & z & d & i & H). apply C17_table3_accepted in H. destruct H as [H ->]. exact H.
  - intros H. exists (t3_x t), (t3_y t), (t3_z t), (t3_data t), (t3_interp t). apply C17_table3_accepted. split; [exact H|]. now destruct t.
Qed.
Lemma de_table_same : forall t t', d_table (e_table t) = Some t' -> t' = t.
Proof.
  intros t t' H.
  assert (L1 : forall l, d_list d_f64 (e_list JNum l) = Some l) by (intros l; now apply de_list).
  assert (L2 : forall l, d_list (d_list d_f64) (e_list (e_list JNum) l) = Some l) by (intros l; apply de_list; auto).
  assert (L3 : forall l, d_list (d_list (d_list d_f64)) (e_list (e_list (e_list JNum)) l) = Some l)
    by (intros l; apply de_list; auto).
  destruct t as [[x d i]|[x y d i]|[x y z d i]].
  - unfold e_table, d_table in H.
    match type of H with context [d_table1 ?j] => assert (Z : d_table1 j = result_ok (t1_try_new x d Linear)) end.
    { unfold d_table1. cbn [t1_x t1_data fields_of map fst forallb mem existsb no_dup lookup
      String.eqb Ascii.eqb Bool.eqb andb orb negb opt_bind req dflt].
      rewrite de_axis, L1. reflexivity. }
    rewrite Z in H. destruct (t1_try_new x d Linear) as [u|] eqn:T.
    + cbn [result_ok] in H. injection H as <-. apply C17_table1_accepted in T. destruct T as [_ ->]. now destruct i.
    + cbn [result_ok] in H.
      match type of H with context [d_table2 ?j] => assert (Z2 : d_table2 j = None) by (unfold d_table2; cbn [t1_x t1_data t2_x t2_y t2_data fields_of map fst forallb mem existsb no_dup lookup
      String.eqb Ascii.eqb Bool.eqb andb orb negb opt_bind req dflt]; rewrite ?de_axis; cbn [opt_bind]; rewrite ?de_axis;
      reflexivity); rewrite Z2 in H end.
      match type of H with context [d_table3 ?j] => assert (Z3 : d_table3 j = None) by (unfold d_table3; cbn [t1_x t1_data t2_x t2_y t2_data fields_of map fst forallb mem existsb no_dup lookup
      String.eqb Ascii.eqb Bool.eqb andb orb negb opt_bind req dflt]; rewrite ?de_axis; cbn [opt_bind]; rewrite ?de_axis;
      reflexivity); rewrite Z3 in H end.
      discriminate.
  - unfold e_table, d_table in H.
    match type of H with context [d_table1 ?j] => assert (Z : d_table1 j = None) by reflexivity; rewrite Z in H end.
    match type of H with context [d_table2 ?j] => assert (Z2 : d_table2 j = result_ok (t2_try_new x y d Linear)) end.
    { unfold d_table2. cbn [t2_x t2_y t2_data fields_of map fst forallb mem existsb no_dup lookup
      String.eqb Ascii.eqb Bool.eqb andb orb negb opt_bind req dflt].
      rewrite !de_axis. cbn [opt_bind]. rewrite L2. reflexivity. }
    rewrite Z2 in H. destruct (t2_try_new x y d Linear) as [u|] eqn:T.
    + cbn [result_ok] in H. injection H as <-. apply C17_table2_accepted in T. destruct T as [_ ->]. now destruct i.
    + cbn [result_ok] in H.
      match type of H with context [d_table3 ?j] => assert (Z3 : d_table3 j = None) by (unfold d_table3; cbn [t1_x t1_data t2_x t2_y t2_data fields_of map fst forallb mem existsb no_dup lookup
      String.eqb Ascii.eqb Bool.eqb andb orb negb opt_bind req dflt]; rewrite ?de_axis; cbn [opt_bind]; rewrite ?de_axis;
      reflexivity); rewrite Z3 in H end.
      discriminate.
  - unfold e_table, d_table in H.
    match type of H with context [d_table1 ?j] => assert (Z : d_table1 j = None) by reflexivity; rewrite Z in H end.
    match type of H with context [d_table2 ?j] => assert (Z2 : d_table2 j = None) by reflexivity; rewrite Z2 in H end.
    match type of H with context [d_table3 ?j] => assert (Z3 : d_table3 j = result_ok (t3_try_new x y z d Linear)) end.
    { unfold d_table3. cbn [t3_x t3_y t3_z t3_data fields_of map fst forallb mem existsb no_dup lookup
      String.eqb Ascii.eqb Bool.eqb andb orb negb opt_bind req dflt].
      rewrite !de_axis. cbn [opt_bind]. rewrite ?de_axis. cbn [opt_bind]. rewrite L3. reflexivity. }
    rewrite Z3 in H. destruct (t3_try_new x y z d Linear) as [u|] eqn:T; cbn [result_ok option_map] in H; [|discriminate].
    injection H as <-. apply C17_table3_accepted in T. destruct T as [_ ->]. now destruct i.
Qed.
Theorem C17_document : forall t t' : Table N, d_table (e_table t) = Some t' <-> t' = t /\ well_formed t.
Proof.
  intros t t'. split.
  - intros H. assert (E := de_table_same t t' H). subst t'. split; [reflexivity|].
    apply accepted_well_formed, (d_table_accepted _ _ H).
  - intros [-> W]. apply de_table, accepted_well_formed, W.
Qed.
Theorem C17_decoded : forall j (t : Table N), d_table j = Some t -> well_formed t.
Proof. intros j t H. apply accepted_well_formed, (d_table_accepted _ _ H). Qed.
Lemma de_engine : forall e, d_engine (e_engine e) = Some e.
Proof. intros [[a b] c d e]. reflexivity. Qed.
Lemma de_planet : forall c, d_planet (e_planet c) = Some c.
Proof. intros [ | | |a b [[[g0 g1] g2] g3] w]; reflexivity. Qed.
Lemma de_vec : forall v, d_arr3 (e_vec v) = Some v.
Proof. intros [a b c]. reflexivity. Qed.
Lemma de_init : forall c, d_init (e_init c) = Some c.
Proof. intros [a b c d]. reflexivity. Qed.
Lemma e_table_not_null : forall t, e_table t <> JNull.
Proof. intros [t|t|t]; discriminate. Qed.
Ltac fields := cbn [fields_of map fst forallb mem existsb no_dup lookup
      String.eqb Ascii.eqb Bool.eqb andb orb negb opt_bind opt].
Lemma de_atmosphere : forall c, d_atmosphere (e_atmosphere c) = Some c.
Proof.
  intros [a b]. unfold d_atmosphere, e_atmosphere. fields. cbn [ac_enabled ac_wind].
  rewrite (de_option _ JBool d_bool) by (intros; split; [discriminate|reflexivity]). cbn [opt_bind].
  rewrite (de_option _ e_vec d_arr3) by (intros; split; [discriminate|apply de_vec]). reflexivity.
Qed.
Lemma de_poly : forall x, d_pair d_variable d_arr3 (e_poly x) = Some x.
Proof.
  intros [v c]. unfold d_pair, e_poly. cbn [fst snd].
  change (d_variable (e_variable v)) with (variable_of_name (name_of v)). rewrite name_of_variable. cbn [opt_bind].
  rewrite de_vec. reflexivity.
Qed.
Lemma de_steering : forall c, d_steering (e_steering c) = Some c.
Proof.
  intros [a b c]. unfold d_steering, e_steering. fields. cbn [sc_roll sc_yaw sc_pitch].
  rewrite (de_option _ e_poly (d_pair d_variable d_arr3) a) by (intros; split; [discriminate|apply de_poly]). cbn [opt_bind].
  rewrite (de_option _ e_poly (d_pair d_variable d_arr3) b) by (intros; split; [discriminate|apply de_poly]). cbn [opt_bind].
  rewrite (de_option _ e_poly (d_pair d_variable d_arr3) c) by (intros; split; [discriminate|apply de_poly]). reflexivity.
Qed.
Lemma de_vehicle : forall c, (forall t, vc_drag_coeff c = Some t \/ vc_lift_coeff c = Some t \/ vc_side_force_coeff c = Some t -> accepted t) ->
  d_vehicle (e_vehicle c) = Some c.
Proof.
  intros [a b c d e f g] H. cbn [vc_drag_coeff vc_lift_coeff vc_side_force_coeff] in H.
  unfold d_vehicle, e_vehicle. fields.
  cbn [vc_structure_mass vc_propellant_mass vc_reference_area vc_drag_coeff vc_lift_coeff vc_side_force_coeff vc_engines].
  rewrite (de_option _ JNum d_f64 a) by (intros; split; [discriminate|reflexivity]). cbn [opt_bind].
  rewrite (de_option _ JNum d_f64 b) by (intros; split; [discriminate|reflexivity]). cbn [opt_bind].
  rewrite (de_option _ JNum d_f64 c) by (intros; split; [discriminate|reflexivity]). cbn [opt_bind].
  rewrite (de_option _ e_table d_table d) by (intros t ->; split; [apply e_table_not_null|apply de_table; auto]). cbn [opt_bind].
  rewrite (de_option _ e_table d_table e) by (intros t ->; split; [apply e_table_not_null|apply de_table; auto]). cbn [opt_bind].
  rewrite (de_option _ e_table d_table f) by (intros t ->; split; [apply e_table_not_null|apply de_table; auto]). cbn [opt_bind].
  rewrite (de_option _ (e_list e_engine) (d_list d_engine) g); [reflexivity|].
  intros; split; [discriminate|]. apply de_list. intros; apply de_engine.
Qed.
Lemma de_phase : forall c, configured_tables_accepted c -> d_phase (e_phase c) = Some c.
Proof.
  intros [a b c d e f g h] H. unfold d_phase, e_phase. fields.
  cbn [pc_init pc_vehicle pc_steering pc_planet_model pc_atmosphere pc_max_acceleration pc_stepsize pc_end_criterion].
  rewrite (de_option _ e_init d_init a) by (intros; split; [discriminate|apply de_init]). cbn [opt_bind].
  rewrite (de_option _ e_vehicle d_vehicle b)
    by (intros v ->; split; [discriminate|apply de_vehicle; intros t; apply (H v t eq_refl)]). cbn [opt_bind].
  rewrite (de_option _ e_steering d_steering c) by (intros; split; [discriminate|apply de_steering]). cbn [opt_bind].
  rewrite (de_option _ e_planet d_planet d)
    by (intros p _; split; [destruct p as [ | | |? ? [[[? ?] ?] ?] ?]; discriminate|apply de_planet]). cbn [opt_bind].
  rewrite (de_option _ e_atmosphere d_atmosphere e) by (intros; split; [discriminate|apply de_atmosphere]). cbn [opt_bind].
  rewrite (de_option _ JNum d_f64 f) by (intros; split; [discriminate|reflexivity]). cbn [opt_bind].
  rewrite (de_option _ JNum d_f64 g) by (intros; split; [discriminate|reflexivity]). cbn [opt_bind].
  rewrite (de_option _ _ (d_pair d_variable d_f64) h); [reflexivity|].
  intros [v x] _. split; [discriminate|]. unfold d_pair. cbn [fst snd].
  change (d_variable (e_variable v)) with (variable_of_name (name_of v)). rewrite name_of_variable. reflexivity.
Qed.
Theorem C44_roundtrip : forall cs : list (PhaseConfig N), Forall configured_tables_accepted cs ->
  d_simulation (e_list e_phase cs) = Some cs.
Proof.
  intros cs H. apply de_list. intros c Hc. apply de_phase. rewrite Forall_forall in H. now apply H.
Qed.
(** ... and nothing but configurations with well-formed tables is ever read. *)
Theorem C44_decoded : forall j (cs : list (PhaseConfig N)), d_simulation j = Some cs ->
  Forall configured_tables_accepted cs /\ d_simulation (e_list e_phase cs) = Some cs.
Proof.
  intros j cs H. assert (A := decoded_tables_accepted j cs H). split; [exact A|]. now apply C44_roundtrip.
Qed.
End Generic.

Section Exact.
Context {rot : mat3 xr -> mat3 xr}.
Notation N := (XR rot).
Local Open Scope R_scope.
(** C43: the constants of the named models, in SI units (converted from feet). *)
Definition foot : R := 3048 / 10000.
Definition planet_is (p : Planet N) (Re Rp mu j2 j3 j4 w : R) : Prop :=
  p = mkPlanet (N := N) (Fin Re) (Fin Rp) (Fin mu, Fin j2, Fin j3, Fin j4) (Fin w).
Theorem C43_constants :
  planet_is (planet_update_with_config Spherical) (20925741 * foot) (20925741 * foot)
    (14076539 * 10 ^ 9 * foot ^ 3) 0 0 0 (729211 / 10 ^ 10) /\
  planet_is (planet_update_with_config Fisher1960) (20925741 * foot) (20855590 * foot)
    (14076539 * 10 ^ 9 * foot ^ 3) (10823 / 10 ^ 7) 0 0 (729211 / 10 ^ 10) /\
  planet_is (planet_update_with_config Smithsonian) (20925741 * foot) (20855590 * foot)
    (1407645794 * 10 ^ 7 * foot ^ 3) (1082639 / 10 ^ 9) (-2565 / 10 ^ 9) (-1608 / 10 ^ 9) (729211 / 10 ^ 10).
Proof.
  unfold planet_is, foot, planet_update_with_config, EARTH_SPHERICAL, EARTH_FISHER_1960, EARTH_SMITHSONIAN,
    CUBIC_METER_PER_CUBIC_FOOT, METER_PER_FOOT. xrs.
  split; [|split]; f_equal; repeat f_equal; try (f_equal; lra); lra.
Qed.
(** The custom model that the manual presents as the Smithsonian model (project.tex:472-484) is
    another one: its gravitational parameter is more than three times that of the
    Smithsonian model. *)
Theorem C43_manual_custom_refuted : exists mu mu',
  gp0 (planet_update_with_config (N := N) Smithsonian) = Fin mu /\
  gp0 (planet_update_with_config (N := N) (Custom (N := N) (Fin (63781658568 / 10 ^ 4)) (Fin (6356783832 / 10 ^ 3))
    (Fin (13077457350581376 / 10), Fin (1082639 / 10 ^ 9), Fin (-2565 / 10 ^ 9), Fin (-1608 / 10 ^ 9)) (Fin (729211 / 10 ^ 10)))) = Fin mu' /\
  3 * mu < mu'.
Proof.
  destruct C43_constants as (_ & _ & E). unfold planet_is in E. rewrite E. unfold gp0. cbn [pl_gravitational_parameters planet_update_with_config].
  eexists. eexists. split; [reflexivity|]. split; [reflexivity|]. unfold foot. lra.
Qed.
End Exact.
