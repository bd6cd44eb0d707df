(** * Findings, as executions in binary64

    Statements of the property list that the code violates, each refuted by a
    simulation that is executed here in IEEE arithmetic.  All launches are at latitude 0,
    longitude 0 and azimuth 0 on a planet that does not rotate, without atmosphere, so that
    the mathematical library is consulted at zero angles only; the refutations hold for
    every library that is [standard_at_zero]. *)
From Coq Require Import ZArith List Bool FunctionalExtensionality Reals Lra.
From Flocq Require Import Core BinarySingleNaN.
From Verif Require Import Num Constants State Tables Config Planet Atmosphere Transformations
  Steering Vehicle RungeKutta Phase Simulation B64 B64Facts SystemFacts RKFacts RunFacts PhaseNew
  Prop_Run.
Import ListNotations.

(** The matrix is the identity (up to the signs of zeros). *)
Definition is_identity (m : mat3 b64) : bool :=
  let z (x : b64) := Beqb x (b64_lit 0 0) in
  let o (x : b64) := Beqb x (b64_lit 1 0) in
  o (vx (row0 m)) && z (vy (row0 m)) && z (vz (row0 m)) &&
  z (vx (row1 m)) && o (vy (row1 m)) && z (vz (row1 m)) &&
  z (vx (row2 m)) && z (vy (row2 m)) && o (vz (row2 m)).
Record standard_at_zero (lm : libm) : Prop := {
  z_sin : forall s, lm_sin lm (B754_zero s) = B754_zero s;
  z_cos : forall s, lm_cos lm (B754_zero s) = b64_lit 1 0;
  z_tan : forall s, lm_tan lm (B754_zero s) = B754_zero s;
  z_asin : forall s, lm_asin lm (B754_zero s) = B754_zero s;
  z_atan : forall s, lm_atan lm (B754_zero s) = B754_zero s;
  z_powf : forall y, lm_powf lm (b64_lit 1 0) y = b64_lit 1 0;
  z_rot : forall m, is_identity m = true -> lm_rot lm m = m }.

Definition zlm (lm : libm) : libm := {|
  lm_sin := fun x => match x with B754_zero s => B754_zero s | _ => lm_sin lm x end;
  lm_cos := fun x => match x with B754_zero _ => b64_lit 1 0 | _ => lm_cos lm x end;
  lm_tan := fun x => match x with B754_zero s => B754_zero s | _ => lm_tan lm x end;
  lm_asin := fun x => match x with B754_zero s => B754_zero s | _ => lm_asin lm x end; lm_acos := lm_acos lm;
  lm_atan := fun x => match x with B754_zero s => B754_zero s | _ => lm_atan lm x end;
  lm_exp := lm_exp lm;
  lm_powf := fun x y => if Beqb x (b64_lit 1 0) then b64_lit 1 0 else lm_powf lm x y;
  lm_rot := fun m => if is_identity m then m else lm_rot lm m |}.
Lemma Beqb_one : forall x, Beqb x (b64_lit 1 0) = true -> x = b64_lit 1 0.
Proof.
  intros x H. assert (F : is_finite (b64_lit 1 0) = true) by (vm_compute; reflexivity).
  assert (S : is_finite_strict (b64_lit 1 0) = true) by (vm_compute; reflexivity).
  assert (Fx : is_finite x = true).
  { destruct x as [b|b| |b m e B]; try reflexivity; revert H F; generalize (b64_lit 1 0); intros o H F.
    - destruct o as [b'|b'| |b' m' e' B']; try discriminate; destruct b; discriminate.
    - destruct o as [b'|b'| |b' m' e' B']; discriminate. }
  rewrite Beqb_correct in H by assumption. revert H.
  destruct (Raux.Req_bool_spec (B2R x) (B2R (b64_lit 1 0))) as [E|E]; [intros _|discriminate].
  apply B2R_inj; [|exact S|exact E].
  destruct lit_1 as [L _]. rewrite L in E.
  destruct x as [b|b| |b m e B]; try reflexivity; try discriminate Fx.
  exfalso. change (0 = 1)%R in E. lra.
Qed.
Lemma zlm_eq : forall lm, standard_at_zero lm -> zlm lm = lm.
Proof.
  intros [s c t as_ ac at_ e p r] [Hs Hc Ht Has Ha Hp Hr]. unfold zlm. cbn -[b64_lit] in *. f_equal; apply functional_extensionality.
  - intros [b|b| |b m x B]; auto.
  - intros [b|b| |b m x B]; auto.
  - intros [b|b| |b m x B]; auto.
  - intros [b|b| |b m x B]; auto.
  - intros [b|b| |b m x B]; auto.
  - intros x. apply functional_extensionality. intros y. destruct (Beqb x (b64_lit 1 0)) eqn:E; [|reflexivity].
    apply Beqb_one in E. subst x. symmetry. apply Hp.
  - intros m. destruct (is_identity m) eqn:E; [|reflexivity]. symmetry. now apply Hr.
Qed.
(** There is such a library. *)
Example ex_standard_at_zero : exists lm, standard_at_zero lm.
Proof.
  exists {| lm_sin := fun x => x; lm_cos := fun _ => b64_lit 1 0; lm_tan := fun x => x;
    lm_asin := fun x => x; lm_acos := fun x => x; lm_atan := fun x => x;
    lm_exp := fun x => x; lm_powf := fun _ _ => b64_lit 1 0; lm_rot := fun m => m |}.
  constructor; auto.
Qed.

Definition two_records {N : Num} (r : list (event N) * status (Phase N)) (f : State N -> State N -> bool) : bool :=
  match r with
  | ([EPhase _; ERecord s1; ERecord s2], Finished _) => f s1 s2
  | _ => false
  end.
Lemma two_records_inv : forall (N : Num) r (f : State N -> State N -> bool), two_records r f = true ->
  exists i s1 s2 q, r = ([EPhase i; ERecord s1; ERecord s2], Finished q) /\ f s1 s2 = true.
Proof.
  intros N [ev st] f H. unfold two_records in H.
  destruct ev as [|[i|] ev]; try discriminate. destruct ev as [|[|s1] ev]; try discriminate.
  destruct ev as [|[|s2] ev]; try discriminate. destruct ev as [|e ev]; try discriminate.
  destruct st as [q| |]; try discriminate. exists i, s1, s2, q. auto.
Qed.

Section Runs.
Variable lm : libm.
Notation ZN := (B64 (zlm lm)).
Notation L := b64_lit.

(** A launch at (0, 0, 0); [structure], [propellant] and [engines] as given. *)
Definition site : option (InitConfig ZN) := Some (mkInitConfig (N := ZN) (L 0 0) (L 0 0) (L 0 0) (L 0 0)).
Definition still_planet : option (PlanetConfig ZN) :=
  Some (Custom (N := ZN) (L 6378166 0) (L 6378166 0) (L 3986032 8, L 0 0, L 0 0, L 0 0) (L 0 0)).
Definition vehicle_of (structure propellant : Z) (engines : list (Engine ZN)) : option (VehicleConfig ZN) :=
  Some (mkVehicleConfig (N := ZN) (Some (L structure 0)) (Some (L propellant 0)) None None None None (Some engines)).
Definition vacuum_of : option (AtmosphereConfig ZN) := Some (mkAtmosphereConfig (N := ZN) (Some false) None).

(** ** C35: a time that has passed already *)
Definition back_config : PhaseConfig ZN :=
  mkPhaseConfig (N := ZN) site (vehicle_of 100 0 []) None still_planet vacuum_of None None (Some (Time, L (-5) 0)).
Definition back_check : bool :=
  two_records (simulate 10 [back_config]) (fun s1 s2 =>
      Beqb (st_time s1 : b64) (L 0 0) && Beqb (st_time s2 : b64) (L (-5) 0)).
Lemma back_checked : back_check = true.
Proof. vm_compute. reflexivity. Qed.

(** ** C27: thrust without propellant *)
Definition engine_of (thrust isp : Z) : Engine ZN := mkEngine (N := ZN) (L 0 0, L 0 0) (L thrust 0) (L isp 0) (L 0 0).
Definition dry_config : PhaseConfig ZN :=
  mkPhaseConfig (N := ZN) site (vehicle_of 100 10 [engine_of 100000 300]) None still_planet vacuum_of None None
    (Some (Time, L 2 0)).
Definition dry_check : bool :=
  two_records (simulate 10 [dry_config]) (fun s1 s2 =>
      Bltb (st_propellant_mass s1 : b64) (L (-20) 0) && Beqb (vx (st_thrust_force_body s1) : b64) (L 100000 0) &&
      Bltb (st_mass s2 : b64) (L 50 0) && Beqb (vx (st_thrust_force_body s2) : b64) (L 100000 0)).
Lemma dry_checked : dry_check = true.
Proof. vm_compute. reflexivity. Qed.

(** ** C29: the step size of the configuration *)
Definition stepsize_config : PhaseConfig ZN :=
  mkPhaseConfig (N := ZN) site (vehicle_of 100 0 []) None still_planet vacuum_of None (Some (L 10 0))
    (Some (Time, L 2 0)).
Definition stepsize_check : bool :=
  two_records (simulate 10 [stepsize_config]) (fun s1 s2 =>
      Beqb (st_time s1 : b64) (L 1 0) && Beqb (st_time s2 : b64) (L 2 0)).
Lemma stepsize_checked : stepsize_check = true.
Proof. vm_compute. reflexivity. Qed.

(** ** C51: drag with airflow from behind (an updraft over the launch pad) *)
Definition updraft_config : PhaseConfig ZN :=
  mkPhaseConfig (N := ZN) site
    (Some (mkVehicleConfig (N := ZN) (Some (L 100 0)) (Some (L 0 0)) (Some (L 1 0))
       (Some (D1 (mkT1 (N := ZN) (MachNumber, [L 0 0]) [L 1 0] Linear)))
       (Some (D1 (mkT1 (N := ZN) (MachNumber, [L 0 0]) [L 0 0] Linear))) None None))
    None still_planet
    (Some (mkAtmosphereConfig (N := ZN) (Some true) (Some (V3 (L 50 0) (L 0 0) (L 0 0))))) None None (Some (Time, L 2 0)).
Definition updraft_check : bool :=
  match phase_new None updraft_config with
  | Ret p => match system (reset p) (ph_state (reset p)) with
      | Ret s => Beqb (vx (st_velocity_atmosphere s) : b64) (L (-50) 0) && Bltb (vx (st_aero_force_body s) : b64) (L (-1000) 0)
      | Panic _ => false
      end
  | Panic _ => false
  end.
Lemma updraft_checked : updraft_check = true.
Proof. vm_compute. reflexivity. Qed.
End Runs.

Local Notation L := b64_lit.
(** A launch whose end criterion [time = -5] has passed already: the second record is
    5 seconds before the first. *)
Theorem C35_refuted : forall lm, standard_at_zero lm ->
  exists (c : PhaseConfig (B64 lm)) i s1 s2 q,
    simulate 10 [c] = ([EPhase i; ERecord s1; ERecord s2], Finished q) /\
    Beqb (st_time s1 : b64) (L 0 0) = true /\ Beqb (st_time s2 : b64) (L (-5) 0) = true.
Proof.
  intros lm H. rewrite <- (zlm_eq lm H). clear H.
  destruct (two_records_inv _ _ _ (back_checked lm)) as (i & s1 & s2 & q & E & F).
  apply andb_prop in F. destruct F as [F1 F2].
  exists (back_config lm), i, s1, s2, q. split; [exact E|]. split; [exact F1|exact F2].
Qed.
(** A vehicle of 100 kg with 10 kg of propellant: after one second the propellant mass is
    below -20 kg, after two seconds the vehicle weighs less than 50 kg, and all the while
    the engine delivers its full thrust. *)
Theorem C27_refuted : forall lm, standard_at_zero lm ->
  exists (c : PhaseConfig (B64 lm)) v i s1 s2 q,
    pc_vehicle c = Some v /\ vc_structure_mass v = Some (L 100 0) /\ vc_propellant_mass v = Some (L 10 0) /\
    simulate 10 [c] = ([EPhase i; ERecord s1; ERecord s2], Finished q) /\
    Bltb (st_propellant_mass s1 : b64) (L (-20) 0) = true /\
    Beqb (vx (st_thrust_force_body s1) : b64) (L 100000 0) = true /\
    Bltb (st_mass s2 : b64) (L 50 0) = true /\
    Beqb (vx (st_thrust_force_body s2) : b64) (L 100000 0) = true.
Proof.
  intros lm H. rewrite <- (zlm_eq lm H). clear H.
  destruct (two_records_inv _ _ _ (dry_checked lm)) as (i & s1 & s2 & q & E & F).
  apply andb_prop in F. destruct F as [F F4]. apply andb_prop in F. destruct F as [F F3].
  apply andb_prop in F. destruct F as [F1 F2].
  exists (dry_config lm). eexists. exists i, s1, s2, q.
  split; [reflexivity|]. split; [reflexivity|]. split; [reflexivity|].
  split; [exact E|]. split; [exact F1|]. split; [exact F2|]. split; [exact F3|exact F4].
Qed.
(** Step size 10 is configured, but the records are one second apart. *)
Theorem C29_refuted : forall lm, standard_at_zero lm ->
  exists (c : PhaseConfig (B64 lm)) i s1 s2 q,
    pc_stepsize c = Some (L 10 0) /\
    simulate 10 [c] = ([EPhase i; ERecord s1; ERecord s2], Finished q) /\
    Beqb (st_time s1 : b64) (L 1 0) = true /\ Beqb (st_time s2 : b64) (L 2 0) = true.
Proof.
  intros lm H. rewrite <- (zlm_eq lm H). clear H.
  destruct (two_records_inv _ _ _ (stepsize_checked lm)) as (i & s1 & s2 & q & E & F).
  apply andb_prop in F. destruct F as [F1 F2].
  exists (stepsize_config lm), i, s1, s2, q.
  split; [reflexivity|]. split; [exact E|]. split; [exact F1|exact F2].
Qed.
(** A vehicle at rest on the pad in an updraft of 50 m/s: the air moves up relative to the
    vehicle, the vehicle moves down relative to the air, and the drag pulls it further
    down with more than 1000 N. *)
Lemma updraft_inv : forall (N : Num) (c : PhaseConfig N) f,
  match phase_new None c with
  | Ret p => match system (reset p) (ph_state (reset p)) with Ret s => f s | Panic _ => false end
  | Panic _ => false
  end = true -> exists (p : Phase N) s, begins [c] p /\ initial p s /\ f s = true.
Proof.
  intros N c f H. destruct (phase_new None c) as [p|e] eqn:Hn; [|discriminate].
  destruct (system (reset p) (ph_state (reset p))) as [s|] eqn:Hs; [|discriminate].
  exists (reset p), s. split; [apply begins_first; exact Hn|]. auto.
Qed.
Theorem C51_updraft_refuted : forall lm, standard_at_zero lm ->
  exists (c : PhaseConfig (B64 lm)) (p : Phase (B64 lm)) s, begins [c] p /\ initial p s /\
    Beqb (vx (st_velocity_atmosphere s) : b64) (L (-50) 0) = true /\
    Bltb (vx (st_aero_force_body s) : b64) (L (-1000) 0) = true.
Proof.
  intros lm H. rewrite <- (zlm_eq lm H). clear H.
  destruct (updraft_inv _ (updraft_config lm) (fun s => Beqb (vx (st_velocity_atmosphere s) : b64) (L (-50) 0)
    && Bltb (vx (st_aero_force_body s) : b64) (L (-1000) 0)) (updraft_checked lm)) as (p & s & B & I & F).
  apply andb_prop in F. destruct F as [F1 F2].
  exists (updraft_config lm), p, s. split; [exact B|]. split; [exact I|]. split; [exact F1|exact F2].
Qed.
