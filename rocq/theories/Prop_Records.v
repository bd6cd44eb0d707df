(** * C03, C05, C06, C22, C24, C46: the laws hold between the numbers of every record

    The theorems on single functions, stated for the records of simulations. *)
From Coq Require Import ZArith List Reals Lra Lia Bool.
From Coquelicot Require Import Coquelicot.
From Coq Require Import List.
From Verif Require Import Num Constants State Tables Config Planet Atmosphere Transformations
  Steering Vehicle RungeKutta Phase Simulation XR XRFacts SpecReal SystemFacts SystemTotal RunFacts
  PhaseNew Prop_Run Prop_Gravity Prop_Planet Prop_Frames Prop_Throttle Prop_Mass Prop_MassLimited
  DemoExact.
Import ListNotations.
Local Open Scope R_scope.

Section Exact.
Context {rot : mat3 xr -> mat3 xr}.
Notation N := (XR rot).

(** The gravity of a record is the gradient of the potential at the position of the record. *)
Theorem C03_records : forall (cs : list (PhaseConfig N)) (p : Phase N) s Re Rp mu J2 J3 J4 w r,
  reported cs p s -> real_planet (ph_planet p) Re Rp mu J2 J3 J4 w -> st_position s = finv r -> r <> zeroR ->
  exists g, st_gravity_acceleration s = finv g /\ gradient (potential mu J2 J3 J4 Re) r g.
Proof.
  intros cs p s Re Rp mu J2 J3 J4 w r H HG Hr Nz. destruct (C37_reported cs p s H) as [s0 X]. apply eom_equations in X.
  rewrite (q_gravity _ _ _ X), Hr. exact (C03_gradient _ _ _ _ _ _ _ _ r HG Nz).
Qed.
(** The altitude of a record is the height of its position above the ellipsoid along the radius, and the
    geopotential altitude belongs to that altitude. *)
Theorem C05_records : forall (cs : list (PhaseConfig N)) (p : Phase N) s Re Rp r,
  reported cs p s -> radii (ph_planet p) Re Rp -> st_position s = finv r -> r <> zeroR ->
  exists d, 0 < d /\ level Re Rp (scaleR (d / normR r) r) = 1 /\ st_altitude s = Fin (normR r - d).
Proof.
  intros cs p s Re Rp r H HG Hr Nz. destruct (C37_reported cs p s H) as [s0 X]. apply eom_equations in X.
  rewrite (q_altitude _ _ _ X), Hr. exact (C05_radial_height _ _ _ r HG Nz).
Qed.
Theorem C06_records : forall (cs : list (PhaseConfig N)) (p : Phase N) s Re Rp r h,
  reported cs p s -> radii (ph_planet p) Re Rp -> st_position s = finv r -> st_altitude s = Fin h ->
  h <> - ((Re + Rp) / 2) ->
  let RA := (Re + Rp) / 2 in st_altitude_geopotential s = Fin (RA * h / (RA + h)).
Proof.
  intros cs p s Re Rp r h H HG Hr Hh Hne. destruct (C37_reported cs p s H) as [s0 X]. apply eom_equations in X.
  rewrite (q_altitude _ _ _ X), Hr in Hh. rewrite (q_altitude_geopotential _ _ _ X), Hr. exact (C06_geopotential _ _ _ r h HG Hh Hne).
Qed.
(** The throttle of a record is the largest one that keeps the limit at the mass, the pressure and the
    aerodynamic force of the record. *)
Theorem C22_records : forall (cs : list (PhaseConfig N)) (p : Phase N) s es L m P aero,
  reported cs p s -> engines_are (ph_vehicle p) es -> ph_max_acceleration p = Fin L ->
  st_mass s = Fin m -> st_pressure s = Fin P -> st_aero_force_body s = finv aero -> normR aero <= L * m ->
  exists th, st_throttle s = Fin th /\ 0 <= th <= 1 /\ load aero (full_thrust es P) th <= L * m /\
    (forall t, 0 <= t <= 1 -> load aero (full_thrust es P) t <= L * m -> t <= th) /\
    (th < 1 -> load aero (full_thrust es P) th = L * m).
Proof.
  intros cs p s es L m P aero H He HL Hm HP Ha HB. destruct (C37_reported cs p s H) as [s0 X]. apply eom_equations in X.
  rewrite (q_throttle _ _ _ X), HL, Hm, HP, Ha. apply C22_largest_throttle; [exact He| |exact HB].
  eapply Rle_trans; [|exact HB]. unfold normR. apply sqrt_pos.
Qed.
(** The thrust and the mass flow of a record are those of the configured engines at the throttle and
    the pressure of the record. *)
Theorem C24_records : forall (cs : list (PhaseConfig N)) (p : Phase N) s es th P,
  reported cs p s -> engines_are (ph_vehicle p) es -> st_throttle s = Fin th -> st_pressure s = Fin P ->
  st_thrust_force_body s = finv (scaleR th (full_thrust es P)) /\
  (Forall (fun e => isp e <> 0) es -> st_massflow s = Fin (- (th * full_flow es))).
Proof.
  intros cs p s es th P H He Ht HP. destruct (C37_reported cs p s H) as [s0 X]. apply eom_equations in X. split.
  - rewrite (q_thrust _ _ _ X), Ht, HP. now apply C24_thrust.
  - intros F. rewrite (q_massflow _ _ _ X), Ht. now apply C24_massflow.
Qed.
(** Planet-relative position and velocity, and airspeed, of a record. *)
Theorem C46_records : rot_contract rot -> forall (cs : list (PhaseConfig N)) (p : Phase N) s w t r v wind,
  reported cs p s -> pl_rotation_rate (ph_planet p) = Fin w -> st_time s = Fin t -> st_position s = finv r ->
  st_velocity s = finv v -> at_wind (ph_atmosphere p) = finv wind ->
  exists q, st_position_planet s = finv q /\ normR q = normR r /\ vz q = vz r /\
    st_velocity_planet s = finv (subR v (crossR (V3 0 0 w) r)) /\
    st_velocity_atmosphere s = finv (subR (subR v (crossR (V3 0 0 w) r)) wind).
Proof.
  intros Hrot cs p s w t r v wind H Hw Ht Hr Hv Hwind. destruct (C37_reported cs p s H) as [s0 X]. apply eom_equations in X.
  destruct (C46_position_planet (rot := rot) Hrot t w r) as (q & E & A & B). exists q.
  assert (V : st_velocity_planet s = finv (subR v (crossR (V3 0 0 w) r))).
  { rewrite (q_velocity_planet _ _ _ X), Hr, Hv. now apply C46_velocity_planet. }
  split; [rewrite (q_position_planet _ _ _ X), Ht, Hw, Hr; exact E|]. split; [exact A|]. split; [exact B|]. split; [exact V|].
  rewrite (q_velocity_atmosphere _ _ _ X), V, Hwind. unfold vsub. xrs. reflexivity.
Qed.

(** The burn limited to 50 m/s^2 meets the hypotheses of C22_records and C24_records with a throttle
    of at most a half; the glider those of C03_records, C05_records, C06_records and C46_records. *)
Example C22_records_nonvacuous : exists (p : Phase N) s m th, reported [limited_config] p s /\ engines_are (ph_vehicle p) [burn_engine] /\
  ph_max_acceleration p = Fin 50 /\ st_mass s = Fin m /\ st_pressure s = Fin 0 /\ st_aero_force_body s = finv zeroR /\
  normR zeroR <= 50 * m /\ st_throttle s = Fin th /\ th <= 1 / 2.
Proof.
  destruct (ex_limited_burn (rot := rot)) as (p & h & q & t & m & th & a & _ & _ & _ & Hr & HL & _ & _ & Em & Bm & Et & Bt & _ & _ & He & Ha).
  destruct (C37_reported _ _ _ Hr) as [s0 X]. apply eom_equations in X. destruct (no_atmosphere_forces _ _ _ Ha X) as [P A].
  exists p, (ph_state q), m, th. split; [exact Hr|]. split; [exact He|]. split; [exact HL|]. split; [exact Em|]. split; [exact P|].
  split; [exact A|]. split; [|now split].
  unfold normR, dotR, zeroR. cbn [vx vy vz]. replace (0 * 0 + 0 * 0 + 0 * 0) with 0 by ring. rewrite sqrt_0. lra.
Qed.
Example C03_records_nonvacuous : rot_contract rot -> exists cs (p : Phase N) s t, reported cs p s /\
  real_planet (ph_planet p) 6000000 6000000 (4 * 10 ^ 14) 0 0 0 0 /\ radii (ph_planet p) 6000000 6000000 /\
  st_time s = Fin t /\ st_position s = finv (V3 6000000 0 0) /\ st_velocity s = finv zeroR /\ st_altitude s = Fin 0 /\
  at_wind (ph_atmosphere p) = finv (V3 (-50) 0 (-10)).
Proof.
  intros Hrot. destruct (the_glide Hrot 0) as (p & s & G). 
  assert (R : radii (ph_planet p) 6000000 6000000) by (rewrite (g_phase _ _ _ G); split; [reflexivity|split; [reflexivity|lra]]).
  exists [glide_config 0], p, s, 0. split; [apply G|]. split; [rewrite (g_phase _ _ _ G); reflexivity|]. split; [exact R|].
  split; [rewrite (q_time _ _ _ (g_equations _ _ _ G)), (g_phase _ _ _ G); reflexivity|]. split; [apply G|]. split; [apply G|].
  split; [|rewrite (g_phase _ _ _ G); reflexivity].
  rewrite (q_altitude _ _ _ (g_equations _ _ _ G)), (g_position _ _ _ G).
  destruct (C05_sign (ph_planet p) 6000000 6000000 (V3 6000000 0 0) R) as (h & E & A & _); [intros Z; injection Z; lra|].
  rewrite E. apply (f_equal Fin). apply A. unfold level. cbn [vx vy vz]. field.
Qed.
End Exact.
