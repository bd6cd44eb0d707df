(** * C02: the launch frame of a simulation is the one of its launch site

    [Phase::init] stores the launch frame, and every later phase keeps it. *)
From Coq Require Import ZArith List Reals Lra Lia Bool.
From Coquelicot Require Import Coquelicot.
From Coq Require Import List.
From Verif Require Import Num Constants State Tables Config Planet Atmosphere Transformations
  Steering Vehicle RungeKutta Phase Simulation XR XRFacts SpecReal SystemFacts SystemTotal RunFacts
  PhaseNew Prop_Run Prop_Gravity Prop_Planet Prop_Frames Prop_Mass Prop_MassLimited Prop_RealSim DemoExact.
Import ListNotations.
Local Open Scope R_scope.

(** All phases of a simulation share the launch frame of the first one. *)
Lemma launch_kept : forall {N : Num} (cs : list (PhaseConfig N)) (p : Phase N), begins cs p ->
  forall c rest, cs = c :: rest -> exists p1 : Phase N, begins [c] p1 /\ ph_launch p = ph_launch p1.
Proof.
  intros N cs p B. induction B as [c p Hn|cs p fuel h q c p' B IH R Hn]; intros c0 rest E.
  - injection E as <- _. exists (reset p). split; [now apply begins_first|reflexivity].
  - destruct cs as [|c1 cs]; [inversion B; destruct cs; discriminate|].
    injection E as <- _. destruct (IH c1 cs eq_refl) as (p1 & B1 & E1). exists p1. split; [exact B1|].
    destruct (C28_state q c p' Hn) as (_ & L & _). rewrite L, <- E1.
    assert (S := C28_run_keeps_parameters fuel p h q (or_introl R)). unfold same_parameters in S.
    intuition congruence.
Qed.
Lemma first_unique : forall {N : Num} (c : PhaseConfig N) (p q : Phase N), begins [c] p -> begins [c] q -> p = q.
Proof.
  intros N c p q Hp Hq.
  assert (G : forall x : Phase N, begins [c] x -> exists y, phase_new None c = Ret y /\ x = reset y).
  { intros x Hx. remember [c] as l eqn:E. destruct Hx as [c' y Hn|cs y fuel h r c' z B R Hn].
    - injection E as ->. eauto.
    - destruct cs as [|a cs]; [inversion B; destruct cs; discriminate|]. destruct cs; discriminate. }
  destruct (G p Hp) as (y & Y & ->). destruct (G q Hq) as (z & Z & ->). congruence.
Qed.

Section Exact.
Context {rot : mat3 xr -> mat3 xr}.
Notation N := (XR rot).

(** In every phase the launch frame stands at the place where the vehicle started: its latitude and
    longitude are those of the initial position, its azimuth the configured one. *)
Theorem C02_mission : forall (c : PhaseConfig N) cs (p1 p : Phase N) Re Rp w lat long az alt,
  begins [c] p1 -> radii (ph_planet p1) Re Rp -> pl_rotation_rate (ph_planet p1) = Fin w ->
  pc_init c = Some (mkInitConfig (N := N) (Fin lat) (Fin long) (Fin az) alt) -> -90 < lat < 90 ->
  begins (c :: cs) p ->
  exists d g, 0 < d /\ - (PI / 2) < g < PI / 2 /\
    st_position (ph_state p1) = finv (scaleR d (up g (deg long))) /\
    ph_launch p = finv (V3 g (deg long) (deg az)).
Proof.
  intros c cs p1 p Re Rp w lat long az alt B1 HR Hw Hc Hlat B.
  destruct (launch_kept _ _ B c cs eq_refl) as (p2 & B2 & E2).
  rewrite (first_unique c p2 p1 B2 B1) in E2.
  destruct (begins_single c p1 B1) as [i [Ei Ep]]. rewrite Hc in Ei. injection Ei as <-.
  assert (HR' : radii (ph_planet (configured default_phase c)) Re Rp) by (rewrite Ep in HR; exact HR).
  assert (Hw' : pl_rotation_rate (ph_planet (configured default_phase c)) = Fin w) by (rewrite Ep in Hw; exact Hw).
  destruct (phase_init_fin (configured default_phase c) Re Rp w lat long az alt HR' Hw' Hlat) as (A & _ & L).
  set (k := Re / Rp * (Re / Rp)) in *. set (g := atan (k * k * tan (deg lat))) in *.
  set (d := Re / sqrt (1 + (k - 1) * (sin g * sin g))) in *.
  destruct HR as (_ & _ & HRe & HRp).
  destruct (site_level Re Rp g (deg long) HRe HRp) as (_ & Hd & _). fold k in Hd. fold d in Hd.
  exists d, g. split; [exact Hd|]. split.
  { destruct (atan_bound (k * k * tan (deg lat))) as [G1 G2]. fold g in G1, G2. lra. }
  split; [rewrite Ep; exact A|]. rewrite E2, Ep. exact L.
Qed.

(** In every record the sensed acceleration acts along the body axes obtained from the launch frame of
    the launch site ([up] through the initial position, [heading] by the configured azimuth) by the
    record's own roll, yaw and pitch. *)
Theorem C02_records : rot_contract rot -> forall (c : PhaseConfig N) cs (p1 p : Phase N) s Re Rp w lat long az alt
    roll yaw pitch,
  begins [c] p1 -> radii (ph_planet p1) Re Rp -> pl_rotation_rate (ph_planet p1) = Fin w ->
  pc_init c = Some (mkInitConfig (N := N) (Fin lat) (Fin long) (Fin az) alt) -> -90 < lat < 90 ->
  reported (c :: cs) p s -> st_euler_angles s = finv (V3 roll yaw pitch) ->
  exists d g L, 0 < d /\ - (PI / 2) < g < PI / 2 /\
    st_position (ph_state p1) = finv (scaleR d (up g (deg long))) /\
    mulvR L (up g (deg long)) = V3 1 0 0 /\
    mulvR L (heading g (deg long) (deg az)) = V3 0 0 1 /\
    mulvR L (crossR (heading g (deg long) (deg az)) (up g (deg long))) = V3 0 1 0 /\
    let attitude := mulmR (mulmR (Ry pitch) (mulmR (Rz yaw) (Rx roll))) L in
    st_acceleration s = vadd (N := N) (mulv (N := N) (finm (transposeR attitude)) (st_vehicle_acceleration_body s))
                             (st_gravity_acceleration s).
Proof.
  intros Hrot c cs p1 p s Re Rp w lat long az alt roll yaw pitch B1 HR Hw Hc Hlat H He.
  destruct (C37_reported _ p s H) as [s0 X]. apply eom_equations in X.
  destruct H as (cs1 & cs2 & fuel & h & st & Ec & B & _).
  assert (B' : exists rest, cs1 = c :: rest).
  { destruct cs1 as [|c1 cs1]; [inversion B; destruct cs0; discriminate|]. injection Ec as -> _. eauto. }
  destruct B' as [rest ->].
  destruct (C02_mission c rest p1 p Re Rp w lat long az alt B1 HR Hw Hc Hlat B) as (d & g & Hd & Hg & Er & El).
  destruct (C02_launch_frame Hrot g (deg long) (deg az)) as (L & E1 & E2 & E3 & E4).
  destruct (C02_inertial_to_body Hrot g (deg long) (deg az) roll yaw pitch) as (L' & B0 & F1 & F2 & F3).
  rewrite E1 in F1. rewrite (C02_body_frame Hrot) in F2.
  assert (Q : forall A A' : mat3 R, finm A = finm A' -> A = A').
  { intros [[a0 a1 a2] [a3 a4 a5] [a6 a7 a8]] [[b0 b1 b2] [b3 b4 b5] [b6 b7 b8]] Q. unfold finm, finv in Q. cbn in Q.
    injection Q. intros. subst. reflexivity. }
  apply Q in F1. apply Q in F2. subst L' B0.
  exists d, g, L. repeat (split; [assumption|]). cbv zeta.
  rewrite (q_acceleration _ _ _ X), El, He. unfold finv at 1 2. cbn [vx vy vz]. rewrite F3.
  rewrite transpose_fin. reflexivity.
Qed.

(** A launch at 28 degrees north, 10 degrees east, to the east; and a record of a vehicle in wind. *)
Example C02_mission_nonvacuous : exists (p : Phase N) Re Rp w, begins [limited_config] p /\
  radii (ph_planet p) Re Rp /\ pl_rotation_rate (ph_planet p) = Fin w /\ 0 < w /\
  pc_init (limited_config (rot := rot)) = Some (mkInitConfig (N := N) (Fin 28) (Fin 10) (Fin 90) (Fin 0)).
Proof.
  destruct (ex_limited_burn (rot := rot)) as (p & h & q & t & m & th & a & B & _).
  destruct (begins_single limited_config p B) as [i [_ Ep]].
  assert (E : ph_planet p = EARTH_SPHERICAL) by (rewrite Ep; reflexivity).
  destruct (spherical_real (rot := rot)) as (Re & Rp & mu & J2 & J3 & J4 & w & P & P1 & P2).
  exists p, Re, Rp, w. split; [exact B|]. rewrite E. unfold real_planet in P. 
  split; [rewrite P; split; [reflexivity|split; [reflexivity|split; assumption]]|].
  split; [rewrite P; reflexivity|]. split; [|reflexivity].
  assert (W : pl_rotation_rate (EARTH_SPHERICAL (N := N)) = Fin w) by (rewrite P; reflexivity).
  change (n_lit (n := N) 729211 (-10) = Fin w) in W. cbn [n_lit XR] in W. unfold xlit in W. injection W as <-.
  cbn. lra.
Qed.
Example C02_records_nonvacuous : rot_contract rot -> exists (c : PhaseConfig N) (p : Phase N) s,
  begins [c] p /\ radii (ph_planet p) 6000000 6000000 /\ pl_rotation_rate (ph_planet p) = Fin 0 /\
  pc_init c = Some (mkInitConfig (N := N) (Fin 0) (Fin 0) (Fin 0) (Fin 0)) /\
  reported [c] p s /\ st_euler_angles s = finv (V3 0 0 0).
Proof.
  intros Hrot. destruct (the_glide Hrot 0) as (p & s & G). exists (glide_config 0), p, s.
  split; [apply G|]. split; [rewrite (g_phase _ _ _ G); split; [reflexivity|split; [reflexivity|lra]]|].
  split; [rewrite (g_phase _ _ _ G); reflexivity|]. split; [reflexivity|]. split; [apply G|exact (g_attitude _ _ _ G)].
Qed.
End Exact.
