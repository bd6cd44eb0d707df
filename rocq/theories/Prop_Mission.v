(** * The laws of every record, in terms of the configuration alone (C04, C03, C05, C06, C22, C23, C24, C26, C40, C46, C47)

    The theorems of the other files speak of a record and of the parameters of the phase that wrote it.  Here the
    parameters are read off the configuration: a record of the [i]-th block of the output obeys the law with
    the value configured last among the first [i] configurations, or the documented default. *)
From Coq Require Import ZArith List Reals Lra Lia Bool.
From Coquelicot Require Import Coquelicot.
From Flocq Require Import Core BinarySingleNaN.
From Coq Require Import List.
From Verif Require Import Num Constants State Tables Config Planet Atmosphere Transformations
  Steering Vehicle RungeKutta Phase Simulation B64 XR XRFacts SpecReal SystemFacts SystemTotal RunFacts Demo
  PhaseNew Prop_Run Prop_Steering Prop_Gravity Prop_Planet Prop_Frames Prop_Throttle Prop_Mass Prop_MassLimited
  Prop_Limit Prop_Atmosphere Prop_Launch Prop_IEEE Prop_Records Prop_Json Prop_Simulation Prop_AeroReported Prop_Real Prop_RealSim DemoExact Prop_TimeForward Prop_Coast Prop_Split Prop_Event Prop_EventDemo.
Import ListNotations.

(** ** Specification *)
(** [s] is a record of the block of phase [i] in the output of a simulation of [cs]; [s'] is the record before the
    block, if there is one. *)
Definition writes {N : Num} (cs : list (PhaseConfig N)) (i : nat) (before : option (State N)) (s : State N) : Prop :=
  exists fuel ev st a h b, simulate fuel cs = (ev, st) /\ block ev a i h b /\ In s h /\
    match before with None => a = [] | Some s' => exists a', a = a' ++ [ERecord s'] end.
(** The parameter configured last when phase [i] starts. *)
Definition in_effect {N : Num} {A} (f : PhaseConfig N -> option A) (cs : list (PhaseConfig N)) (i : nat) (default : A) : A :=
  last_configured f (firstn i cs) default.

Section WithNum.
Context {N : Num}.
Local Open Scope num_scope.
Definition planet_in_effect (cs : list (PhaseConfig N)) i : PlanetConfig N := in_effect (@pc_planet_model N) cs i Spherical.
Definition engines_in_effect (cs : list (PhaseConfig N)) i : list (Engine N) := in_effect (within (@pc_vehicle N) (@vc_engines N)) cs i [].
Definition structure_mass_in_effect (cs : list (PhaseConfig N)) i : N := in_effect (within (@pc_vehicle N) (@vc_structure_mass N)) cs i #0.
Definition wind_in_effect (cs : list (PhaseConfig N)) i : vec3 N := in_effect (within (@pc_atmosphere N) (@ac_wind N)) cs i (V3 #0 #0 #0).
Definition atmosphere_in_effect (cs : list (PhaseConfig N)) i : bool := in_effect (within (@pc_atmosphere N) (@ac_enabled N)) cs i false.
(** The limit; -1 and no configuration mean that there is none. *)
Definition limit_in_effect (cs : list (PhaseConfig N)) i : N := in_effect (@pc_max_acceleration N) cs i (- #1).

(** ** Proof *)
Lemma last_configured_map : forall A B (g : A -> B) (f : PhaseConfig N -> option A) cs d,
  last_configured (fun c => option_map g (f c)) cs (g d) = g (last_configured f cs d).
Proof.
  intros A B g f cs. induction cs as [|c cs IH]; intros d; [reflexivity|]. unfold last_configured in *. cbn [fold_left].
  unfold inherit at 2 4. destruct (f c); cbn [option_map]; apply IH.
Qed.
Lemma written : forall (cs : list (PhaseConfig N)) i before s, writes cs i before s ->
  (1 <= i <= length cs)%nat /\ exists p : Phase N, begins (firstn i cs) p /\ reported cs p s /\
  match before with
  | None => exists c p', phase_new None c = Ret p' /\ p = reset p'
  | Some s' => exists q c p', ph_state q = s' /\ phase_new (Some q) c = Ret p' /\ p = reset p'
  end.
Proof.
  intros cs i before s (fuel & ev & st & a & h & b & H & B & Hs & Hb).
  destruct (simulate_blocks _ _ _ _ _ _ _ _ H B) as [Hi [(-> & _)|(p & st1 & Bp & R & _ & _ & pr & c & p' & Hn & Ep & Ha)]]; [destruct Hs|].
  split; [exact Hi|]. exists p. split; [exact Bp|]. split.
  { exists (firstn i cs), (skipn i cs), fuel, h, st1. rewrite firstn_skipn. auto. }
  destruct before as [s'|].
  - destruct Hb as [a' E]. destruct Ha as [[Ea _]|(a2 & q & -> & E2)]; [rewrite Ea in E; destruct a'; discriminate|].
    rewrite E in E2. apply app_inj_tail in E2. destruct E2 as [_ E2]. injection E2 as ->. exists q, c, p'. auto.
  - destruct Ha as [[_ ->]|(a2 & q & _ & E2)]; [exists c, p'; auto|rewrite Hb in E2; destruct a2; discriminate].
Qed.
Lemma planet_effective : forall (cs : list (PhaseConfig N)) i (p : Phase N), begins (firstn i cs) p ->
  ph_planet p = planet_of (planet_in_effect cs i).
Proof.
  intros cs i p B. rewrite (f_planet _ _ (C28_effective _ _ B)). 
  change (EARTH_SPHERICAL : Planet N) with (planet_of (Spherical : PlanetConfig N)). apply last_configured_map.
Qed.
Lemma atmosphere_effective : forall (cs : list (PhaseConfig N)) i (p : Phase N), begins (firstn i cs) p ->
  at_model (ph_atmosphere p) = if atmosphere_in_effect cs i then StandardAtmosphere1962 else NoAtmosphere.
Proof.
  intros cs i p B. rewrite (f_atmosphere_model _ _ (C28_effective _ _ B)). unfold atmosphere_in_effect, in_effect.
  rewrite <- (last_configured_map _ _ (fun b : bool => if b then StandardAtmosphere1962 else NoAtmosphere)).
  assert (G : forall f g : PhaseConfig N -> option AtmosphereModel, (forall c, f c = g c) -> forall l d, last_configured f l d = last_configured g l d).
  { intros f g E l. induction l as [|c l IH]; intros d; [reflexivity|]. unfold last_configured in *. cbn [fold_left]. rewrite (E c). apply IH. }
  apply G. intros c. unfold within. destruct (pc_atmosphere c); reflexivity.
Qed.
Lemma limit_effective : forall (cs : list (PhaseConfig N)) i (p : Phase N), begins (firstn i cs) p -> ((- #1 : N) =? - #1) = true ->
  ph_max_acceleration p = let m := limit_in_effect cs i in if m =? - #1 then n_inf else m.
Proof.
  intros cs i p B R. rewrite (f_max_acceleration _ _ (C28_effective _ _ B)). unfold limit_in_effect, in_effect. cbv zeta.
  rewrite <- (last_configured_map _ _ (fun m : N => if m =? - #1 then n_inf else m)). rewrite R. reflexivity.
Qed.

Lemma single_writes : forall (c : PhaseConfig N) (p : Phase N) s, reported [c] p s -> writes [c] 1 None s.
Proof.
  intros c p s (cs1 & cs2 & fuel & h & st & E & B & R & Hs).
  assert (E1 : cs1 = [c]).
  { destruct cs1 as [|x cs1]; [inversion B as [? ? X Y|xs ? ? ? ? ? ? ? ? ? X]; destruct xs; discriminate|].
    destruct cs1; [now injection E as ->|destruct cs1; discriminate]. }
  subst cs1.
  destruct (begins_simulate _ _ B [] c eq_refl) as [[_ [p' [Hn ->]]]|(p1 & f & h' & q & p' & B' & _)].
  - destruct (simulate fuel [c]) as [ev st'] eqn:X. exists fuel, ev, st', [], h, []. split; [exact X|]. split; [|auto].
    unfold simulate in X. cbn [sim_loop] in X. rewrite Hn in X. rewrite R in X. split; [|now left].
    destruct st; injection X as <- _; rewrite ?app_nil_r; reflexivity.
  - inversion B' as [? ? X Y|xs ? ? ? ? ? ? ? ? ? X]; destruct xs; discriminate.
Qed.

(** ** C26 *)
(** The propellant of a record is its mass minus the structure mass configured last. *)
Theorem C26_simulation : forall (cs : list (PhaseConfig N)) i before s, writes cs i before s ->
  st_propellant_mass s = st_mass s - structure_mass_in_effect cs i.
Proof.
  intros cs i before s H. destruct (written _ _ _ _ H) as (_ & p & B & R & _).
  destruct (C37_reported _ _ _ R) as [s0 X]. apply eom_equations in X. rewrite (q_propellant_mass _ _ _ X).
  rewrite (f_structure_mass _ _ (C28_effective _ _ B)). reflexivity.
Qed.
End WithNum.

(** ** Exact arithmetic *)
Local Open Scope R_scope.
Section Exact.
Context {rot : mat3 xr -> mat3 xr}.
Notation N := (XR rot).

(** The constants of the planet models in SI units: equatorial and polar radius, gravitational parameter, J2, J3, J4
    and rotation rate.  The named models are given in feet by the manual of POST. *)
Inductive planet_data : PlanetConfig N -> R -> R -> R -> R -> R -> R -> R -> Prop :=
| data_spherical : planet_data Spherical (20925741 * foot) (20925741 * foot)
    (14076539 * 10 ^ 9 * foot ^ 3) 0 0 0 (729211 / 10 ^ 10)
| data_fisher : planet_data Fisher1960 (20925741 * foot) (20855590 * foot)
    (14076539 * 10 ^ 9 * foot ^ 3) (10823 / 10 ^ 7) 0 0 (729211 / 10 ^ 10)
| data_smithsonian : planet_data Smithsonian (20925741 * foot) (20855590 * foot)
    (1407645794 * 10 ^ 7 * foot ^ 3) (1082639 / 10 ^ 9) (-2565 / 10 ^ 9) (-1608 / 10 ^ 9) (729211 / 10 ^ 10)
| data_custom : forall Re Rp mu j2 j3 j4 w,
    planet_data (Custom (N := N) (Fin Re) (Fin Rp) (Fin mu, Fin j2, Fin j3, Fin j4) (Fin w)) Re Rp mu j2 j3 j4 w.
Lemma planet_data_is : forall m Re Rp mu j2 j3 j4 w, planet_data m Re Rp mu j2 j3 j4 w ->
  planet_of m = mkPlanet (N := N) (Fin Re) (Fin Rp) (Fin mu, Fin j2, Fin j3, Fin j4) (Fin w).
Proof.
  intros m Re Rp mu j2 j3 j4 w D. destruct (C43_constants (rot := rot)) as (A & B & C).
  destruct D; [exact A|exact B|exact C|reflexivity].
Qed.

(** ** C03, C04: gravity *)
(** The gravity of every record is the gradient of the potential of the planet configured last. *)
Theorem C03_simulation : forall (cs : list (PhaseConfig N)) i before s Re Rp mu j2 j3 j4 w r,
  writes cs i before s -> planet_data (planet_in_effect cs i) Re Rp mu j2 j3 j4 w ->
  st_position s = finv r -> r <> zeroR ->
  exists g, st_gravity_acceleration s = finv g /\ gradient (potential mu j2 j3 j4 Re) r g.
Proof.
  intros cs i before s Re Rp mu j2 j3 j4 w r H D Hr Nz. destruct (written _ _ _ _ H) as (_ & p & B & R & _).
  apply (C03_records cs p s Re Rp mu j2 j3 j4 w r R); [|exact Hr|exact Nz].
  unfold real_planet. rewrite (planet_effective _ _ _ B). now apply planet_data_is.
Qed.
(** Without harmonics it is Newton's law, towards the centre. *)
Theorem C04_simulation : forall (cs : list (PhaseConfig N)) i before s Re Rp mu w r,
  writes cs i before s -> planet_data (planet_in_effect cs i) Re Rp mu 0 0 0 w ->
  st_position s = finv r -> r <> zeroR ->
  exists g, st_gravity_acceleration s = finv g /\ g = scaleR (- mu / normR r ^ 3) r /\ normR g = Rabs mu / normR r ^ 2.
Proof.
  intros cs i before s Re Rp mu w r H D Hr Nz. destruct (written _ _ _ _ H) as (_ & p & B & R & _).
  destruct (C37_reported _ _ _ R) as [s0 X]. apply eom_equations in X. rewrite (q_gravity _ _ _ X), Hr.
  apply (C04_spherical _ Re Rp mu w r); [|exact Nz].
  unfold real_planet. rewrite (planet_effective _ _ _ B). now apply planet_data_is.
Qed.
(** A mission that never configures a planet flies over the spherical Earth. *)
Theorem C04_default_simulation : forall (cs : list (PhaseConfig N)) i before s r,
  writes cs i before s -> Forall (fun c => pc_planet_model c = None) cs ->
  st_position s = finv r -> r <> zeroR ->
  st_gravity_acceleration s = finv (scaleR (- (14076539 * 10 ^ 9 * foot ^ 3) / normR r ^ 3) r).
Proof.
  intros cs i before s r H F Hr Nz.
  assert (E : planet_in_effect cs i = Spherical).
  { unfold planet_in_effect, in_effect. assert (F' : Forall (fun c : PhaseConfig N => pc_planet_model c = None) (firstn i cs)).
    { apply Forall_forall. intros c Hc. rewrite Forall_forall in F. apply F. rewrite <- (firstn_skipn i cs). apply in_or_app. now left. }
    clear - F'. induction F' as [|c l Hc _ IH]; [reflexivity|]. unfold last_configured in *. cbn [fold_left]. rewrite Hc. exact IH. }
  destruct (C04_simulation cs i before s _ _ _ _ r H (eq_ind_r (fun m => planet_data m _ _ _ _ _ _ _) data_spherical E) Hr Nz) as (g & G & -> & _).
  exact G.
Qed.

(** ** C05, C06: altitudes *)
Theorem C05_simulation : forall (cs : list (PhaseConfig N)) i before s Re Rp mu j2 j3 j4 w r,
  writes cs i before s -> planet_data (planet_in_effect cs i) Re Rp mu j2 j3 j4 w -> 0 < Re -> 0 < Rp ->
  st_position s = finv r -> r <> zeroR ->
  exists d, 0 < d /\ level Re Rp (scaleR (d / normR r) r) = 1 /\ st_altitude s = Fin (normR r - d).
Proof.
  intros cs i before s Re Rp mu j2 j3 j4 w r H D P1 P2 Hr Nz. destruct (written _ _ _ _ H) as (_ & p & B & R & _).
  apply (C05_records cs p s Re Rp r R); [|exact Hr|exact Nz].
  unfold radii. rewrite (planet_effective _ _ _ B), (planet_data_is _ _ _ _ _ _ _ _ D). repeat split; assumption.
Qed.
Theorem C06_simulation : forall (cs : list (PhaseConfig N)) i before s Re Rp mu j2 j3 j4 w r h,
  writes cs i before s -> planet_data (planet_in_effect cs i) Re Rp mu j2 j3 j4 w -> 0 < Re -> 0 < Rp ->
  st_position s = finv r -> st_altitude s = Fin h -> h <> - ((Re + Rp) / 2) ->
  let RA := (Re + Rp) / 2 in st_altitude_geopotential s = Fin (RA * h / (RA + h)).
Proof.
  intros cs i before s Re Rp mu j2 j3 j4 w r h H D P1 P2 Hr Hh Ne. destruct (written _ _ _ _ H) as (_ & p & B & R & _).
  apply (C06_records cs p s Re Rp r h R); [|exact Hr|exact Hh|exact Ne].
  unfold radii. rewrite (planet_effective _ _ _ B), (planet_data_is _ _ _ _ _ _ _ _ D). repeat split; assumption.
Qed.

(** ** C22 - C24: throttle, limit, engines *)
Lemma limit_fin : forall (cs : list (PhaseConfig N)) i (p : Phase N) L, begins (firstn i cs) p ->
  limit_in_effect cs i = Fin L -> L <> -1 -> ph_max_acceleration p = Fin L.
Proof.
  intros cs i p L B E Ne. rewrite (limit_effective _ _ _ B), E.
  - cbv zeta. xrs. rewrite Reqb_false; [reflexivity|]. lra.
  - xrs. apply Reqb_true. reflexivity.
Qed.
Theorem C23_simulation : forall (cs : list (PhaseConfig N)) i before s L a,
  writes cs i before s -> limit_in_effect cs i = Fin L -> L <> -1 ->
  st_vehicle_acceleration_body s = finv a -> normR a <= 1001 / 1000 * L.
Proof.
  intros cs i before s L a H E Ne Ha. destruct (written _ _ _ _ H) as (_ & p & B & R & _).
  exact (C23_limit cs p s L a R (limit_fin _ _ _ _ B E Ne) Ha).
Qed.
Theorem C22_simulation : forall (cs : list (PhaseConfig N)) i before s es L m P aero,
  writes cs i before s -> engines_in_effect cs i = map finE es -> limit_in_effect cs i = Fin L -> L <> -1 ->
  st_mass s = Fin m -> st_pressure s = Fin P -> st_aero_force_body s = finv aero -> normR aero <= L * m ->
  exists th, st_throttle s = Fin th /\ 0 <= th <= 1 /\ load aero (full_thrust es P) th <= L * m /\
    (forall t, 0 <= t <= 1 -> load aero (full_thrust es P) t <= L * m -> t <= th) /\
    (th < 1 -> load aero (full_thrust es P) th = L * m).
Proof.
  intros cs i before s es L m P aero H Ee E Ne Hm HP Ha Hl. destruct (written _ _ _ _ H) as (_ & p & B & R & _).
  apply (C22_records cs p s es L m P aero R); try assumption; [|now apply (limit_fin cs i)].
  unfold engines_are. rewrite (f_engines _ _ (C28_effective _ _ B)). exact Ee.
Qed.
Theorem C24_simulation : forall (cs : list (PhaseConfig N)) i before s es th P,
  writes cs i before s -> engines_in_effect cs i = map finE es -> st_throttle s = Fin th -> st_pressure s = Fin P ->
  st_thrust_force_body s = finv (scaleR th (full_thrust es P)) /\
  (Forall (fun e => isp e <> 0) es -> st_massflow s = Fin (- (th * full_flow es))).
Proof.
  intros cs i before s es th P H Ee Ht HP. destruct (written _ _ _ _ H) as (_ & p & B & R & _).
  apply (C24_records cs p s es th P R); try assumption.
  unfold engines_are. rewrite (f_engines _ _ (C28_effective _ _ B)). exact Ee.
Qed.

(** ** C40: steering *)
(** An angle of a record, and its entry in the configuration. *)
Inductive steered : (State N -> N) -> (SteeringConfig N -> option (StateVariable * vec3 N)) -> Prop :=
| steered_roll : steered (fun s => vx (st_euler_angles s)) (@sc_roll N)
| steered_yaw : steered (fun s => vy (st_euler_angles s)) (@sc_yaw N)
| steered_pitch : steered (fun s => vz (st_euler_angles s)) (@sc_pitch N).
(** In a record of block [i] the angle is the one of the record before the block (zero in the first block) plus the
    polynomial, in degrees, configured last for it, at the value of its variable in the record itself. *)
Theorem C40_simulation : forall (cs : list (PhaseConfig N)) i before s angle entry v c a y,
  writes cs i before s -> steered angle entry ->
  in_effect (Prop_Run.within (@pc_steering N) entry) cs i (Time, V3 (Fin 0) (Fin 0) (Fin 0)) = (v, finv c) ->
  match before with Some s' => angle s' = Fin a | None => a = 0 end ->
  late v = false -> get_value v s = Fin y ->
  angle s = Fin (a + deg (poly c y)).
Proof.
  intros cs i before s angle entry v c a y H St E Ha Hv Hy.
  destruct (written _ _ _ _ H) as (_ & p & B & R & Hb).
  assert (A : angle (ph_state p) = Fin a).
  { destruct before as [s'|].
    - destruct Hb as (q & c1 & p' & Eq & Hn & ->). destruct (C28_state q c1 p' Hn) as (_ & _ & E1 & E2).
      destruct St; rewrite E2; cbn [st_euler_angles set_time_since_event]; rewrite E1; cbn [st_euler_angles set_mass]; rewrite Eq; exact Ha.
    - destruct Hb as (c1 & p' & Hn & ->). subst a.
      destruct (C40_start_angles _ _ (begins_first c1 p' Hn)) as [(c2 & _ & Z)|(cs' & c2 & p1 & f & h & q & Z & B' & _)].
      + destruct St; rewrite Z; reflexivity.
      + destruct cs' as [|x cs']; [inversion B' as [? ? X Y|xs ? ? ? ? ? ? ? ? ? X]; destruct xs; discriminate|].
        destruct cs'; discriminate. }
  destruct (C40_constant_coefficients _ _ B) as (K1 & K2 & K3).
  assert (F := C28_effective _ _ B).
  assert (T : exists ax, angle_of ax angle /\ axis_is (ax (ph_steering p)) v (a * (180 / PI)) c).
  { destruct St.
    - exists (@sg_roll N). split; [constructor|]. assert (Z := eq_trans (f_roll _ _ F) E). injection Z as Z1 Z2. split; [exact Z1|]. split; [|exact Z2].
      rewrite K1, A. apply to_degrees_fin.
    - exists (@sg_yaw N). split; [constructor|]. assert (Z := eq_trans (f_yaw _ _ F) E). injection Z as Z1 Z2. split; [exact Z1|]. split; [|exact Z2].
      rewrite K2, A. apply to_degrees_fin.
    - exists (@sg_pitch N). split; [constructor|]. assert (Z := eq_trans (f_pitch _ _ F) E). injection Z as Z1 Z2. split; [exact Z1|]. split; [|exact Z2].
      rewrite K3, A. apply to_degrees_fin. }
  destruct T as (ax & Ax & Ai).
  rewrite (C40_law cs p s ax angle v (a * (180 / PI)) c y (or_introl R) Ax Ai Hv Hy).
  apply (f_equal Fin). unfold deg. assert (P := PI_RGT_0). field. lra.
Qed.
(** An angle that is never configured stays zero. *)
Theorem C40_unsteered : forall (cs : list (PhaseConfig N)) i before s angle entry t,
  writes cs i before s -> steered angle entry ->
  (forall c, In c cs -> Prop_Run.within (@pc_steering N) entry c = None) ->
  match before with Some s' => angle s' = Fin 0 | None => True end -> st_time s = Fin t ->
  angle s = Fin 0.
Proof.
  intros cs i before s angle entry t H St Hc Hb Ht.
  rewrite (C40_simulation cs i before s angle entry Time (V3 0 0 0) 0 t H St).
  - apply (f_equal Fin). unfold deg, poly. cbn [vx vy vz]. ring.
  - unfold in_effect. assert (G : forall l, (forall c, In c l -> In c cs) -> forall d, last_configured (Prop_Run.within (@pc_steering N) entry) l d = d).
    { induction l as [|c l IH]; intros Hl d; [reflexivity|]. unfold last_configured in *. cbn [fold_left]. rewrite (Hc c) by (apply Hl; now left).
      apply IH. intros c' Hc'. apply Hl. now right. }
    apply G. intros c Hc'. rewrite <- (firstn_skipn i cs). apply in_or_app. now left.
  - destruct before; [exact Hb|reflexivity].
  - reflexivity.
  - exact Ht.
Qed.

(** ** C02, C47: Newton's second law in every record *)
(** The launch frame in every block: built at the configured longitude and azimuth and at the geocentric latitude
    that [Phase::init] computes from the configured latitude (C09 is about the factor). *)
Lemma launch_in_effect : forall (c : PhaseConfig N) cs i (p : Phase N) Re Rp mu j2 j3 j4 w lat long az alt,
  begins (firstn i (c :: cs)) p -> planet_data (planet_in_effect (c :: cs) 1) Re Rp mu j2 j3 j4 w -> 0 < Re -> 0 < Rp ->
  pc_init c = Some (mkInitConfig (N := N) (Fin lat) (Fin long) (Fin az) alt) -> -90 < lat < 90 ->
  ph_launch p = finv (V3 (atan ((Re / Rp) ^ 4 * tan (deg lat))) (deg long) (deg az)).
Proof.
  intros c cs i p Re Rp mu j2 j3 j4 w lat long az alt B D P1 P2 Hc Hl.
  assert (Hi : exists j, firstn i (c :: cs) = c :: j).
  { destruct i; [|cbn [firstn]; eauto]. exfalso. cbn [firstn] in B. inversion B as [? ? X Y|xs ? ? ? ? ? ? ? ? ? X]; destruct xs; discriminate. }
  destruct Hi as [rest Ei]. rewrite Ei in B.
  destruct (launch_kept _ _ B c rest eq_refl) as (p1 & B1 & E1). rewrite E1.
  assert (Q : ph_planet p1 = mkPlanet (N := N) (Fin Re) (Fin Rp) (Fin mu, Fin j2, Fin j3, Fin j4) (Fin w)).
  { rewrite (planet_effective (c :: cs) 1 p1 B1). now apply planet_data_is. }
  destruct (begins_single c p1 B1) as [ic [Eic Ep]]. rewrite Hc in Eic. injection Eic as <-.
  assert (Q' : ph_planet (configured default_phase c) = mkPlanet (N := N) (Fin Re) (Fin Rp) (Fin mu, Fin j2, Fin j3, Fin j4) (Fin w))
    by (rewrite Ep in Q; exact Q).
  destruct (phase_init_fin (configured default_phase c) Re Rp w lat long az alt) as (_ & _ & L).
  - rewrite Q'. repeat split; assumption.
  - rewrite Q'. reflexivity.
  - exact Hl.
  - assert (K : forall q : Phase N, ph_launch (reset q) = ph_launch q) by reflexivity. rewrite Ep, K, L.
    assert (Z : Re / Rp * (Re / Rp) * (Re / Rp * (Re / Rp)) = (Re / Rp) ^ 4) by ring. rewrite Z. reflexivity.
Qed.
(** Mass times acceleration is the force of gravity (the gradient of the potential of the planet configured last) plus the
    record's aerodynamic force and thrust, turned from the body axes: the launch frame of the launch site ([up],
    [heading] by the configured azimuth), turned by the record's roll, yaw and pitch. *)
Theorem C47_simulation : rot_contract rot -> forall (c : PhaseConfig N) cs i before s lat long az alt
    Re0 Rp0 mu0 j20 j30 j40 w0 Re Rp mu j2 j3 j4 w r roll yaw pitch aero thrust m,
  writes (c :: cs) i before s ->
  pc_init c = Some (mkInitConfig (N := N) (Fin lat) (Fin long) (Fin az) alt) -> -90 < lat < 90 ->
  planet_data (planet_in_effect (c :: cs) 1) Re0 Rp0 mu0 j20 j30 j40 w0 -> 0 < Re0 -> 0 < Rp0 ->
  planet_data (planet_in_effect (c :: cs) i) Re Rp mu j2 j3 j4 w ->
  st_position s = finv r -> r <> zeroR -> st_euler_angles s = finv (V3 roll yaw pitch) ->
  st_aero_force_body s = finv aero -> st_thrust_force_body s = finv thrust -> st_mass s = Fin m -> m <> 0 ->
  let site := atan ((Re0 / Rp0) ^ 4 * tan (deg lat)) in
  exists g a L, gradient (potential mu j2 j3 j4 Re) r g /\ st_acceleration s = finv a /\
    mulvR L (up site (deg long)) = V3 1 0 0 /\
    mulvR L (heading site (deg long) (deg az)) = V3 0 0 1 /\
    mulvR L (crossR (heading site (deg long) (deg az)) (up site (deg long))) = V3 0 1 0 /\
    let attitude := mulmR (mulmR (Ry pitch) (mulmR (Rz yaw) (Rx roll))) L in
    rotation attitude /\
    scaleR m a = addR (scaleR m g) (mulvR (transposeR attitude) (addR aero thrust)) /\
    exists sensed, st_vehicle_acceleration_body s = finv sensed /\ scaleR m sensed = addR aero thrust.
Proof.
  intros Hrot c cs i before s lat long az alt Re0 Rp0 mu0 j20 j30 j40 w0 Re Rp mu j2 j3 j4 w r roll yaw pitch aero thrust m
    H Hc Hl D0 P1 P2 D Hr Nz He Ha Ht Hm Hm0 site.
  destruct (C03_simulation _ _ _ _ _ _ _ _ _ _ _ _ H D Hr Nz) as (g & Hg & G).
  destruct (written _ _ _ _ H) as (_ & p & B & Rp' & _).
  assert (El := launch_in_effect c cs i p Re0 Rp0 mu0 j20 j30 j40 w0 lat long az alt B D0 P1 P2 Hc Hl). fold site in El.
  destruct (C37_reported _ _ _ Rp') as [s0 X].
  assert (S : system p s0 = Ret s) by (now apply system_eom).
  destruct (C47_newton Hrot p s0 s _ _ aero thrust m g S El He Ha Ht Hm Hm0 Hg) as (M & a & EM & RM & Ea & EN & sensed & Es & _).
  destruct (C02_launch_frame Hrot site (deg long) (deg az)) as (L & E1 & E2 & E3 & E4).
  destruct (C02_inertial_to_body Hrot site (deg long) (deg az) roll yaw pitch) as (L' & B0 & F1 & F2 & F3).
  rewrite E1 in F1. rewrite (C02_body_frame Hrot) in F2.
  assert (Q : forall A A' : mat3 R, finm A = finm A' -> A = A').
  { intros [[a0 a1 a2] [a3 a4 a5] [a6 a7 a8]] [[b0 b1 b2] [b3 b4 b5] [b6 b7 b8]] Q. unfold finm, finv in Q. cbn in Q.
    injection Q. intros. subst. reflexivity. }
  apply Q in F1. apply Q in F2. subst L' B0.
  assert (EM' : M = mulmR (mulmR (Ry pitch) (mulmR (Rz yaw) (Rx roll))) L).
  { apply Q. rewrite <- EM, El, He. exact F3. }
  exists g, a, L. split; [exact G|]. split; [exact Ea|]. split; [exact E2|]. split; [exact E4|]. split; [exact E3|]. cbv zeta.
  rewrite <- EM'. split; [exact RM|]. split.
  - rewrite <- EN. destruct a as [a0 a1 a2], g as [g0 g1 g2]. unfold scaleR, addR, subR. cbn [vx vy vz]. apply V3_eq; ring.
  - exists sensed. split; [exact Es|]. apply eom_equations in X. assert (Z := q_vehicle_acceleration _ _ _ X).
    rewrite Es, Ha, Ht, Hm, vadd_fin in Z. rewrite (vdiv_fin _ _ Hm0) in Z.
    assert (I : forall u v : vec3 R, finv u = finv v -> u = v).
    { intros [u0 u1 u2] [v0 v1 v2] I. unfold finv in I. cbn in I. injection I as -> -> ->. reflexivity. }
    apply I in Z. rewrite Z. destruct (addR aero thrust) as [b0 b1 b2]. unfold scaleR. cbn [vx vy vz]. apply V3_eq; field; exact Hm0.
Qed.

(** ** C46: motion relative to the planet and the air *)
Theorem C46_simulation : rot_contract rot -> forall (cs : list (PhaseConfig N)) i before s Re Rp mu j2 j3 j4 w t r v wind,
  writes cs i before s -> planet_data (planet_in_effect cs i) Re Rp mu j2 j3 j4 w -> wind_in_effect cs i = finv wind ->
  st_time s = Fin t -> st_position s = finv r -> st_velocity s = finv v ->
  exists q, st_position_planet s = finv q /\ normR q = normR r /\ vz q = vz r /\
    st_velocity_planet s = finv (subR v (crossR (V3 0 0 w) r)) /\
    st_velocity_atmosphere s = finv (subR (subR v (crossR (V3 0 0 w) r)) wind).
Proof.
  intros Hrot cs i before s Re Rp mu j2 j3 j4 w t r v wind H D W Ht Hr Hv. destruct (written _ _ _ _ H) as (_ & p & B & R & _).
  apply (C46_records Hrot cs p s w t r v wind R); try assumption.
  - rewrite (planet_effective _ _ _ B), (planet_data_is _ _ _ _ _ _ _ _ D). reflexivity.
  - rewrite (f_wind _ _ (C28_effective _ _ B)). exact W.
Qed.

(** ** C11: air *)
Theorem C11_simulation : forall (cs : list (PhaseConfig N)) i before s h v,
  writes cs i before s -> atmosphere_in_effect cs i = true ->
  st_altitude_geopotential s = Fin h -> st_velocity_atmosphere s = finv v ->
  exists T P D A,
    st_temperature s = Fin T /\ st_pressure s = Fin P /\ st_density s = Fin D /\
    0 < T /\ 0 < P /\ 0 < D /\ 0 < A /\
    P = D * (831432 / 100 / (289644 / 10000)) * T /\
    A * A = 14 / 10 * (831432 / 100 / (289644 / 10000)) * T /\
    st_mach_number s = Fin (normR v / A) /\
    st_dynamic_pressure s = Fin (D * (normR v * normR v) / 2).
Proof.
  intros cs i before s h v H A Hh Hv. destruct (written _ _ _ _ H) as (_ & p & B & R & _).
  apply (C11_reported cs p s h v R); try assumption. rewrite (atmosphere_effective _ _ _ B), A. reflexivity.
Qed.
(** ** C15: aerodynamic forces *)
Definition drag_in_effect (cs : list (PhaseConfig N)) i := in_effect (Prop_Run.within (@pc_vehicle N) (@vc_drag_coeff N)) cs i default_table.
Definition lift_in_effect (cs : list (PhaseConfig N)) i := in_effect (Prop_Run.within (@pc_vehicle N) (@vc_lift_coeff N)) cs i default_table.
Definition side_force_in_effect (cs : list (PhaseConfig N)) i := in_effect (Prop_Run.within (@pc_vehicle N) (@vc_side_force_coeff N)) cs i default_table.
Definition area_in_effect (cs : list (PhaseConfig N)) i : N := in_effect (Prop_Run.within (@pc_vehicle N) (@vc_reference_area N)) cs i (Fin 0).
Theorem C15_simulation : forall (cs : list (PhaseConfig N)) i before s h v a S CD CL CY,
  writes cs i before s -> atmosphere_in_effect cs i = true ->
  (forall x, In x (table_variables (drag_in_effect cs i) ++ table_variables (lift_in_effect cs i) ++ table_variables (side_force_in_effect cs i)) ->
     late_aero x = false) ->
  st_altitude_geopotential s = Fin h -> st_velocity_atmosphere s = finv v -> st_alpha s = Fin a ->
  area_in_effect cs i = Fin S ->
  at_state (drag_in_effect cs i) s = Ret (Fin CD) -> at_state (lift_in_effect cs i) s = Ret (Fin CL) ->
  at_state (side_force_in_effect cs i) s = Ret (Fin CY) ->
  exists D f, st_density s = Fin D /\ 0 < D /\ st_aero_force_body s = finv f /\
    let q := D * (normR v * normR v) / 2 in
    let flow := V3 (cos a) 0 (sin a) in
    let up := V3 (sin a) 0 (- cos a) in
    let side := V3 0 1 0 in
    f = addR (addR (scaleR (- (q * S * CD)) flow) (scaleR (q * S * CL) up)) (scaleR (q * S * CY) side).
Proof.
  intros cs i before s h v a S CD CL CY H A V Hh Hv Ha ES E1 E2 E3. destruct (written _ _ _ _ H) as (_ & p & B & R & _).
  assert (F := C28_effective _ _ B).
  apply (C15_reported cs p s h v a S CD CL CY R); try assumption.
  - rewrite (atmosphere_effective _ _ _ B), A. reflexivity.
  - intros x Hx. apply V. unfold vehicle_variables in Hx. rewrite (f_drag_coeff _ _ F), (f_lift_coeff _ _ F), (f_side_force_coeff _ _ F) in Hx. exact Hx.
  - rewrite (f_reference_area _ _ F). exact ES.
  - rewrite (f_drag_coeff _ _ F). exact E1.
  - rewrite (f_lift_coeff _ _ F). exact E2.
  - rewrite (f_side_force_coeff _ _ F). exact E3.
Qed.

(** ** Concrete records *)
(** A burn at the limit of 50 m/s2: C22, C23, C24, C26. *)
Example ex_mission_burn : exists (s : State N) m th, writes [limited_config] 1 None s /\
  limit_in_effect [limited_config (rot := rot)] 1 = Fin 50 /\ engines_in_effect [limited_config (rot := rot)] 1 = map finE [burn_engine] /\
  structure_mass_in_effect [limited_config (rot := rot)] 1 = Fin 1000 /\
  st_mass s = Fin m /\ 9000 < m /\ st_throttle s = Fin th /\ th <= 1 / 2.
Proof.
  destruct (ex_limited_burn (rot := rot)) as (p & h & q & t & m & th & a & B & R & _ & Rep & _ & _ & _ & Em & Bm & Et & Bt & _).
  exists (ph_state q), m, th. split; [exact (single_writes _ p _ Rep)|]. split; [reflexivity|]. split; [reflexivity|]. split; [reflexivity|].
  split; [exact Em|]. split; [apply Bm|]. split; [exact Et|exact Bt].
Qed.
(** A vehicle in wind: C03 - C06, C11, C15, C40, C46, C47. *)
Example ex_mission_glide : rot_contract rot -> exists s : State N, writes [glide_config 0] 1 None s /\
  planet_data (planet_in_effect [glide_config (rot := rot) 0] 1) 6000000 6000000 (4 * 10 ^ 14) 0 0 0 0 /\
  atmosphere_in_effect [glide_config (rot := rot) 0] 1 = true /\
  wind_in_effect [glide_config (rot := rot) 0] 1 = finv (V3 (- 50) 0 (- 10)) /\
  area_in_effect [glide_config (rot := rot) 0] 1 = Fin 2 /\
  in_effect (Prop_Run.within (@pc_steering N) (@sc_pitch N)) [glide_config 0] 1 (Time, V3 (Fin 0) (Fin 0) (Fin 0))
    = (TimeSinceEvent, finv (V3 1 0 0)) /\
  st_position s = finv (V3 6000000 0 0) /\ st_velocity s = finv zeroR /\ st_velocity_atmosphere s = finv (V3 50 0 10) /\
  st_mass s = Fin 100 /\ st_euler_angles s = finv zeroR /\ real_state True s.
Proof.
  intros Hrot. destruct (the_glide Hrot 0) as (p & s & G). exists s. split; [exact (single_writes _ p _ (g_reported _ _ _ G))|].
  split; [apply data_custom|]. split; [reflexivity|]. split; [reflexivity|]. split; [reflexivity|]. split; [reflexivity|].
  split; [apply G|]. split; [apply G|]. split; [apply G|]. split; [apply G|]. split; [apply G|].
  assert (W := g_real _ _ _ G). assert (A : with_air p) by (rewrite (g_phase _ _ _ G); reflexivity).
  destruct W; constructor; auto.
Qed.
(** A mission whose second phase turns at one degree per second, in its second block: C40. *)
Lemma second_block : forall fuel (c1 c2 : PhaseConfig N) ev q T1 T2, simulate fuel [c1; c2] = (ev, Finished q) ->
  in_effect (@pc_end_criterion N) [c1; c2] 1 (TimeSinceEvent, n_lit 0 0) = (TimeSinceEvent, Fin T1) ->
  in_effect (@pc_end_criterion N) [c1; c2] 2 (TimeSinceEvent, n_lit 0 0) = (TimeSinceEvent, Fin T2) ->
  exists s' s t' t, writes [c1; c2] 1 None s' /\ writes [c1; c2] 2 (Some s') s /\ st_time s' = Fin t' /\
    st_time_since_event s = Fin t /\ T2 - 1 / 1000 <= t.
Proof.
  intros fuel c1 c2 ev q T1 T2 H E1 E2. destruct (two_blocks _ _ _ _ _ H) as (h1 & s1 & h2 & s2 & E).
  assert (B1 : block ev [] 1 (h1 ++ [s1]) (EPhase 2 :: map ERecord (h2 ++ [s2]))).
  { split; [exact E|]. right. eauto. }
  assert (B2 : block ev ((EPhase 1 :: map ERecord h1) ++ [ERecord s1]) 2 (h2 ++ [s2]) []).
  { split; [|now left]. rewrite E, app_nil_r, map_app. cbn [app map]. rewrite <- !app_assoc. reflexivity. }
  assert (NB : EPhase 2 :: map ERecord (h2 ++ [s2]) <> [] \/ exists q' : Phase N, Finished q = Finished q') by (left; discriminate).
  assert (M1 := C31_simulation fuel [c1; c2] ev (Finished q) [] 1 (h1 ++ [s1]) _ H B1 NB).
  assert (M2 := C31_simulation fuel [c1; c2] ev (Finished q) _ 2 (h2 ++ [s2]) [] H B2 (or_intror (ex_intro _ q eq_refl))).
  unfold in_effect in E1, E2. rewrite E1 in M1. rewrite E2 in M2.
  destruct M1 as (k1 & x1 & X1 & M1). apply app_inj_tail in X1. destruct X1 as [_ <-].
  destruct M2 as (k2 & x2 & X2 & M2). apply app_inj_tail in X2. destruct X2 as [_ <-]. cbn [get_value] in M1, M2.
  assert (Z : exists x, st_time s1 = Fin x).
  { destruct (C36_records _ _ _ _ _ _ _ _ s1 0 H B1) as [(x & _ & Z)|[Z1 Z2]].
    - apply in_or_app. right. now left.
    - now left.
    - eauto.
    - exfalso. rewrite <- Z1 in M1. revert M1 Z2.
      destruct (st_time s1) as [x| | |]; intros M Z2; try (cbn in M; discriminate M). now apply (Z2 x). }
  destruct Z as [t' Z].
  assert (Z2 : exists x, st_time_since_event s2 = Fin x).
  { revert M2. destruct (st_time_since_event s2) as [x| | |]; intros M; try (cbn in M; discriminate M). eauto. }
  destruct Z2 as [t Z2].
  exists s1, s2, t', t. split; [|split; [|split; [exact Z|split; [exact Z2|]]]].
  - exists fuel, ev, (Finished q), [], (h1 ++ [s1]), (EPhase 2 :: map ERecord (h2 ++ [s2])). split; [exact H|]. split; [exact B1|].
    split; [apply in_or_app; right; now left|reflexivity].
  - exists fuel, ev, (Finished q), ((EPhase 1 :: map ERecord h1) ++ [ERecord s1]), (h2 ++ [s2]), []. split; [exact H|]. split; [exact B2|].
    split; [apply in_or_app; right; now left|eauto].
  - rewrite Z2 in M2. revert M2. xrs. cbn [n_lit XR]. unfold xlit. intros M2. apply Rltb_iff in M2.
    apply Rabs_def2 in M2. cbn in M2. lra.
Qed.
Example ex_mission_turn : exists (s' s : State N) t, writes [turn_1; lasting (Fin (INR 4) : N) turn_2] 2 (Some s') s /\
  in_effect (Prop_Run.within (@pc_steering N) (@sc_pitch N)) [turn_1; lasting (Fin (INR 4) : N) turn_2] 2
    (Time, V3 (Fin 0) (Fin 0) (Fin 0)) = (TimeSinceEvent, finv (V3 (- 1) 0 0)) /\
  vz (st_euler_angles s') = Fin 0 /\ st_time_since_event s = Fin t /\ 3 < t /\ vz (st_euler_angles s) = Fin (deg (- t)).
Proof.
  set (c2 := lasting (Fin (INR 4) : N) turn_2).
  assert (C : Forall coasting [turn_1; c2]).
  { assert (T := turn_tables (rot := rot)). inversion T as [|? ? T1 _].
    constructor; [|constructor; [|constructor]]; (split; [|split]).
    - exact T1.
    - intros v es E. injection E as <-. discriminate.
    - discriminate.
    - intros v t E. discriminate.
    - intros v es E. discriminate.
    - discriminate. }
  assert (D : Forall has_duration [turn_1; c2]).
  { constructor; [|constructor; [|constructor]]; intros v T E; injection E as <- <-; (split; [reflexivity|]);
      eexists; (split; [reflexivity|]); cbn [INR]; lra. }
  assert (I : pc_init (turn_1 (rot := rot)) <> None) by discriminate.
  assert (K : Forall (fun T => T <= INR 4) (durations 0 [turn_1; c2])).
  { cbn [durations turn_1 c2 lasting pc_end_criterion]. repeat constructor; cbn [INR]; lra. }
  assert (E1 : in_effect (@pc_end_criterion N) [turn_1; c2] 1 (TimeSinceEvent, n_lit 0 0) = (TimeSinceEvent, Fin (5 / 2))) by reflexivity.
  assert (E2 : in_effect (@pc_end_criterion N) [turn_1; c2] 2 (TimeSinceEvent, n_lit 0 0) = (TimeSinceEvent, Fin (INR 4))) by reflexivity.
  assert (P : in_effect (Prop_Run.within (@pc_steering N) (@sc_pitch N)) [turn_1; c2] 2
    (Time, V3 (Fin 0) (Fin 0) (Fin 0)) = (TimeSinceEvent, finv (V3 (- 1) 0 0))) by reflexivity.
  assert (P1 : in_effect (Prop_Run.within (@pc_steering N) (@sc_pitch N)) [turn_1; c2] 1
    (Time, V3 (Fin 0) (Fin 0) (Fin 0)) = (Time, finv (V3 0 0 0))) by reflexivity.
  revert C D I K E1 E2 P P1. generalize (turn_1 (rot := rot)), c2. clear c2. intros c1 c2 C D I K E1 E2 P P1.
  destruct (simulate 6 [c1; c2]) as [ev st] eqn:H.
  destruct (C34_coast 6 c1 [c2] ev st 4 C D I K ltac:(lia) H) as (q & t & -> & _).
  destruct (second_block _ _ _ _ _ _ _ H E1 E2) as (s' & s & t' & t2 & W1 & W2 & Z1 & Z2 & Hb).
  assert (A1 := C40_simulation _ _ _ _ _ _ Time (V3 0 0 0) 0 t' W1 steered_pitch P1 eq_refl eq_refl Z1).
  assert (A1' : vz (st_euler_angles s') = Fin 0).
  { rewrite A1. apply (f_equal Fin). unfold deg, poly. cbn [vx vy vz]. ring. }
  assert (A2 := C40_simulation _ _ _ _ _ _ TimeSinceEvent (V3 (- 1) 0 0) 0 t2 W2 steered_pitch P A1' eq_refl Z2).
  exists s', s, t2. split; [exact W2|]. split; [exact P|]. split; [exact A1'|]. split; [exact Z2|]. split.
  - cbn [INR] in Hb. lra.
  - rewrite A2. apply (f_equal Fin). unfold deg, poly. cbn [vx vy vz]. ring.
Qed.
End Exact.

(** ** IEEE arithmetic: no atmosphere, no aerodynamics *)
Section IEEE.
Variable lm : libm.
Notation N := (B64 lm).
Theorem C13_simulation : forall (cs : list (PhaseConfig N)) i before (s : State N),
  writes cs i before s -> atmosphere_in_effect cs i = false ->
  is_zero (st_pressure s) /\ is_zero (st_density s) /\ is_zero (st_temperature s) /\
  zero_or_nan (st_dynamic_pressure s) /\
  is_zero (vx (st_aero_force_body s)) /\ is_zero (vy (st_aero_force_body s)) /\ is_zero (vz (st_aero_force_body s)).
Proof.
  intros cs i before s H A. destruct (written _ _ _ _ H) as (_ & p & B & R & _).
  apply (C13_reported lm cs p s R). rewrite (atmosphere_effective _ _ _ B), A. reflexivity.
Qed.
End IEEE.
(** The launch of [Prop_EventDemo] without air. *)
Definition airless : PhaseConfig DN :=
  mkPhaseConfig (N := DN) (pc_init demo_phase_1) (pc_vehicle demo_phase_1) None None None
    (pc_max_acceleration demo_phase_1) None (Some (TimeSinceEvent, b64_of_Z 2 : DN)).
Definition airless_check : bool :=
  match simulate 10 [airless] with
  | (EPhase _ :: ERecord s :: _, Finished q) => Beqb (st_time s : b64) (b64_of_Z 1) && Beqb (st_time (ph_state q) : b64) (b64_of_Z 2)
  | _ => false
  end.
Lemma airless_flies : airless_check = true.
Proof. vm_compute. reflexivity. Qed.
Example ex_mission_airless : exists s : State DN, writes [airless] 1 None s /\ atmosphere_in_effect [airless] 1 = false.
Proof.
  assert (X := airless_flies). unfold airless_check in X. destruct (simulate 10 [airless]) as [ev st] eqn:H.
  destruct ev as [|[i|s] [|[j|s'] ev]]; try discriminate X.
  destruct (C45_reported 10 [airless] _ st s' H) as [p R]; [right; now left|].
  exists s'. split; [exact (single_writes airless p s' R)|reflexivity].
Qed.
