(** * C05 - C09: altitude, geopotential altitude, launch site *)
From Coq Require Import ZArith List Reals Lra Lia Bool.
From Verif Require Import Num Constants State Tables Config Planet Atmosphere Transformations
  Steering Vehicle RungeKutta Phase Simulation XR XRFacts SpecReal SystemFacts RunFacts PhaseNew
  Prop_Run Prop_Tables Prop_Panics Prop_Throttle Prop_Limit.
Import ListNotations.
Local Open Scope R_scope.

(** ** Specification *)
(** The reference ellipsoid of a planet with equatorial radius [Re] and polar radius
    [Rp] is the surface [level Re Rp r = 1]; inside it is smaller, outside larger. *)
Definition level (Re Rp : R) (r : vec3 R) : R :=
  (vx r * vx r + vy r * vy r) / (Re * Re) + vz r * vz r / (Rp * Rp).
(** [r] has geodetic latitude [phi]: the normal of the ellipsoid through [r] (the
    gradient of [level]) makes the angle [phi] with the equatorial plane. *)
Definition geodetic_latitude (Re Rp : R) (r : vec3 R) (phi : R) : Prop :=
  let nz := vz r / (Rp * Rp) in
  let nh := sqrt (vx r * vx r + vy r * vy r) / (Re * Re) in
  - (PI / 2) < phi < PI / 2 /\ nz * cos phi = nh * sin phi.

Section Code.
Context {rot : mat3 xr -> mat3 xr}.
Notation N := (XR rot).

Definition radii (p : Planet N) (Re Rp : R) : Prop :=
  pl_equatorial_radius p = Fin Re /\ pl_polar_radius p = Fin Rp /\ 0 < Re /\ 0 < Rp.

Lemma level_pos : forall Re Rp r, 0 < Re -> 0 < Rp -> r <> zeroR -> 0 < level Re Rp r.
Proof.
  intros Re Rp [x y z] HRe HRp Hr. unfold level. cbn [vx vy vz].
  assert (A : 0 < / (Re * Re)) by (apply Rinv_0_lt_compat; nra).
  assert (B : 0 < / (Rp * Rp)) by (apply Rinv_0_lt_compat; nra).
  unfold Rdiv. destruct (Req_dec z 0) as [Hz|Hz].
  - subst z. assert (0 < x * x + y * y).
    { destruct (Req_dec x 0) as [->|Hx]; destruct (Req_dec y 0) as [->|Hy]; try nra.
      exfalso. apply Hr. reflexivity. }
    assert (0 < (x * x + y * y) * / (Re * Re)) by (now apply Rmult_lt_0_compat). lra.
  - assert (0 < z * z * / (Rp * Rp)) by (apply Rmult_lt_0_compat; nra).
    assert (0 <= (x * x + y * y) * / (Re * Re)) by (apply Rmult_le_pos; nra). lra.
Qed.
Lemma level_scale : forall Re Rp r k, level Re Rp (scaleR k r) = k * k * level Re Rp r.
Proof. intros Re Rp [x y z] k. unfold level, scaleR. cbn [vx vy vz]. unfold Rdiv. ring. Qed.

(** The code's surface distance in direction [r]. *)
Lemma radicand : forall Re Rp r, 0 < Re -> 0 < Rp -> r <> zeroR ->
  1 + (Re / Rp * (Re / Rp) - 1) * (vz r / normR r * (vz r / normR r))
  = Re * Re * level Re Rp r / (normR r * normR r).
Proof.
  intros Re Rp r HRe HRp Hr. assert (Hn := normR_pos r Hr).
  assert (Hs := normR_sq r). unfold level, dotR in *.
  set (n := normR r) in *. clearbody n.
  apply Rmult_eq_reg_r with (n * n); [|nra].
  replace ((1 + (Re / Rp * (Re / Rp) - 1) * (vz r / n * (vz r / n))) * (n * n))
    with (n * n + (Re / Rp * (Re / Rp) - 1) * (vz r * vz r)) by (field; lra).
  replace (Re * Re * ((vx r * vx r + vy r * vy r) / (Re * Re) + vz r * vz r / (Rp * Rp)) / (n * n) * (n * n))
    with ((vx r * vx r + vy r * vy r) + (Re / Rp * (Re / Rp)) * (vz r * vz r)) by (field; lra).
  rewrite Hs. ring.
Qed.
Lemma unit_ratio : forall r, r <> zeroR -> -1 <= vz r / normR r <= 1.
Proof.
  intros r Hr. assert (Hn := normR_pos r Hr). assert (Hs := normR_sq r). unfold dotR in Hs.
  set (n := normR r) in *. clearbody n.
  assert (vz r * vz r <= n * n) by nra.
  assert (- n <= vz r <= n) by (split; nra).
  split.
  - apply Rmult_le_reg_r with n; [lra|]. unfold Rdiv. rewrite Rmult_assoc, Rinv_l by lra. lra.
  - apply Rmult_le_reg_r with n; [lra|]. unfold Rdiv. rewrite Rmult_assoc, Rinv_l by lra. lra.
Qed.

Lemma surface_distance : forall Re Rp r, 0 < Re -> 0 < Rp -> r <> zeroR ->
  Re / sqrt (Re * Re * level Re Rp r / (normR r * normR r)) = normR r / sqrt (level Re Rp r).
Proof.
  intros Re Rp r HRe HRp Hr. assert (Hn := normR_pos r Hr). assert (HL := level_pos Re Rp r HRe HRp Hr).
  set (n := normR r) in *. set (L := level Re Rp r) in *. clearbody n L.
  replace (Re * Re * L / (n * n)) with ((Re / n) * (Re / n) * L) by (field; lra).
  assert (0 < Re / n) by (apply Rdiv_lt_0_compat; lra).
  rewrite sqrt_mult by nra. rewrite sqrt_square by lra.
  assert (0 < sqrt L) by now apply sqrt_lt_R0. field. lra.
Qed.

Lemma altitude_fin : forall (p : Planet N) Re Rp r, radii p Re Rp -> r <> zeroR ->
  altitude p (finv r) = Fin (normR r - normR r / sqrt (level Re Rp r)).
Proof.
  intros p Re Rp r (E1 & E2 & HRe & HRp) Hr. unfold altitude. rewrite E1, E2, norm_fin.
  assert (Hn := normR_pos r Hr). assert (HL := level_pos Re Rp r HRe HRp Hr).
  xrs. rewrite !xdiv_fin by lra. rewrite xfun1_fin by (now apply unit_ratio). xrs.
  rewrite sin_asin by (now apply unit_ratio).
  rewrite !Rmult_1_l.
  rewrite (radicand Re Rp r HRe HRp Hr).
  assert (P : 0 < Re * Re * level Re Rp r / (normR r * normR r)).
  { apply Rdiv_lt_0_compat; [|nra]. apply Rmult_lt_0_compat; nra. }
  rewrite xsqrt_fin by lra.
  rewrite xdiv_fin by (apply Rgt_not_eq; now apply sqrt_lt_R0). xrs.
  now rewrite surface_distance.
Qed.

(** ** C05 *)
(** The altitude is the distance, along the ray from the centre, from the point of the
    ellipsoid on that ray. *)
Theorem C05_radial_height : forall (p : Planet N) Re Rp r, radii p Re Rp -> r <> zeroR ->
  exists d, 0 < d /\ level Re Rp (scaleR (d / normR r) r) = 1 /\
    altitude p (finv r) = Fin (normR r - d).
Proof.
  intros p Re Rp r H Hr. exists (normR r / sqrt (level Re Rp r)).
  rewrite (altitude_fin p Re Rp r H Hr). destruct H as (_ & _ & HRe & HRp).
  assert (Hn := normR_pos r Hr). assert (HL := level_pos Re Rp r HRe HRp Hr).
  assert (HS : 0 < sqrt (level Re Rp r)) by now apply sqrt_lt_R0.
  split; [now apply Rdiv_lt_0_compat|]. split; [|reflexivity].
  rewrite level_scale.
  assert (HQ := sqrt_sqrt (level Re Rp r) (Rlt_le _ _ HL)).
  set (q := sqrt (level Re Rp r)) in *. clearbody q. rewrite <- HQ. field. lra.
Qed.
(** The sign of the altitude tells inside from outside. *)
Theorem C05_sign : forall (p : Planet N) Re Rp r, radii p Re Rp -> r <> zeroR ->
  exists h, altitude p (finv r) = Fin h /\
    (h = 0 <-> level Re Rp r = 1) /\ (0 < h <-> 1 < level Re Rp r) /\
    (h < 0 <-> level Re Rp r < 1).
Proof.
  intros p Re Rp r H Hr. exists (normR r - normR r / sqrt (level Re Rp r)).
  rewrite (altitude_fin p Re Rp r H Hr). split; [reflexivity|]. destruct H as (_ & _ & HRe & HRp).
  assert (Hn := normR_pos r Hr). assert (HL := level_pos Re Rp r HRe HRp Hr).
  assert (HS : 0 < sqrt (level Re Rp r)) by now apply sqrt_lt_R0.
  assert (HQ := sqrt_sqrt (level Re Rp r) (Rlt_le _ _ HL)).
  set (L := level Re Rp r) in *. set (q := sqrt L) in *. set (n := normR r) in *. clearbody L q n.
  assert (E : (n - n / q) * q = n * (q - 1)) by (field; lra).
  set (h := n - n / q) in *. clearbody h.
  repeat split; intros; nra.
Qed.
(** The altitude depends only on the distance from the centre and the distance from the
    equatorial plane. *)
Theorem C05_symmetric : forall (p : Planet N) Re Rp r r', radii p Re Rp -> r <> zeroR -> r' <> zeroR ->
  normR r = normR r' -> Rabs (vz r) = Rabs (vz r') -> altitude p (finv r) = altitude p (finv r').
Proof.
  intros p Re Rp r r' H Hr Hr' En Ez. rewrite (altitude_fin p Re Rp r H Hr), (altitude_fin p Re Rp r' H Hr').
  assert (Z : vz r * vz r = vz r' * vz r').
  { destruct (Rcase_abs (vz r)); destruct (Rcase_abs (vz r'));
      rewrite ?(Rabs_left (vz r)), ?(Rabs_right (vz r)), ?(Rabs_left (vz r')), ?(Rabs_right (vz r')) in Ez
        by assumption; nra. }
  assert (A := normR_sq r). assert (B := normR_sq r'). rewrite En in A.
  assert (E : level Re Rp r = level Re Rp r').
  { unfold level. rewrite Z. unfold dotR in A, B.
    replace (vx r * vx r + vy r * vy r) with (vx r' * vx r' + vy r' * vy r') by lra. reflexivity. }
  now rewrite En, E.
Qed.
(** Reported altitudes. *)
Theorem C05_reported : forall (p : Phase N) s0 s, system p s0 = Ret s ->
  st_altitude s = altitude (ph_planet p) (st_position s).
Proof. intros p s0 s H. apply system_eom in H. now destruct H. Qed.

(** ** C06 *)
Theorem C06_geopotential : forall (p : Planet N) Re Rp r h, radii p Re Rp ->
  altitude p (finv r) = Fin h -> h <> - ((Re + Rp) / 2) ->
  let RA := (Re + Rp) / 2 in
  geopotential_altitude p (finv r) = Fin (RA * h / (RA + h)).
Proof.
  intros p Re Rp r h (E1 & E2 & HRe & HRp) Hh Hne RA. unfold geopotential_altitude.
  rewrite E1, E2, Hh. xrs.
  replace (5 / 10 * (Re + Rp)) with RA by (unfold RA; field).
  rewrite xdiv_fin; [reflexivity|]. unfold RA. lra.
Qed.
(** 0 exactly at altitude 0, the sign of the altitude, below the altitude otherwise,
    bounded by the mean radius. *)
Theorem C06_bounds : forall (p : Planet N) Re Rp r h, radii p Re Rp ->
  altitude p (finv r) = Fin h -> - ((Re + Rp) / 2) < h ->
  exists H, geopotential_altitude p (finv r) = Fin H /\
    (H = 0 <-> h = 0) /\ (0 < H <-> 0 < h) /\ (h <> 0 -> H < h) /\ H < (Re + Rp) / 2.
Proof.
  intros p Re Rp r h Hp Hh Hb. set (RA := (Re + Rp) / 2) in *.
  exists (RA * h / (RA + h)). split; [apply C06_geopotential with (1 := Hp); [exact Hh|fold RA; lra]|].
  destruct Hp as (_ & _ & HRe & HRp).
  assert (HRA : 0 < RA) by (unfold RA; lra). clearbody RA.
  assert (E : RA * h / (RA + h) * (RA + h) = RA * h) by (field; lra).
  set (H := RA * h / (RA + h)) in *. clearbody H.
  split; [split; intros; nra|]. split; [split; intros; nra|]. split.
  - intros Hh0. assert (0 < (h - H) * (RA + h)).
    { replace ((h - H) * (RA + h)) with (h * (RA + h) - H * (RA + h)) by ring. rewrite E.
      replace (h * (RA + h) - RA * h) with (h * h) by ring. nra. }
    nra.
  - assert ((RA - H) * (RA + h) = RA * RA) by nra. nra.
Qed.
Theorem C06_increasing : forall (p : Planet N) Re Rp r1 r2 h1 h2 H1 H2, radii p Re Rp ->
  altitude p (finv r1) = Fin h1 -> altitude p (finv r2) = Fin h2 ->
  - ((Re + Rp) / 2) < h1 -> h1 < h2 ->
  geopotential_altitude p (finv r1) = Fin H1 -> geopotential_altitude p (finv r2) = Fin H2 -> H1 < H2.
Proof.
  intros p Re Rp r1 r2 h1 h2 H1 H2 Hp A1 A2 Hb Hlt G1 G2.
  rewrite (C06_geopotential p Re Rp r1 h1 Hp A1) in G1 by lra.
  rewrite (C06_geopotential p Re Rp r2 h2 Hp A2) in G2 by lra.
  injection G1 as <-. injection G2 as <-. destruct Hp as (_ & _ & HRe & HRp).
  set (RA := (Re + Rp) / 2) in *. assert (HRA : 0 < RA) by (unfold RA; lra). clearbody RA.
  assert (E1 : RA * h1 / (RA + h1) * (RA + h1) = RA * h1) by (field; lra).
  assert (E2 : RA * h2 / (RA + h2) * (RA + h2) = RA * h2) by (field; lra).
  set (x := RA * h1 / (RA + h1)) in *. set (y := RA * h2 / (RA + h2)) in *. clearbody x y.
  assert (E : (y - x) * ((RA + h1) * (RA + h2)) = RA * RA * (h2 - h1)).
  { replace ((y - x) * ((RA + h1) * (RA + h2)))
      with (y * (RA + h2) * (RA + h1) - x * (RA + h1) * (RA + h2)) by ring.
    rewrite E1, E2. ring. }
  assert (0 < (RA + h1) * (RA + h2)) by (apply Rmult_lt_0_compat; lra).
  assert (0 < RA * RA * (h2 - h1)) by (repeat apply Rmult_lt_0_compat; lra). nra.
Qed.

(** ** C07 - C09: the launch site *)
Definition deg (x : R) : R := x * (PI / 180).
Lemma to_radians_fin : forall x, to_radians (N := N) (Fin x) = Fin (deg x).
Proof. intros x. unfold to_radians. xrs. rewrite xdiv_fin by lra. reflexivity. Qed.
Lemma cos_deg_pos : forall lat, -90 < lat < 90 -> 0 < cos (deg lat).
Proof.
  intros lat H. assert (P := PI_RGT_0). unfold deg. apply cos_gt_0; nra.
Qed.

(** The launch point computed for geocentric latitude [g] and longitude [l]. *)
Lemma site_level : forall Re Rp g l, 0 < Re -> 0 < Rp ->
  let d := Re / sqrt (1 + (Re / Rp * (Re / Rp) - 1) * (sin g * sin g)) in
  0 < 1 + (Re / Rp * (Re / Rp) - 1) * (sin g * sin g) /\ 0 < d /\
  level Re Rp (scaleR d (V3 (cos g * cos l) (cos g * sin l) (sin g))) = 1.
Proof.
  intros Re Rp g l HRe HRp d.
  assert (T := sin2_cos2 g). unfold Rsqr in T. assert (Tl := sin2_cos2 l). unfold Rsqr in Tl.
  assert (HK : 0 < Re / Rp * (Re / Rp)).
  { assert (0 < Re / Rp) by (apply Rdiv_lt_0_compat; lra). nra. }
  assert (P : 0 < 1 + (Re / Rp * (Re / Rp) - 1) * (sin g * sin g)).
  { set (K := Re / Rp * (Re / Rp)) in *. clearbody K.
    set (sg := sin g) in *. set (cg := cos g) in *. clearbody sg cg.
    destruct (Req_dec sg 0) as [E|E]; [subst sg; lra|].
    assert (0 < sg * sg) by nra. assert (0 < K * (sg * sg)) by (now apply Rmult_lt_0_compat). nra. }
  split; [exact P|].
  assert (HS : 0 < sqrt (1 + (Re / Rp * (Re / Rp) - 1) * (sin g * sin g))) by now apply sqrt_lt_R0.
  split; [now apply Rdiv_lt_0_compat|].
  rewrite level_scale. unfold level. cbn [vx vy vz].
  replace (cos g * cos l * (cos g * cos l) + cos g * sin l * (cos g * sin l)) with (cos g * cos g)
    by (replace (cos g * cos g) with (cos g * cos g * (sin l * sin l + cos l * cos l)) by (rewrite Tl; ring); ring).
  assert (HQ := sqrt_sqrt _ (Rlt_le _ _ P)).
  set (q := sqrt (1 + (Re / Rp * (Re / Rp) - 1) * (sin g * sin g))) in *.
  unfold d. fold q.
  replace (Re / q * (Re / q) * (cos g * cos g / (Re * Re) + sin g * sin g / (Rp * Rp)))
    with ((cos g * cos g + (Re / Rp * (Re / Rp)) * (sin g * sin g)) / (q * q)) by (field; lra).
  rewrite HQ. replace (cos g * cos g) with (1 - sin g * sin g) by lra.
  replace (1 - sin g * sin g + Re / Rp * (Re / Rp) * (sin g * sin g))
    with (1 + (Re / Rp * (Re / Rp) - 1) * (sin g * sin g)) by ring.
  apply Rinv_r. lra.
Qed.

(** What [Phase::init] computes. *)
Lemma phase_init_fin : forall (p : Phase N) Re Rp w lat long az alt, radii (ph_planet p) Re Rp ->
  pl_rotation_rate (ph_planet p) = Fin w -> -90 < lat < 90 ->
  let k := Re / Rp * (Re / Rp) in
  let g := atan (k * k * tan (deg lat)) in
  let d := Re / sqrt (1 + (k - 1) * (sin g * sin g)) in
  let r := scaleR d (V3 (cos g * cos (deg long)) (cos g * sin (deg long)) (sin g)) in
  let q := phase_init p (mkInitConfig (N := N) (Fin lat) (Fin long) (Fin az) alt) in
  st_position (ph_state q) = finv r /\
  st_velocity (ph_state q) = finv (crossR (V3 0 0 w) r) /\
  ph_launch q = finv (V3 g (deg long) (deg az)).
Proof.
  intros p Re Rp w lat long az alt (E1 & E2 & HRe & HRp) Ew Hlat k g d r q.
  assert (Hc := cos_deg_pos lat Hlat).
  destruct (site_level Re Rp g (deg long) HRe HRp) as [P [Hd _]].
  fold k in P, Hd.
  assert (G : n_atan (n_mul (powi (N := N) (powi (n_div (pl_equatorial_radius (ph_planet p)) (pl_polar_radius (ph_planet p))) 2) 2)
                (n_tan (to_radians (N := N) (Fin lat)))) = Fin g).
  { rewrite E1, E2, to_radians_fin. xrs. rewrite xdiv_fin by lra. xrs. rewrite xtan_fin by lra. xrs.
    apply f_equal. unfold g, k. f_equal. ring. }
  unfold q, phase_init.
  cbn [ic_latitude ic_longitude ic_azimuth ic_altitude].
  cbn [carrier XR] in G |- *. cbv zeta. rewrite G. rewrite !to_radians_fin, E1, E2.
  cbn [set_ph_launch set_ph_state ph_state ph_launch set_position set_velocity st_position st_velocity].
  assert (D : n_div (n := N) (Fin Re) (n_sqrt (n_add (n_lit 1 0)
      (n_mul (n_sub (powi (N := N) (n_div (n := N) (Fin Re) (Fin Rp)) 2) (n_lit 1 0)) (powi (N := N) (n_sin (n := N) (Fin g)) 2)))) = Fin d).
  { xrs. rewrite (xdiv_fin Re Rp) by lra. xrs. rewrite !Rmult_1_l. fold k.
    rewrite xsqrt_fin by lra. rewrite xdiv_fin; [reflexivity|].
    apply Rgt_not_eq. now apply sqrt_lt_R0. }
  cbn [carrier XR] in D |- *. rewrite D.
  split; [|split].
  - unfold vscale. xrs. reflexivity.
  - unfold velocity_planet, vneg, vsub, vcross, vscale, vzero. rewrite Ew. xrs.
    set (A := d * (cos g * cos (deg long))). set (B := d * (cos g * sin (deg long))).
    set (C := d * sin g). change r with (V3 A B C).
    unfold crossR, finv. cbn [vx vy vz].
    replace (- (0 - (0 * C - w * B))) with (0 * C - w * B) by ring.
    replace (- (0 - (w * A - 0 * C))) with (w * A - 0 * C) by ring.
    replace (- (0 - (0 * B - 0 * A))) with (0 * B - 0 * A) by ring. reflexivity.
  - reflexivity.
Qed.

(** The phase that starts a simulation with configuration [c]. *)
Lemma begins_single : forall (c : PhaseConfig N) (p : Phase N), begins [c] p ->
  exists i, pc_init c = Some i /\ p = reset (phase_init (configured default_phase c) i).
Proof.
  intros c p Hb.
  destruct (begins_simulate _ _ Hb [] c eq_refl) as [[_ [p' [Hn ->]]]|(p1 & fuel & h & q & p' & B & _)].
  2:{ inversion B. destruct cs; discriminate. }
  rewrite phase_new_configured in Hn. destruct (pc_init c) as [i|]; [|discriminate].
  injection Hn as <-. eauto.
Qed.

(** ** C07 *)
(** The vehicle starts on the ellipsoid, on the configured meridian, on the configured
    hemisphere, at altitude 0 and at rest relative to the rotating planet. *)
Theorem C07_surface : forall (c : PhaseConfig N) (p : Phase N) (s : State N) Re Rp w lat long az alt,
  begins [c] p -> initial p s -> radii (ph_planet p) Re Rp ->
  pl_rotation_rate (ph_planet p) = Fin w ->
  pc_init c = Some (mkInitConfig (N := N) (Fin lat) (Fin long) (Fin az) alt) -> -90 < lat < 90 ->
  exists r rho, st_position s = finv r /\ level Re Rp r = 1 /\
    0 < rho /\ vx r = rho * cos (deg long) /\ vy r = rho * sin (deg long) /\
    (0 < lat -> 0 < vz r) /\ (lat = 0 -> vz r = 0) /\ (lat < 0 -> vz r < 0) /\
    st_altitude s = Fin 0 /\ st_velocity_planet s = finv zeroR.
Proof.
  intros c p s Re Rp w lat long az alt Hb Hi HR Hw Hc Hlat.
  destruct (begins_single c p Hb) as [i [Ei Ep]]. rewrite Hc in Ei. injection Ei as <-.
  unfold initial in Hi. apply system_eom in Hi.
  assert (HR' : radii (ph_planet (configured default_phase c)) Re Rp) by (rewrite Ep in HR; exact HR).
  assert (Hw' : pl_rotation_rate (ph_planet (configured default_phase c)) = Fin w) by (rewrite Ep in Hw; exact Hw).
  destruct (phase_init_fin (configured default_phase c) Re Rp w lat long az alt HR' Hw' Hlat) as (A & B & _).
  set (k := Re / Rp * (Re / Rp)) in *. set (g := atan (k * k * tan (deg lat))) in *.
  set (d := Re / sqrt (1 + (k - 1) * (sin g * sin g))) in *.
  set (r := scaleR d (V3 (cos g * cos (deg long)) (cos g * sin (deg long)) (sin g))) in *.
  assert (HR2 := HR). destruct HR2 as (_ & _ & HRe & HRp).
  destruct (site_level Re Rp g (deg long) HRe HRp) as (_ & Hd & HL). fold k in Hd, HL. fold d in Hd, HL. fold r in HL.
  assert (Hcg : 0 < cos g).
  { destruct (atan_bound (k * k * tan (deg lat))) as [G1 G2]. fold g in G1, G2. apply cos_gt_0; lra. }
  assert (Er : st_position s = finv r).
  { rewrite (e_position _ _ _ Hi), Ep. exact A. }
  assert (Ev : st_velocity s = finv (crossR (V3 0 0 w) r)).
  { rewrite (e_velocity _ _ _ Hi), Ep. exact B. }
  assert (Hk : 0 < k * k).
  { assert (0 < Re / Rp) by (now apply Rdiv_lt_0_compat).
    assert (0 < k) by (unfold k; now apply Rmult_lt_0_compat). now apply Rmult_lt_0_compat. }
  assert (Hr0 : r <> zeroR).
  { intros E. rewrite E in HL. unfold level, zeroR in HL. cbn [vx vy vz] in HL. unfold Rdiv in HL. lra. }
  assert (Hc0 := cos_deg_pos lat Hlat).
  assert (Sg : sin g = k * k * tan (deg lat) * cos g).
  { assert (T := tan_atan (k * k * tan (deg lat))). fold g in T. unfold tan at 1 in T.
    rewrite <- T. field. lra. }
  assert (PI0 := PI_RGT_0).
  exists r, (d * cos g). split; [exact Er|]. split; [exact HL|].
  split; [now apply Rmult_lt_0_compat|].
  split; [unfold r, scaleR; cbn [vx]; ring|]. split; [unfold r, scaleR; cbn [vy]; ring|].
  assert (Vz : vz r = d * (k * k) * cos g * tan (deg lat)).
  { unfold r, scaleR. cbn [vz]. rewrite Sg. ring. }
  assert (Pz : 0 < d * (k * k) * cos g) by (apply Rmult_lt_0_compat; [apply Rmult_lt_0_compat; assumption|assumption]).
  assert (Tp : 0 < lat -> 0 < tan (deg lat)).
  { intros. apply tan_gt_0; unfold deg; nra. }
  assert (Tm : lat < 0 -> tan (deg lat) < 0).
  { intros. apply tan_lt_0; unfold deg; nra. }
  split; [|split; [|split; [|split]]].
  - intros H. rewrite Vz. apply Rmult_lt_0_compat; auto.
  - intros ->. rewrite Vz. replace (deg 0) with 0 by (unfold deg; ring). rewrite tan_0. ring.
  - intros H. rewrite Vz. specialize (Tm H). nra.
  - rewrite (e_altitude _ _ _ Hi), Er, (altitude_fin _ Re Rp r HR Hr0), HL, sqrt_1. f_equal. field.
  - rewrite (e_velocity_planet _ _ _ Hi), Er, Ev. unfold velocity_planet. rewrite Hw.
    change (V3 (@n_lit N 0 0) (n_lit 0 0) (Fin w)) with (finv (V3 0 0 w)).
    rewrite vcross_fin, vsub_fin. f_equal. unfold subR, zeroR. f_equal; ring.
Qed.

(** ** C08 *)
(** The configured altitude has no effect: the vehicle starts at altitude 0 ... *)
Theorem C08_refuted : forall (c : PhaseConfig N) (p : Phase N) (s : State N) Re Rp w lat long az h,
  begins [c] p -> initial p s -> radii (ph_planet p) Re Rp ->
  pl_rotation_rate (ph_planet p) = Fin w ->
  pc_init c = Some (mkInitConfig (N := N) (Fin lat) (Fin long) (Fin az) (Fin h)) -> -90 < lat < 90 ->
  h <> 0 -> st_altitude s = Fin 0 /\ st_altitude s <> Fin h.
Proof.
  intros c p s Re Rp w lat long az h Hb Hi HR Hw Hc Hl Hh.
  destruct (C07_surface c p s Re Rp w lat long az (Fin h) Hb Hi HR Hw Hc Hl)
    as (r & rho & _ & _ & _ & _ & _ & _ & _ & _ & A & _).
  split; [exact A|]. rewrite A. intros E. injection E as E. congruence.
Qed.
(** ... so the configuration is honoured only for altitude 0. *)
Theorem C08_zero_partial : forall (c : PhaseConfig N) (p : Phase N) (s : State N) Re Rp w lat long az,
  begins [c] p -> initial p s -> radii (ph_planet p) Re Rp ->
  pl_rotation_rate (ph_planet p) = Fin w ->
  pc_init c = Some (mkInitConfig (N := N) (Fin lat) (Fin long) (Fin az) (Fin 0)) -> -90 < lat < 90 ->
  st_altitude s = Fin 0.
Proof.
  intros c p s Re Rp w lat long az Hb Hi HR Hw Hc Hl.
  destruct (C07_surface c p s Re Rp w lat long az (Fin 0) Hb Hi HR Hw Hc Hl)
    as (r & rho & _ & _ & _ & _ & _ & _ & _ & _ & A & _). exact A.
Qed.

(** ** C09 *)
(** The tangent of the geodetic latitude of the launch point is (Re/Rp)^6 times that of
    the configured latitude. *)
Lemma launch_latitude : forall (c : PhaseConfig N) (p : Phase N) (s : State N) Re Rp w lat long az alt,
  begins [c] p -> initial p s -> radii (ph_planet p) Re Rp ->
  pl_rotation_rate (ph_planet p) = Fin w ->
  pc_init c = Some (mkInitConfig (N := N) (Fin lat) (Fin long) (Fin az) alt) -> -90 < lat < 90 ->
  exists r, st_position s = finv r /\
    forall phi, geodetic_latitude Re Rp r phi <->
      - (PI / 2) < phi < PI / 2 /\ tan phi = (Re / Rp) ^ 6 * tan (deg lat).
Proof.
  intros c p s Re Rp w lat long az alt Hb Hi HR Hw Hc Hlat.
  destruct (begins_single c p Hb) as [i [Ei Ep]]. rewrite Hc in Ei. injection Ei as <-.
  unfold initial in Hi. apply system_eom in Hi.
  assert (HR' : radii (ph_planet (configured default_phase c)) Re Rp) by (rewrite Ep in HR; exact HR).
  assert (Hw' : pl_rotation_rate (ph_planet (configured default_phase c)) = Fin w) by (rewrite Ep in Hw; exact Hw).
  destruct (phase_init_fin (configured default_phase c) Re Rp w lat long az alt HR' Hw' Hlat) as (A & _ & _).
  set (k := Re / Rp * (Re / Rp)) in *. set (g := atan (k * k * tan (deg lat))) in *.
  set (d := Re / sqrt (1 + (k - 1) * (sin g * sin g))) in *.
  set (r := scaleR d (V3 (cos g * cos (deg long)) (cos g * sin (deg long)) (sin g))) in *.
  destruct HR as (_ & _ & HRe & HRp).
  destruct (site_level Re Rp g (deg long) HRe HRp) as (_ & Hd & _). fold k in Hd. fold d in Hd.
  assert (Hcg : 0 < cos g).
  { destruct (atan_bound (k * k * tan (deg lat))) as [G1 G2]. fold g in G1, G2. apply cos_gt_0; lra. }
  assert (Sg : sin g = k * k * tan (deg lat) * cos g).
  { assert (T := tan_atan (k * k * tan (deg lat))). fold g in T. unfold tan at 1 in T.
    rewrite <- T. field. lra. }
  exists r. split.
  { rewrite (e_position _ _ _ Hi), Ep. exact A. }
  assert (Hrho : sqrt (vx r * vx r + vy r * vy r) = d * cos g).
  { replace (vx r * vx r + vy r * vy r) with ((d * cos g) * (d * cos g)).
    - apply sqrt_square. apply Rlt_le. now apply Rmult_lt_0_compat.
    - unfold r, scaleR. cbn [vx vy]. assert (T := sin2_cos2 (deg long)). unfold Rsqr in T.
      replace (d * cos g * (d * cos g)) with (d * cos g * (d * cos g) * (sin (deg long) * sin (deg long) + cos (deg long) * cos (deg long)))
        by (rewrite T; ring). ring. }
  assert (HD : 0 < d * cos g) by (now apply Rmult_lt_0_compat).
  assert (Hz : vz r = (d * cos g) * (k * k * tan (deg lat))).
  { unfold r, scaleR. cbn [vz]. rewrite Sg. ring. }
  set (t := tan (deg lat)) in *.
  intros phi. unfold geodetic_latitude. rewrite Hrho, Hz. split.
  - intros [Hphi E]. split; [exact Hphi|]. assert (Hcp : 0 < cos phi) by (apply cos_gt_0; lra).
    unfold tan. apply Rmult_eq_reg_r with (cos phi * (d * cos g / (Re * Re))).
    2:{ apply Rgt_not_eq. apply Rmult_lt_0_compat; [exact Hcp|]. apply Rdiv_lt_0_compat; nra. }
    transitivity (d * cos g / (Re * Re) * sin phi); [field; lra|]. rewrite <- E. unfold k. field. lra.
  - intros [Hphi E]. split; [exact Hphi|]. assert (Hcp : 0 < cos phi) by (apply cos_gt_0; lra).
    assert (Es : sin phi = (Re / Rp) ^ 6 * t * cos phi).
    { rewrite <- E. unfold tan. field. lra. }
    rewrite Es. unfold k. field. lra.
Qed.
(** On a spherical planet the configured latitude is honoured. *)
Theorem C09_spherical_partial : forall (c : PhaseConfig N) (p : Phase N) (s : State N) Re w lat long az alt,
  begins [c] p -> initial p s -> radii (ph_planet p) Re Re ->
  pl_rotation_rate (ph_planet p) = Fin w ->
  pc_init c = Some (mkInitConfig (N := N) (Fin lat) (Fin long) (Fin az) alt) -> -90 < lat < 90 ->
  exists r, st_position s = finv r /\ geodetic_latitude Re Re r (deg lat).
Proof.
  intros c p s Re w lat long az alt Hb Hi HR Hw Hc Hlat.
  destruct (launch_latitude c p s Re Re w lat long az alt Hb Hi HR Hw Hc Hlat) as [r [E H]].
  exists r. split; [exact E|]. apply H. split.
  - assert (P := PI_RGT_0). unfold deg. split; nra.
  - destruct HR as (_ & _ & HRe & _). replace (Re / Re) with 1 by (field; lra). ring.
Qed.
(** On every other planet it is wrong for every latitude except the equator. *)
Theorem C09_refuted : forall (c : PhaseConfig N) (p : Phase N) (s : State N) Re Rp w lat long az alt,
  begins [c] p -> initial p s -> radii (ph_planet p) Re Rp -> Re <> Rp ->
  pl_rotation_rate (ph_planet p) = Fin w ->
  pc_init c = Some (mkInitConfig (N := N) (Fin lat) (Fin long) (Fin az) alt) -> -90 < lat < 90 -> lat <> 0 ->
  exists r, st_position s = finv r /\ ~ geodetic_latitude Re Rp r (deg lat).
Proof.
  intros c p s Re Rp w lat long az alt Hb Hi HR Hne Hw Hc Hlat H0.
  destruct (launch_latitude c p s Re Rp w lat long az alt Hb Hi HR Hw Hc Hlat) as [r [E H]].
  exists r. split; [exact E|]. intros G. apply H in G. destruct G as [_ G].
  assert (P := PI_RGT_0). destruct HR as (_ & _ & HRe & HRp).
  assert (T : tan (deg lat) <> 0).
  { destruct (Rlt_dec lat 0).
    - apply Rlt_not_eq. apply tan_lt_0; unfold deg; nra.
    - apply Rgt_not_eq. apply tan_gt_0; unfold deg; nra. }
  assert (K : (Re / Rp) ^ 6 = 1) by (apply Rmult_eq_reg_r with (tan (deg lat)); lra).
  assert (Q : 0 < Re / Rp) by (now apply Rdiv_lt_0_compat).
  assert (Q1 : Re / Rp <> 1).
  { intros F. apply Hne. apply Rmult_eq_reg_r with (/ Rp); [|apply Rinv_neq_0_compat; lra].
    rewrite Rinv_r by lra. exact F. }
  set (q := Re / Rp) in *. clearbody q.
  replace (q ^ 6) with (q * q * q * (q * q * q)) in K by ring.
  destruct (Rlt_dec q 1).
  - assert (0 < q * q) by (now apply Rmult_lt_0_compat). assert (q * q < 1) by nra.
    set (u := q * q) in *. assert (0 < u * q) by (now apply Rmult_lt_0_compat).
    assert (u * q < 1) by nra. nra.
  - assert (1 < q) by lra. assert (1 < q * q) by nra.
    set (u := q * q) in *. assert (1 < u * q) by nra. nra.
Qed.

(** ** Non-vacuity: a launch from an oblate planet *)
Definition launch_config (Re Rp lat alt : R) : PhaseConfig N :=
  mkPhaseConfig (N := N) (Some (mkInitConfig (N := N) (Fin lat) (Fin 10) (Fin 90) (Fin alt)))
    (Some (mkVehicleConfig (N := N) (Some (Fin 1)) None None None None None None)) None
    (Some (Custom (N := N) (Fin Re) (Fin Rp) (Fin 1, Fin 0, Fin 0, Fin 0) (Fin 1))) None None None None.
Example ex_launch : forall Re Rp lat alt, 0 < Re -> 0 < Rp -> -90 < lat < 90 ->
  exists (p : Phase N) (s : State N), begins [launch_config Re Rp lat alt] p /\ initial p s /\
    radii (ph_planet p) Re Rp /\ pl_rotation_rate (ph_planet p) = Fin 1.
Proof.
  intros Re Rp lat alt HRe HRp Hlat.
  set (c := launch_config Re Rp lat alt). set (q := configured default_phase c).
  assert (Hn : phase_new None c = Ret (phase_init q (mkInitConfig (N := N) (Fin lat) (Fin 10) (Fin 90) (Fin alt)))).
  { rewrite phase_new_configured. reflexivity. }
  set (p := reset (phase_init q (mkInitConfig (N := N) (Fin lat) (Fin 10) (Fin 90) (Fin alt)))) in *.
  assert (HR : radii (ph_planet q) Re Rp) by (repeat split; assumption).
  destruct (phase_init_fin q Re Rp 1 lat 10 90 (Fin alt) HR eq_refl Hlat) as (A & B & _).
  assert (Hvac : vacuum p).
  { constructor; [reflexivity|exists zeroR; reflexivity|exists 0; reflexivity|exists 1; reflexivity|].
    repeat split; apply C18_default_table_accepted. }
  destruct (C49_vacuum p (ph_state p) [] _ _ 1 Hvac eq_refl eq_refl A B) as [s [Hs _]]; [|lra|].
  { change (Fin (0 + 1) = Fin 1). f_equal. ring. }
  exists p, s. split; [exact (begins_first c _ Hn)|]. split; [exact Hs|]. split; [|reflexivity].
  repeat split; assumption.
Qed.
End Code.
