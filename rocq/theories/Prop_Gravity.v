(** * C03, C04, C48: the gravity field *)
From Coq Require Import ZArith List Reals Lra Lia Bool.
From Coquelicot Require Import Coquelicot.
From Verif Require Import Num Constants State Tables Config Planet XR XRFacts SpecReal.
Import ListNotations.
Local Open Scope R_scope.

(** ** Specification *)
(** Legendre polynomials by Bonnet's recursion:
    (n+2) P_(n+2) (s) = (2n+3) s P_(n+1) (s) - (n+1) P_n (s). *)
Fixpoint legendre2 (n : nat) (s : R) : R * R :=   (* (P_n, P_(n+1)) *)
  match n with
  | O => (1, s)
  | S m => let (a, b) := legendre2 m s in
           (b, ((2 * INR m + 3) * s * b - (INR m + 1) * a) / (INR m + 2))
  end.
Definition legendre (n : nat) (s : R) : R := fst (legendre2 n s).

(** Gravitational potential (positive convention: g = grad U) with zonal
    harmonics J2, J3, J4. *)
Definition potential (mu J2 J3 J4 Re : R) (r : vec3 R) : R :=
  let n := normR r in
  mu / n * (1 - (J2 * (Re / n) ^ 2 * legendre 2 (vz r / n)
               + J3 * (Re / n) ^ 3 * legendre 3 (vz r / n)
               + J4 * (Re / n) ^ 4 * legendre 4 (vz r / n))).

(** Velocity of a curve. *)
Definition is_derive3 (c : R -> vec3 R) (t : R) (v : vec3 R) : Prop :=
  is_derive (fun t => vx (c t)) t (vx v) /\ is_derive (fun t => vy (c t)) t (vy v) /\
  is_derive (fun t => vz (c t)) t (vz v).

(** [g] is the gradient of [U] at [r]: the derivative of [U] along every curve through
    [r] is the scalar product of [g] with the velocity. *)
Definition gradient (U : vec3 R -> R) (r g : vec3 R) : Prop :=
  forall c t v, c t = r -> is_derive3 c t v -> is_derive (fun t => U (c t)) t (dotR g v).

(** ** Proofs *)
Lemma legendre_2 : forall s, legendre 2 s = (3 * s ^ 2 - 1) / 2.
Proof. intros. unfold legendre. cbn [legendre2 fst snd INR]. field. Qed.
Lemma legendre_3 : forall s, legendre 3 s = (5 * s ^ 3 - 3 * s) / 2.
Proof. intros. unfold legendre. cbn [legendre2 fst snd INR]. field. Qed.
Lemma legendre_4 : forall s, legendre 4 s = (35 * s ^ 4 - 30 * s ^ 2 + 3) / 8.
Proof. intros. unfold legendre. cbn [legendre2 fst snd INR]. field. Qed.

Section Real.
Variables mu J2 J3 J4 Re : R.
(** The potential as a function of distance and z. *)
Definition pot (r z : R) : R :=
  mu / r * (1 - (J2 * (Re / r) ^ 2 * ((3 * (z / r) ^ 2 - 1) / 2)
               + J3 * (Re / r) ^ 3 * ((5 * (z / r) ^ 3 - 3 * (z / r)) / 2)
               + J4 * (Re / r) ^ 4 * ((35 * (z / r) ^ 4 - 30 * (z / r) ^ 2 + 3) / 8))).
Definition pot_r (r z : R) : R :=
  - mu / r ^ 2 * (1 + 3 / 2 * J2 * (Re / r) ^ 2 * (1 - 5 * (z / r) ^ 2)
     + 5 / 2 * J3 * (Re / r) ^ 3 / r * (3 - 7 * (z / r) ^ 2) * z
     + - 35 / 8 * J4 * (Re / r) ^ 4 * (9 * (z / r) ^ 4 - 6 * (z / r) ^ 2 + 3 / 7)).
Definition pot_z (r z : R) : R :=
  - mu / r * (J2 * (Re / r) ^ 2 * (3 * z / r ^ 2)
     + J3 * (Re / r) ^ 3 * ((15 * z ^ 2 / r ^ 3 - 3 / r) / 2)
     + J4 * (Re / r) ^ 4 * ((140 * z ^ 3 / r ^ 4 - 60 * z / r ^ 2) / 8)).

Lemma pot_derive : forall (fr fz : R -> R) t dr dz, fr t <> 0 ->
  is_derive fr t dr -> is_derive fz t dz ->
  is_derive (fun t => pot (fr t) (fz t)) t (pot_r (fr t) (fz t) * dr + pot_z (fr t) (fz t) * dz).
Proof.
  intros fr fz t dr dz Hr Dr Dz.
  assert (Er : ex_derive fr t) by (eexists; exact Dr).
  assert (Ez : ex_derive fz t) by (eexists; exact Dz).
  apply is_derive_unique in Dr. apply is_derive_unique in Dz.
  change (Derive (fun x => fr x) t = dr) in Dr.
  change (Derive (fun x => fz x) t = dz) in Dz.
  unfold pot. auto_derive; [repeat split; auto|].
  rewrite Dr, Dz. unfold pot_r, pot_z. field. exact Hr.
Qed.

Definition grav (p : vec3 R) : vec3 R :=
  let r := normR p in
  V3 (pot_r r (vz p) * (vx p / r)) (pot_r r (vz p) * (vy p / r))
     (pot_r r (vz p) * (vz p / r) + pot_z r (vz p)).

Lemma norm_derive : forall c t v, c t <> zeroR -> is_derive3 c t v ->
  is_derive (fun t => normR (c t)) t (dotR (c t) v / normR (c t)).
Proof.
  intros c t v H0 [Dx [Dy Dz]].
  assert (Hpos := normR_pos _ H0). assert (Hsq := normR_sq (c t)).
  assert (Hd : 0 < dotR (c t) (c t)) by nra.
  assert (G : forall fx fy fz : R -> R, forall dx dy dz,
     is_derive fx t dx -> is_derive fy t dy -> is_derive fz t dz ->
     0 < fx t * fx t + fy t * fy t + fz t * fz t ->
     is_derive (fun t => sqrt (fx t * fx t + fy t * fy t + fz t * fz t)) t
      ((fx t * dx + fy t * dy + fz t * dz) / sqrt (fx t * fx t + fy t * fy t + fz t * fz t))).
  { clear. intros fx fy fz dx dy dz Hx Hy Hz Hp.
    assert (Ex : ex_derive fx t) by (eexists; exact Hx).
    assert (Ey : ex_derive fy t) by (eexists; exact Hy).
    assert (Ez : ex_derive fz t) by (eexists; exact Hz).
    apply is_derive_unique in Hx. apply is_derive_unique in Hy. apply is_derive_unique in Hz.
    change (Derive (fun x => fx x) t = dx) in Hx.
    change (Derive (fun x => fy x) t = dy) in Hy.
    change (Derive (fun x => fz x) t = dz) in Hz.
    auto_derive; [auto 20|]. rewrite Hx, Hy, Hz. field.
    apply Rgt_not_eq. apply sqrt_lt_R0. exact Hp. }
  exact (G _ _ _ _ _ _ Dx Dy Dz Hd).
Qed.

Lemma potential_pot : forall r, potential mu J2 J3 J4 Re r = pot (normR r) (vz r).
Proof. intros r. unfold potential, pot. rewrite legendre_2, legendre_3, legendre_4. reflexivity. Qed.

Lemma grav_gradient : forall r, r <> zeroR -> gradient (potential mu J2 J3 J4 Re) r (grav r).
Proof.
  intros r H0 c t v Hc D.
  apply (is_derive_ext (fun t => pot (normR (c t)) (vz (c t)))).
  { intros u. symmetry. apply potential_pot. }
  assert (H0' : c t <> zeroR) by (rewrite Hc; exact H0).
  assert (Hn := normR_pos _ H0').
  assert (Dn := norm_derive c t v H0' D). destruct D as [Dx [Dy Dz]].
  replace (dotR (grav r) v) with
    (pot_r (normR (c t)) (vz (c t)) * (dotR (c t) v / normR (c t))
     + pot_z (normR (c t)) (vz (c t)) * vz v).
  - apply (pot_derive (fun t => normR (c t)) (fun t => vz (c t))); [lra|exact Dn|exact Dz].
  - rewrite Hc. unfold dotR, grav. cbn [vx vy vz]. rewrite <- Hc. field. lra.
Qed.
End Real.

Section Code.
Context {rot : mat3 xr -> mat3 xr}.
Notation N := (XR rot).

(** A planet with real parameters. *)
Definition real_planet (p : Planet N) (Re Rp mu J2 J3 J4 w : R) : Prop :=
  p = mkPlanet (N := N) (Fin Re) (Fin Rp) (Fin mu, Fin J2, Fin J3, Fin J4) (Fin w).

Lemma gravity_real : forall p Re Rp mu J2 J3 J4 w r, real_planet p Re Rp mu J2 J3 J4 w ->
  r <> zeroR -> gravity p (finv r) = finv (grav mu J2 J3 J4 Re r).
Proof.
  intros p Re Rp mu0 J2 J3 J4 w r -> H0.
  assert (Hn := normR_pos _ H0).
  unfold gravity. rewrite norm_fin. unfold mu, gp0, gp1, gp2, gp3.
  cbn [pl_gravitational_parameters pl_equatorial_radius].
  destruct r as [x y z]. set (n := normR (V3 x y z)) in *.
  assert (Hn2 : n * n <> 0) by nra.
  cbn [finv vx vy vz]. xrs.
  repeat (rewrite !xdiv_fin by (cbv beta; repeat apply Rmult_integral_contrapositive_currified; lra); xrs).
  unfold grav. fold n. cbn [vx vy vz]. unfold finv. cbn [vx vy vz].
  unfold pot_r, pot_z. fin_eq; field; lra.
Qed.

(** ** C03 *)
Theorem C03_gradient : forall p Re Rp mu J2 J3 J4 w r,
  real_planet p Re Rp mu J2 J3 J4 w -> r <> zeroR ->
  exists g, gravity p (finv r) = finv g /\ gradient (potential mu J2 J3 J4 Re) r g.
Proof.
  intros p Re Rp mu0 J2 J3 J4 w r Hp H0. exists (grav mu0 J2 J3 J4 Re r).
  split; [eapply gravity_real; eauto|]. now apply grav_gradient.
Qed.

(** Conservative: the specific energy |v|^2/2 - U is constant along every motion
    whose acceleration is the computed gravity. *)
Theorem C03_energy : forall p Re Rp mu J2 J3 J4 w (c v : R -> vec3 R) t g,
  real_planet p Re Rp mu J2 J3 J4 w -> c t <> zeroR ->
  is_derive3 c t (v t) -> gravity p (finv (c t)) = finv g -> is_derive3 v t g ->
  is_derive (fun t => dotR (v t) (v t) / 2 - potential mu J2 J3 J4 Re (c t)) t 0.
Proof.
  intros p Re Rp mu0 J2 J3 J4 w c v t g Hp H0 Hc Hg Hv.
  destruct (C03_gradient p Re Rp mu0 J2 J3 J4 w (c t) Hp H0) as [g' [Hg' Hgrad]].
  rewrite Hg in Hg'. destruct g as [g0 g1 g2], g' as [g0' g1' g2'].
  injection Hg' as <- <- <-.
  specialize (Hgrad c t (v t) eq_refl Hc).
  replace 0 with (dotR (v t) (V3 g0 g1 g2) - dotR (V3 g0 g1 g2) (v t)) by (unfold dotR; ring).
  apply (is_derive_minus (fun t => dotR (v t) (v t) / 2) (fun t => potential mu0 J2 J3 J4 Re (c t)));
    [|exact Hgrad].
  assert (G : forall fx fy fz : R -> R, forall dx dy dz,
     is_derive fx t dx -> is_derive fy t dy -> is_derive fz t dz ->
     is_derive (fun t => (fx t * fx t + fy t * fy t + fz t * fz t) / 2) t
      (fx t * dx + fy t * dy + fz t * dz)).
  { clear. intros fx fy fz dx dy dz Hx Hy Hz.
    assert (Ex : ex_derive fx t) by (eexists; exact Hx).
    assert (Ey : ex_derive fy t) by (eexists; exact Hy).
    assert (Ez : ex_derive fz t) by (eexists; exact Hz).
    apply is_derive_unique in Hx. apply is_derive_unique in Hy. apply is_derive_unique in Hz.
    change (Derive (fun x => fx x) t = dx) in Hx.
    change (Derive (fun x => fy x) t = dy) in Hy.
    change (Derive (fun x => fz x) t = dz) in Hz.
    auto_derive; [auto 20|]. rewrite Hx, Hy, Hz. field. }
  destruct Hv as [Dx [Dy Dz]]. exact (G _ _ _ _ _ _ Dx Dy Dz).
Qed.

(** ** C04 *)
(** Without harmonics: antiparallel to r, magnitude mu/|r|^2. *)
Theorem C04_spherical : forall p Re Rp mu w r,
  real_planet p Re Rp mu 0 0 0 w -> r <> zeroR ->
  exists g, gravity p (finv r) = finv g /\
    g = scaleR (- mu / normR r ^ 3) r /\
    normR g = Rabs mu / normR r ^ 2.
Proof.
  intros p Re Rp mu0 w r Hp H0. exists (grav mu0 0 0 0 Re r).
  assert (Hn := normR_pos _ H0).
  split; [eapply gravity_real; eauto|].
  assert (E : grav mu0 0 0 0 Re r = scaleR (- mu0 / normR r ^ 3) r).
  { unfold grav, scaleR, pot_r, pot_z. f_equal; field; lra. }
  split; [exact E|]. rewrite E, normR_scale.
  unfold Rdiv at 1. rewrite Rabs_mult, Rabs_Ropp, Rabs_inv, (Rabs_right (normR r ^ 3)).
  - field. lra.
  - apply Rle_ge, pow_le. lra.
Qed.

(** The default planet and the model [spherical] are such planets. *)
Theorem C04_default_is_spherical :
  exists Re Rp mu w, real_planet default_planet Re Rp mu 0 0 0 w /\
    real_planet (planet_update_with_config Spherical) Re Rp mu 0 0 0 w /\
    Re = Rp /\ 0 < Re /\ 0 < mu /\ 0 < w.
Proof.
  exists (20925741 * (3048 / 10000)), (20925741 * (3048 / 10000)),
    (14076539000000000 * (3048 / 10000 * (3048 / 10000) * (3048 / 10000))), (729211 / 10000000000).
  unfold real_planet, default_planet, planet_update_with_config, EARTH_SPHERICAL,
    CUBIC_METER_PER_CUBIC_FOOT, METER_PER_FOOT. xrs.
  split; [reflexivity|]. split; [reflexivity|]. split; [reflexivity|].
  repeat split; lra.
Qed.

(** ** C48: the field is axisymmetric *)
(** It has no component around the polar axis, commutes with turning about the axis,
    and mirrors in z when J3 = 0. *)
Theorem C48_no_torque : forall p Re Rp mu J2 J3 J4 w r,
  real_planet p Re Rp mu J2 J3 J4 w -> r <> zeroR ->
  exists g, gravity p (finv r) = finv g /\ vz (crossR r g) = 0.
Proof.
  intros p Re Rp mu0 J2 J3 J4 w r Hp H0. exists (grav mu0 J2 J3 J4 Re r).
  split; [eapply gravity_real; eauto|]. unfold crossR, grav. cbn [vx vy vz].
  assert (Hn := normR_pos _ H0). field. lra.
Qed.
Definition turn (a : R) (r : vec3 R) : vec3 R :=
  V3 (cos a * vx r - sin a * vy r) (sin a * vx r + cos a * vy r) (vz r).
Lemma turn_norm : forall a r, normR (turn a r) = normR r.
Proof.
  intros a [x y z]. unfold normR. f_equal. unfold dotR, turn. cbn [vx vy vz].
  pose proof (sin2_cos2 a) as H. unfold Rsqr in H.
  replace (_ + _ + _) with ((sin a * sin a + cos a * cos a) * (x * x + y * y) + z * z) by ring.
  rewrite H. ring.
Qed.
Theorem C48_axisymmetric : forall p Re Rp mu J2 J3 J4 w r a,
  real_planet p Re Rp mu J2 J3 J4 w -> r <> zeroR ->
  exists g, gravity p (finv r) = finv g /\ gravity p (finv (turn a r)) = finv (turn a g).
Proof.
  intros p Re Rp mu0 J2 J3 J4 w r a Hp H0. exists (grav mu0 J2 J3 J4 Re r).
  split; [eapply gravity_real; eauto|].
  assert (Hn := normR_pos _ H0).
  rewrite (gravity_real p Re Rp mu0 J2 J3 J4 w); [|exact Hp|].
  - f_equal. unfold grav. rewrite turn_norm. unfold turn. cbn [vx vy vz]. f_equal; field; lra.
  - intros E. apply (f_equal normR) in E. rewrite turn_norm, normR_zeroR in E. lra.
Qed.
Theorem C48_mirror : forall p Re Rp mu J2 J4 w x y z,
  real_planet p Re Rp mu J2 0 J4 w -> V3 x y z <> zeroR ->
  exists gx gy gz, gravity p (finv (V3 x y z)) = finv (V3 gx gy gz) /\
    gravity p (finv (V3 x y (- z))) = finv (V3 gx gy (- gz)).
Proof.
  intros p Re Rp mu0 J2 J4 w x y z Hp H0.
  assert (Hn := normR_pos _ H0).
  assert (En : normR (V3 x y (- z)) = normR (V3 x y z)).
  { unfold normR, dotR. cbn. f_equal. ring. }
  rewrite (gravity_real p Re Rp mu0 J2 0 J4 w) by auto.
  rewrite (gravity_real p Re Rp mu0 J2 0 J4 w); auto.
  2: { intros E. apply (f_equal normR) in E. rewrite En, normR_zeroR in E. lra. }
  unfold grav. rewrite En. cbn [vx vy vz]. do 3 eexists. split; [reflexivity|].
  f_equal. unfold pot_r, pot_z. f_equal; field; lra.
Qed.
(** Polar angular momentum is conserved along every motion under the computed gravity. *)
Theorem C48_polar_angular_momentum : forall p Re Rp mu J2 J3 J4 w (c v : R -> vec3 R) t g,
  real_planet p Re Rp mu J2 J3 J4 w -> c t <> zeroR ->
  is_derive3 c t (v t) -> gravity p (finv (c t)) = finv g -> is_derive3 v t g ->
  is_derive (fun t => vz (crossR (c t) (v t))) t 0.
Proof.
  intros p Re Rp mu0 J2 J3 J4 w c v t g Hp H0 [Cx [Cy _]] Hg [Vx [Vy _]].
  destruct (C48_no_torque p Re Rp mu0 J2 J3 J4 w (c t) Hp H0) as [g' [Hg' Ht]].
  rewrite Hg in Hg'. destruct g as [g0 g1 g2], g' as [g0' g1' g2'].
  injection Hg' as <- <- <-. cbn [vx vy vz crossR] in *.
  assert (G : forall fx fy ux uy : R -> R, forall gx gy,
     is_derive fx t (ux t) -> is_derive fy t (uy t) -> is_derive ux t gx -> is_derive uy t gy ->
     is_derive (fun t => fx t * uy t - fy t * ux t) t (fx t * gy - fy t * gx)).
  { clear. intros fx fy ux uy gx gy Hx Hy Hz Hw.
    assert (Ex : ex_derive fx t) by (eexists; exact Hx).
    assert (Ey : ex_derive fy t) by (eexists; exact Hy).
    assert (Ez : ex_derive ux t) by (eexists; exact Hz).
    assert (Ew : ex_derive uy t) by (eexists; exact Hw).
    apply is_derive_unique in Hx. apply is_derive_unique in Hy. apply is_derive_unique in Hz.
    apply is_derive_unique in Hw.
    change (Derive (fun x => fx x) t = ux t) in Hx.
    change (Derive (fun x => fy x) t = uy t) in Hy.
    change (Derive (fun x => ux x) t = gx) in Hz.
    change (Derive (fun x => uy x) t = gy) in Hw.
    auto_derive; [auto 20|]. rewrite Hx, Hy, Hz, Hw. ring. }
  rewrite <- Ht. exact (G _ _ _ _ _ _ Cx Cy Vx Vy).
Qed.

(** ** Concrete instances *)
Example ex_real_planet : exists p : Planet N, real_planet p 2 1 5 (1/10) (1/100) (1/1000) 1.
Proof. eexists. reflexivity. Qed.
Example ex_gravity_point : V3 1 2 3 <> zeroR.
Proof. unfold zeroR. intros H. injection H. lra. Qed.
(** The Smithsonian model has all three harmonics. *)
Example ex_smithsonian : exists Re Rp mu J2 J3 J4 w,
  real_planet EARTH_SMITHSONIAN Re Rp mu J2 J3 J4 w /\ J2 <> 0 /\ J3 <> 0 /\ J4 <> 0.
Proof.
  do 7 eexists. unfold real_planet, EARTH_SMITHSONIAN, CUBIC_METER_PER_CUBIC_FOOT, METER_PER_FOOT.
  xrs. split; [reflexivity|]. repeat split; lra.
Qed.
End Code.
