(** * C65 for spherical planets: every solution of the differential equation

    For the inverse-square field the acceleration along a motion is twice differentiable, with a bound that follows from the
    distance and the speed, so that no hypothesis on it is needed. *)
From Coq Require Import ZArith List Reals Lra Lia Bool.
From Coquelicot Require Import Coquelicot.
From Coq Require Import List.
From Flocq Require Import Core BinarySingleNaN.
From Verif Require Import Num Constants State Tables Config Planet Atmosphere Transformations Steering Vehicle RungeKutta Phase Simulation
  XR XRFacts SpecReal SystemFacts B64 B64Facts Prop_Run Prop_Simulation Prop_Gravity Prop_InterpIEEE Prop_IEEE Rounding
  Prop_Mission Prop_GravityIEEE FieldBounds RK4Error StepIEEE CoastStep Prop_CoastIEEE Motion Prop_Motion.
Import ListNotations.
Local Open Scope R_scope.

(** Newton's field: towards the centre, [mu] divided by the square of the distance. *)
Definition newton (mu : R) (x : vec3 R) : vec3 R := scaleR (- mu / normR x ^ 3) x.
(** A body that falls freely in the field [g] from time 0 to [T]. *)
Definition free_fall (g : vec3 R -> vec3 R) (T : R) (x v : R -> vec3 R) : Prop :=
  forall t, 0 <= t <= T -> is_derive3 x t (v t) /\ is_derive3 v t (g (x t)).

Lemma newton_gradient : forall mu Re x, x <> zeroR -> gradient (potential mu 0 0 0 Re) x (newton mu x).
Proof.
  intros mu Re x H. assert (P := normR_pos _ H). replace (newton mu x) with (grav mu 0 0 0 Re x); [now apply grav_gradient|].
  unfold grav, newton, pot_r, pot_z, scaleR. destruct x as [a b c]. cbn [vx vy vz] in *. set (r := normR _) in *. f_equal; field; lra.
Qed.

(** ** Derivatives *)
Lemma derive_a : forall mu (fr fx : R -> R) t dr dx, fr t <> 0 -> is_derive fr t dr -> is_derive fx t dx ->
  is_derive (fun t => - mu / fr t ^ 3 * fx t) t (- mu / fr t ^ 3 * dx + 3 * mu / fr t ^ 4 * dr * fx t).
Proof.
  intros mu fr fx t dr dx H Dr Dx. assert (Er : ex_derive fr t) by (eexists; exact Dr). assert (Ex : ex_derive fx t) by (eexists; exact Dx).
  apply is_derive_unique in Dr, Dx. change (Derive (fun x => fr x) t = dr) in Dr. change (Derive (fun x => fx x) t = dx) in Dx.
  auto_derive.
  - repeat split; auto. assert (fr t ^ 3 <> 0) by (now apply pow_nonzero). cbn [pow] in *. auto.
  - rewrite Dr, Dx. field. exact H.
Qed.
Lemma derive_j : forall mu (fr fp fx fv : R -> R) t dr dp dx dv, fr t <> 0 -> is_derive fr t dr -> is_derive fp t dp -> is_derive fx t dx -> is_derive fv t dv ->
  is_derive (fun t => - mu / fr t ^ 3 * fv t + 3 * mu * fp t / fr t ^ 5 * fx t) t
    (- mu / fr t ^ 3 * dv + 3 * mu / fr t ^ 4 * dr * fv t + (3 * mu * dp / fr t ^ 5 * fx t - 15 * mu * fp t / fr t ^ 6 * dr * fx t + 3 * mu * fp t / fr t ^ 5 * dx)).
Proof.
  intros mu fr fp fx fv t dr dp dx dv H Dr Dp Dx Dv.
  assert (Er : ex_derive fr t) by (eexists; exact Dr). assert (Ex : ex_derive fx t) by (eexists; exact Dx).
  assert (Ep : ex_derive fp t) by (eexists; exact Dp). assert (Ev : ex_derive fv t) by (eexists; exact Dv).
  apply is_derive_unique in Dr, Dx, Dp, Dv. change (Derive (fun x => fr x) t = dr) in Dr. change (Derive (fun x => fx x) t = dx) in Dx.
  change (Derive (fun x => fp x) t = dp) in Dp. change (Derive (fun x => fv x) t = dv) in Dv.
  auto_derive.
  - assert (A3 : fr t ^ 3 <> 0) by (now apply pow_nonzero). assert (A5 : fr t ^ 5 <> 0) by (now apply pow_nonzero). cbn [pow] in A3, A5. repeat split; auto.
  - rewrite Dr, Dx, Dp, Dv. field. exact H.
Qed.
Lemma dot_derive : forall (x v : R -> vec3 R) t a, is_derive3 x t (v t) -> is_derive3 v t a -> is_derive (fun t => dotR (x t) (v t)) t (dotR (v t) (v t) + dotR (x t) a).
Proof.
  assert (M : forall (f h : R -> R) t df dh, is_derive f t df -> is_derive h t dh -> is_derive (fun t => f t * h t) t (df * h t + f t * dh)).
  { intros f h t df dh A B. assert (X := is_derive_mult f h t df dh A B ltac:(intros; apply Rmult_comm)). exact X. }
  intros x v t a (A1 & A2 & A3) (B1 & B2 & B3). unfold dotR.
  replace (vx (v t) * vx (v t) + vy (v t) * vy (v t) + vz (v t) * vz (v t) + (vx (x t) * vx a + vy (x t) * vy a + vz (x t) * vz a))
    with ((vx (v t) * vx (v t) + vx (x t) * vx a) + (vy (v t) * vy (v t) + vy (x t) * vy a) + (vz (v t) * vz (v t) + vz (x t) * vz a)) by ring.
  apply (is_derive_plus (fun t => vx (x t) * vx (v t) + vy (x t) * vy (v t)) (fun t => vz (x t) * vz (v t)) t (vx (v t) * vx (v t) + vx (x t) * vx a + (vy (v t) * vy (v t) + vy (x t) * vy a))).
  - apply (is_derive_plus (fun t => vx (x t) * vx (v t)) (fun t => vy (x t) * vy (v t)) t (vx (v t) * vx (v t) + vx (x t) * vx a) (vy (v t) * vy (v t) + vy (x t) * vy a)); now apply M.
  - now apply M.
Qed.
Lemma derive_value : forall (f : R -> R) (t d d' : R), is_derive f t d -> d = d' -> is_derive f t d'.
Proof. intros f t d d' D E. rewrite <- E. exact D. Qed.
(** The rate of change of Newton's acceleration, and its rate of change. *)
Definition jerk (mu : R) (x v : vec3 R) : vec3 R := addR (scaleR (- mu / normR x ^ 3) v) (scaleR (3 * mu * dotR x v / normR x ^ 5) x).
Definition snap (mu : R) (x v : vec3 R) : vec3 R :=
  subR (scaleR (mu / normR x ^ 4) (addR (scaleR (6 * (dotR x v / normR x)) v) (scaleR ((3 * dotR v v - 15 * (dotR x v / normR x) ^ 2) / normR x) x)))
    (scaleR (2 * mu ^ 2 / normR x ^ 6) x).
Lemma jerk_derive : forall mu (x v : R -> vec3 R) t, x t <> zeroR -> is_derive3 x t (v t) -> is_derive3 (fun t => newton mu (x t)) t (jerk mu (x t) (v t)).
Proof.
  intros mu x v t H D. assert (P := normR_pos _ H). assert (Pn : normR (x t) <> 0) by (apply Rgt_not_eq; lra). assert (Dr := norm_derive x t (v t) H D). destruct D as (D1 & D2 & D3).
  unfold newton, jerk, scaleR, addR. split; [|split]; cbn [vx vy vz].
  - eapply derive_value; [apply (derive_a mu (fun t => normR (x t)) (fun t => vx (x t)) t _ _ Pn Dr D1)|cbv beta; field; exact Pn].
  - eapply derive_value; [apply (derive_a mu (fun t => normR (x t)) (fun t => vy (x t)) t _ _ Pn Dr D2)|cbv beta; field; exact Pn].
  - eapply derive_value; [apply (derive_a mu (fun t => normR (x t)) (fun t => vz (x t)) t _ _ Pn Dr D3)|cbv beta; field; exact Pn].
Qed.
Lemma snap_derive : forall mu (x v : R -> vec3 R) t, x t <> zeroR -> is_derive3 x t (v t) -> is_derive3 v t (newton mu (x t)) ->
  is_derive3 (fun t => jerk mu (x t) (v t)) t (snap mu (x t) (v t)).
Proof.
  intros mu x v t H D B. assert (P := normR_pos _ H). assert (Pn : normR (x t) <> 0) by (apply Rgt_not_eq; lra). assert (Dr := norm_derive x t (v t) H D). assert (Dp := dot_derive x v t _ D B).
  replace (dotR (v t) (v t) + dotR (x t) (newton mu (x t))) with (dotR (v t) (v t) - mu / normR (x t)) in Dp.
  2:{ assert (Q := normR_sq (x t)). unfold newton. replace (dotR (x t) (scaleR (- mu / normR (x t) ^ 3) (x t))) with (- mu / normR (x t) ^ 3 * dotR (x t) (x t)) by (unfold dotR, scaleR; cbn [vx vy vz]; ring).
      rewrite <- Q. field. lra. }
  destruct D as (D1 & D2 & D3), B as (B1 & B2 & B3).
  unfold newton, scaleR in B1, B2, B3. cbn [vx vy vz] in B1, B2, B3.
  unfold jerk, snap, scaleR, addR, subR. split; [|split]; cbn [vx vy vz].
  - eapply derive_value; [apply (derive_j mu (fun t => normR (x t)) (fun t => dotR (x t) (v t)) (fun t => vx (x t)) (fun t => vx (v t)) t _ _ _ _ Pn Dr Dp D1 B1)|cbv beta; field; exact Pn].
  - eapply derive_value; [apply (derive_j mu (fun t => normR (x t)) (fun t => dotR (x t) (v t)) (fun t => vy (x t)) (fun t => vy (v t)) t _ _ _ _ Pn Dr Dp D2 B2)|cbv beta; field; exact Pn].
  - eapply derive_value; [apply (derive_j mu (fun t => normR (x t)) (fun t => dotR (x t) (v t)) (fun t => vz (x t)) (fun t => vz (v t)) t _ _ _ _ Pn Dr Dp D3 B3)|cbv beta; field; exact Pn].
Qed.
Lemma sub_norm : forall a b, normR (subR a b) <= normR a + normR b.
Proof.
  intros a b. replace (subR a b) with (addR a (scaleR (-1) b)) by (destruct a as [a1 a2 a3], b as [b1 b2 b3]; unfold subR, addR, scaleR; cbn [vx vy vz]; f_equal; ring).
  eapply Rle_trans; [apply norm_add|]. rewrite (normR_scale (-1)). replace (Rabs (-1)) with 1 by (rewrite Rabs_left; lra). lra.
Qed.
Lemma snap_bound : forall mu x v R0 W, 0 < mu -> 0 < R0 -> R0 <= normR x -> normR v <= W ->
  normR (snap mu x v) <= mu * (6 * W ^ 2 / R0 ^ 4 + 2 * mu / R0 ^ 5).
Proof.
  intros mu x v R0 W Pm P0 Hx Hv. set (r := normR x) in *. assert (Pr : 0 < r) by lra. assert (V0 := normR_ge0 v). assert (Q := normR_sq x). fold r in Q. assert (QV := normR_sq v).
  assert (CS := cauchy_abs x v). fold r in CS. unfold snap. fold r. set (p := dotR x v / r) in *.
  assert (Ep : dotR x v = p * r) by (unfold p; field; lra).
  assert (P2 : p ^ 2 <= normR v ^ 2).
  { assert (Rabs p <= normR v).
    { unfold p, Rdiv. rewrite Rabs_mult, (Rabs_pos_eq (/ r)) by (left; now apply Rinv_0_lt_compat). apply (Rmult_le_reg_r r); [exact Pr|]. rewrite Rmult_assoc, Rinv_l by lra. lra. }
    rewrite <- (pow2_abs p). apply pow_incr. split; [apply Rabs_pos|assumption]. }
  set (w := addR (scaleR (6 * p) v) (scaleR ((3 * dotR v v - 15 * p ^ 2) / r) x)).
  assert (NW : normR w <= 6 * W ^ 2).
  { assert (S0 : 0 <= normR v ^ 2) by (apply pow2_ge_0). assert (Sp : 0 <= p ^ 2) by apply pow2_ge_0.
    assert (E : normR w * normR w = 9 * (normR v ^ 2) ^ 2 - 18 * p ^ 2 * normR v ^ 2 + 45 * (p ^ 2) ^ 2).
    { rewrite normR_sq. unfold w. rewrite <- QV. set (k := (3 * (normR v * normR v) - 15 * p ^ 2) / r).
      replace (dotR (addR (scaleR (6 * p) v) (scaleR k x)) (addR (scaleR (6 * p) v) (scaleR k x))) with (36 * p ^ 2 * dotR v v + 12 * p * k * dotR x v + k ^ 2 * dotR x x)
        by (unfold dotR, addR, scaleR; cbn [vx vy vz]; ring).
      rewrite <- QV, <- Q, Ep. unfold k. field. lra. }
    assert (F : normR w * normR w <= (6 * normR v ^ 2) * (6 * normR v ^ 2)).
    { rewrite E. set (a := normR v ^ 2) in *. set (b := p ^ 2) in *. assert (0 <= (a - b) * (27 * a + 45 * b)) by (apply Rmult_le_pos; lra). nra. }
    assert (G : normR w <= 6 * normR v ^ 2) by (apply Rsqr_incr_0_var; [exact F|lra]).
    assert (normR v ^ 2 <= W ^ 2) by (apply pow_incr; lra). lra. }
  assert (I1 : 0 < / r <= / R0) by (split; [now apply Rinv_0_lt_compat|apply Rinv_le_contravar; lra]).
  eapply Rle_trans; [apply sub_norm|]. rewrite !normR_scale. fold r.
  assert (W0 := normR_ge0 w). assert (W2 : 0 <= W ^ 2) by apply pow2_ge_0.
  rewrite (Rabs_pos_eq (mu / r ^ 4)) by (left; apply Rdiv_lt_0_compat; [exact Pm|now apply pow_lt]).
  rewrite (Rabs_pos_eq (2 * mu ^ 2 / r ^ 6)) by (left; apply Rdiv_lt_0_compat; [assert (0 < mu ^ 2) by (now apply pow_lt); lra|now apply pow_lt]).
  assert (A : mu / r ^ 4 * normR w <= mu * (6 * W ^ 2 / R0 ^ 4)).
  { replace (mu / r ^ 4) with (mu * (/ r) ^ 4) by (field; lra). replace (6 * W ^ 2 / R0 ^ 4) with ((/ R0) ^ 4 * (6 * W ^ 2)) by (field; lra). rewrite Rmult_assoc.
    apply Rmult_le_compat_l; [lra|]. apply Rmult_le_compat; [apply pow_le; lra|lra|apply pow_incr; lra|exact NW]. }
  assert (B : 2 * mu ^ 2 / r ^ 6 * r <= mu * (2 * mu / R0 ^ 5)).
  { replace (2 * mu ^ 2 / r ^ 6 * r) with (2 * mu ^ 2 * (/ r) ^ 5) by (field; lra). replace (mu * (2 * mu / R0 ^ 5)) with (2 * mu ^ 2 * (/ R0) ^ 5) by (field; lra).
    apply Rmult_le_compat_l; [assert (0 < mu ^ 2) by (now apply pow_lt); lra|apply pow_incr; lra]. }
  lra.
Qed.
(** Free fall around a point mass, outside [R0] and not faster than [W], is a motion in the sense of C65. *)
Lemma newton_motion : forall mu T R0 W x v, 0 < mu -> 0 < R0 -> free_fall (newton mu) T x v -> outside T R0 W x v ->
  motion (newton mu) T (mu * (6 * W ^ 2 / R0 ^ 4 + 2 * mu / R0 ^ 5)) x v.
Proof.
  intros mu T R0 W x v Pm P0 F Out. exists (fun t => jerk mu (x t) (v t)), (fun t => snap mu (x t) (v t)). intros t Ht.
  destruct (F t Ht) as [D B]. destruct (Out t Ht) as [O1 O2].
  assert (NZ : x t <> zeroR) by (intros E; rewrite E, normR_zeroR in O1; lra).
  split; [exact D|]. split; [exact B|]. split; [now apply jerk_derive|]. split; [now apply snap_derive|]. now apply snap_bound.
Qed.

(** ** C65, spherical planets *)
Section IEEE.
Variable lm : libm.
Notation N := (B64 lm).
(** Every free fall around the planet that starts near the first record is near all records, in double precision. *)
Theorem C65_spherical : forall fuel (cs : list (PhaseConfig N)) ev st a i h b n Re mu R0 M W lam s1 x v delta,
  simulate fuel cs = (ev, st) -> block ev a i h b -> engines_in_effect cs i = [] -> atmosphere_in_effect cs i = false ->
  circumstances lm (planet_update_with_config (planet_in_effect cs i)) Re mu 0 0 0 R0 M W lam ->
  (forall k s, (k <= n)%nat -> nth_error h k = Some s -> B2R (st_time_since_event s) = INR k + 1 /\ in_range lm R0 M W s) ->
  drift M W (mu / R0 ^ 2) lam n <= R0 / 100 -> nth_error h 0 = Some s1 ->
  free_fall (newton mu) (INR n) x v -> outside (INR n) R0 W x v ->
  lam * normR (subR (realv (st_position s1)) (x 0)) + normR (subR (realv (st_velocity s1)) (v 0)) <= delta ->
  let K := mu * (6 * W ^ 2 / R0 ^ 4 + 2 * mu / R0 ^ 5) in
  gap W (mu / R0 ^ 2) K lam delta n <= lam * (R0 / 100) ->
  forall k s, (k <= n)%nat -> nth_error h k = Some s ->
    normR (subR (realv (st_position s)) (x (INR k))) <= drift M W (mu / R0 ^ 2) lam k + gap W (mu / R0 ^ 2) K lam delta k / lam /\
    normR (subR (realv (st_velocity s)) (v (INR k))) <= lam * drift M W (mu / R0 ^ 2) lam k + gap W (mu / R0 ^ 2) K lam delta k.
Proof.
  intros fuel cs ev st a i h b n Re mu R0 M W lam s1 x v delta H Bl He Ha C Hr Hd H1 F Out D0 K Hn k s Hk Hs.
  assert (O := circumstances_data lm _ _ _ _ _ _ _ _ _ _ C).
  apply (C65_records lm fuel cs ev st a i h b n Re mu 0 0 0 R0 M W lam (newton mu) s1 K x v delta); auto.
  - intros y Hy. now apply newton_gradient.
  - apply newton_motion; auto; [apply (o_mu _ _ _ _ _ _ _ _ O)|apply (o_R0 _ _ _ _ _ _ _ _ O)].
Qed.
End IEEE.
