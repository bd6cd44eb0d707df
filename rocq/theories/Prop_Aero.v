(** * C15, C16, C51: angle of attack and aerodynamic force, in exact arithmetic *)
From Coq Require Import ZArith List Reals Lra Lia Bool.
From Verif Require Import Num Constants State Tables Config Planet Atmosphere Transformations
  Steering Vehicle RungeKutta Phase Simulation XR XRFacts SpecReal SystemFacts RKFacts RunFacts PhaseNew
  Prop_Run SystemTotal.
Import ListNotations.
Local Open Scope R_scope.

Section Exact.
Context {rot : mat3 xr -> mat3 xr}.
Notation N := (XR rot).

(** ** C16 *)
(** Forward airflow: the angle whose tangent is v_z / v_x; equivalently the angle of
    the projection of the airflow on the body x-z plane. *)
Theorem C16_forward : forall v, 1 / 1000000 <= vx v ->
  exists a, alpha (N := N) (finv v) = Fin a /\ - (PI / 2) < a < PI / 2 /\ tan a = vz v / vx v /\
    let w := sqrt (vx v * vx v + vz v * vz v) in vx v = w * cos a /\ vz v = w * sin a.
Proof.
  intros [x y z] Hx. cbn [vx vz] in *. exists (atan (z / x)).
  assert (B := atan_bound (z / x)). assert (T := tan_atan (z / x)).
  split; [|split; [lra|split; [exact T|]]].
  - unfold alpha, NEARLY_ZERO. unfold finv. cbn [vx vz]. xrs. rewrite Rltb_false by lra.
    rewrite xdiv_fin by lra. reflexivity.
  - cbv zeta. set (a := atan (z / x)) in *.
    assert (C : 0 < cos a) by (apply cos_gt_0; lra).
    assert (Ez : z * cos a = x * sin a).
    { unfold tan in T. assert (sin a = z / x * cos a) by (rewrite <- T; field; lra). rewrite H. field. lra. }
    assert (S := sin2_cos2 a). unfold Rsqr in S.
    assert (Ew : sqrt (x * x + z * z) = x / cos a).
    { apply sqrt_lem_1; [nra| |].
      - apply Rlt_le. apply Rdiv_lt_0_compat; lra.
      - replace (x / cos a * (x / cos a)) with (x * x * / (cos a * cos a)) by (field; lra).
        apply Rmult_eq_reg_r with (cos a * cos a); [|nra].
        rewrite Rmult_assoc, Rinv_l by nra.
        replace ((x * x + z * z) * (cos a * cos a)) with (x * x * (cos a * cos a) + (z * cos a) * (z * cos a)) by ring.
        rewrite Ez. replace (x * x * (cos a * cos a) + x * sin a * (x * sin a))
          with (x * x * (sin a * sin a + cos a * cos a)) by ring. rewrite S. ring. }
    rewrite Ew. split; [field; lra|].
    apply Rmult_eq_reg_r with (cos a); [|lra]. rewrite Ez. field. lra.
Qed.
(** No forward component, airflow from below. *)
Theorem C16_from_below_partial : forall v, vx v < 1 / 1000000 -> 1 / 1000000 <= vz v ->
  alpha (N := N) (finv v) = Fin (PI / 2).
Proof.
  intros [x y z] Hx Hz. cbn [vx vz] in *. unfold alpha, NEARLY_ZERO, finv. cbn [vx vz]. xrs.
  rewrite Rltb_true by lra. unfold xsignum. rewrite !Rltb_false by lra.
  cbn [xmul]. rewrite xdiv_fin by lra. f_equal. lra.
Qed.
(** The angle is real for every real airflow. *)
Theorem C16_finite : forall v, exists a, alpha (N := N) (finv v) = Fin a /\ - (PI / 2) < a <= PI / 2.
Proof.
  intros v. assert (P := PI_RGT_0).
  destruct (Rlt_dec (vx v) (1 / 1000000)) as [Hx|Hx].
  - destruct (Rlt_dec (vz v) (1 / 1000000)) as [Hz|Hz].
    + exists 0. split; [|lra]. unfold alpha, NEARLY_ZERO, finv. cbn [vx vz]. xrs.
      rewrite !Rltb_true by lra. reflexivity.
    + exists (PI / 2). split; [|lra]. apply C16_from_below_partial; lra.
  - destruct (C16_forward v) as (a & E & B & _); [lra|]. exists a. split; [exact E|lra].
Qed.
(** No forward component, airflow from above: the angle is 0 instead of -90 degrees. *)
Theorem C16_refuted : forall x y z, x < 1 / 1000000 -> z < 1 / 1000000 ->
  alpha (N := N) (finv (V3 x y z)) = Fin 0.
Proof.
  intros x y z Hx Hz. unfold alpha, NEARLY_ZERO, finv. cbn [vx vz]. xrs.
  rewrite !Rltb_true by lra. reflexivity.
Qed.
Example ex_from_above : alpha (N := N) (finv (V3 0 0 (-100))) = Fin 0.
Proof. apply C16_refuted; lra. Qed.
(** So the angle jumps by a right angle when the airflow from above loses its forward
    component: with v_x = 1e-6 it is almost -90 degrees. *)

(** Reported states: the airflow is the velocity with respect to the atmosphere in
    the body frame. *)
Theorem C16_reported : forall (cs : list (PhaseConfig N)) (p : Phase N) s v, reported cs p s ->
  mulv (inertial_to_body (ph_launch p) (st_euler_angles s)) (st_velocity_atmosphere s) = finv v ->
  1 / 1000000 <= vx v ->
  exists a, st_alpha s = Fin a /\ - (PI / 2) < a < PI / 2 /\ tan a = vz v / vx v.
Proof.
  intros cs p s v H Hv Hx. destruct (C37_reported cs p s H) as [s0 E].
  destruct (C16_forward v Hx) as (a & A & B & C & _). exists a. split; [|auto].
  rewrite (e_alpha _ _ _ E), Hv. exact A.
Qed.

(** ** C15 *)
(** Drag [CD] along the airflow direction (cos a, 0, sin a), lift [CL] along the direction
    (sin a, 0, -cos a) perpendicular to it in the x-z plane, side force [CY] along y. *)
Theorem C15_force : forall (v : Vehicle N) (s : State N) q S a CD CL CY,
  at_state (ve_drag_coeff v) s = Ret (Fin CD) -> at_state (ve_lift_coeff v) s = Ret (Fin CL) ->
  at_state (ve_side_force_coeff v) s = Ret (Fin CY) ->
  st_dynamic_pressure s = Fin q -> ve_reference_area v = Fin S -> st_alpha s = Fin a ->
  exists f, aero_force v s = Ret (finv f) /\
    let flow := V3 (cos a) 0 (sin a) in
    let up := V3 (sin a) 0 (- cos a) in
    let side := V3 0 1 0 in
    dotR f flow = - (q * S * CD) /\ dotR f up = q * S * CL /\ dotR f side = q * S * CY /\
    f = addR (addR (scaleR (- (q * S * CD)) flow) (scaleR (q * S * CL) up)) (scaleR (q * S * CY) side).
Proof.
  intros v s q S a CD CL CY E1 E2 E3 Eq ES Ea.
  exists (V3 (q * S * - (cos a * CD - sin a * CL)) (q * S * CY) (q * S * - (sin a * CD + cos a * CL))).
  split.
  - unfold aero_force. rewrite E1, E2, E3. cbn [bind]. rewrite Eq, ES, Ea. unfold nan_to_zero.
    unfold vscale, finv. cbn [vx vy vz]. xrs. reflexivity.
  - assert (T := sin2_cos2 a). unfold Rsqr in T. cbv zeta. unfold dotR, addR, scaleR. cbn [vx vy vz].
    split; [|split; [|split]].
    + transitivity (- (q * S * CD) * (sin a * sin a + cos a * cos a)); [ring|rewrite T; ring].
    + transitivity (q * S * CL * (sin a * sin a + cos a * cos a)); [ring|rewrite T; ring].
    + ring.
    + f_equal; ring.
Qed.

(** ** C51 *)
(** With forward airflow and no lift or side force, the force does no positive work:
    it is opposed to the airflow in the x-z plane. *)
Theorem C51_drag_brakes_partial : forall (p : Phase N) s0 s w q S CD, equations p s0 s ->
  mulv (inertial_to_body (ph_launch p) (st_euler_angles s)) (st_velocity_atmosphere s) = finv w ->
  1 / 1000000 <= vx w ->
  at_state (ve_drag_coeff (ph_vehicle p)) (before_aero s0 s) = Ret (Fin CD) ->
  at_state (ve_lift_coeff (ph_vehicle p)) (before_aero s0 s) = Ret (Fin 0) ->
  at_state (ve_side_force_coeff (ph_vehicle p)) (before_aero s0 s) = Ret (Fin 0) ->
  st_dynamic_pressure s = Fin q -> ve_reference_area (ph_vehicle p) = Fin S -> 0 <= q * S * CD ->
  exists f, st_aero_force_body s = finv f /\ dotR f w = - (q * S * CD) * sqrt (vx w * vx w + vz w * vz w) /\
    dotR f w <= 0.
Proof.
  intros p s0 s w q S CD Q Hw Hx E1 E2 E3 Eq ES Hpos.
  destruct (C16_forward w Hx) as (a & A & _ & _ & G). cbv zeta in G.
  set (m := sqrt (vx w * vx w + vz w * vz w)) in *. destruct G as [G1 G2].
  assert (Ea : st_alpha s = Fin a) by (rewrite (q_alpha _ _ _ Q), Hw; exact A).
  destruct (C15_force (ph_vehicle p) (before_aero s0 s) q S a CD 0 0 E1 E2 E3 Eq ES Ea) as (f & F & D).
  cbv zeta in D. destruct D as (_ & _ & _ & D). exists f.
  assert (Ef : Ret (st_aero_force_body s) = Ret (finv f)) by (rewrite <- (q_aero_force _ _ _ Q); exact F).
  injection Ef as Ef. split; [exact Ef|].
  assert (T := sin2_cos2 a). unfold Rsqr in T.
  assert (K : dotR f w = - (q * S * CD) * m).
  { rewrite D. unfold dotR, addR, scaleR. cbn [vx vy vz]. rewrite G1, G2.
    transitivity (- (q * S * CD) * m * (sin a * sin a + cos a * cos a)); [ring|rewrite T; ring]. }
  split; [exact K|]. rewrite K. assert (0 <= m) by apply sqrt_pos. nra.
Qed.
(** With airflow from behind the same force pushes the vehicle along: it is parallel to
    the motion. *)
Theorem C51_refuted : forall (p : Phase N) s0 s x y z q S CD, equations p s0 s ->
  mulv (inertial_to_body (ph_launch p) (st_euler_angles s)) (st_velocity_atmosphere s) = finv (V3 x y z) ->
  x < 0 -> z < 1 / 1000000 ->
  at_state (ve_drag_coeff (ph_vehicle p)) (before_aero s0 s) = Ret (Fin CD) ->
  at_state (ve_lift_coeff (ph_vehicle p)) (before_aero s0 s) = Ret (Fin 0) ->
  at_state (ve_side_force_coeff (ph_vehicle p)) (before_aero s0 s) = Ret (Fin 0) ->
  st_dynamic_pressure s = Fin q -> ve_reference_area (ph_vehicle p) = Fin S -> 0 < q * S * CD ->
  exists f, st_aero_force_body s = finv f /\ 0 < dotR f (V3 x y z).
Proof.
  intros p s0 s x y z q S CD Q Hw Hx Hz E1 E2 E3 Eq ES Hpos.
  assert (Ea : st_alpha s = Fin 0) by (rewrite (q_alpha _ _ _ Q), Hw; apply C16_refuted; lra).
  destruct (C15_force (ph_vehicle p) (before_aero s0 s) q S 0 CD 0 0 E1 E2 E3 Eq ES Ea) as (f & F & D).
  cbv zeta in D. destruct D as (_ & _ & _ & D). exists f.
  assert (Ef : Ret (st_aero_force_body s) = Ret (finv f)) by (rewrite <- (q_aero_force _ _ _ Q); exact F).
  injection Ef as Ef. split; [exact Ef|].
  rewrite D. unfold dotR, addR, scaleR. cbn [vx vy vz]. rewrite sin_0, cos_0. nra.
Qed.
End Exact.
