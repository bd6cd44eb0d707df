(** * C01, C02, C46, C47: reference frames and the equation of motion *)
From Coq Require Import ZArith List Reals Lra Lia Bool.
From Coquelicot Require Import Coquelicot.
From Verif Require Import Num Constants State Tables Config Planet Atmosphere Transformations
  Steering Vehicle RungeKutta Phase XR XRFacts SpecReal SystemFacts.
Import ListNotations.
Local Open Scope R_scope.

(** The contract assumed of nalgebra's [Rotation3::from_matrix] in exact
    arithmetic: a matrix that already is a rotation is returned unchanged. *)
Definition rot_contract (rot : mat3 xr -> mat3 xr) : Prop :=
  forall M : mat3 R, rotation M -> rot (finm M) = finm M.

(** ** Specification: elementary (passive) rotations and local directions *)
Definition Rx (a : R) : mat3 R := M3 (V3 1 0 0) (V3 0 (cos a) (sin a)) (V3 0 (- sin a) (cos a)).
Definition Ry (a : R) : mat3 R := M3 (V3 (cos a) 0 (- sin a)) (V3 0 1 0) (V3 (sin a) 0 (cos a)).
Definition Rz (a : R) : mat3 R := M3 (V3 (cos a) (sin a) 0) (V3 (- sin a) (cos a) 0) (V3 0 0 1).
Definition up (lat long : R) : vec3 R :=
  V3 (cos lat * cos long) (cos lat * sin long) (sin lat).
Definition north (lat long : R) : vec3 R :=
  V3 (- sin lat * cos long) (- sin lat * sin long) (cos lat).
Definition east (lat long : R) : vec3 R := V3 (- sin long) (cos long) 0.
(** The horizontal direction [az] east of north. *)
Definition heading (lat long az : R) : vec3 R :=
  addR (scaleR (cos az) (north lat long)) (scaleR (sin az) (east lat long)).

(** ** Rotations *)
Ltac trig a := pose proof (sin2_cos2 a); unfold Rsqr in *.

Lemma V3_eq : forall (a b c a' b' c' : R), a = a' -> b = b' -> c = c' -> V3 a b c = V3 a' b' c'.
Proof. intros; congruence. Qed.
Lemma M3_eq : forall (a b c a' b' c' : vec3 R), a = a' -> b = b' -> c = c' -> M3 a b c = M3 a' b' c'.
Proof. intros; congruence. Qed.

Lemma mulmR_mk : forall a0 a1 a2 a3 a4 a5 a6 a7 a8 b0 b1 b2 b3 b4 b5 b6 b7 b8,
  mulmR (M3 (V3 a0 a1 a2) (V3 a3 a4 a5) (V3 a6 a7 a8)) (M3 (V3 b0 b1 b2) (V3 b3 b4 b5) (V3 b6 b7 b8))
  = M3 (V3 (a0*b0+a1*b3+a2*b6) (a0*b1+a1*b4+a2*b7) (a0*b2+a1*b5+a2*b8))
       (V3 (a3*b0+a4*b3+a5*b6) (a3*b1+a4*b4+a5*b7) (a3*b2+a4*b5+a5*b8))
       (V3 (a6*b0+a7*b3+a8*b6) (a6*b1+a7*b4+a8*b7) (a6*b2+a7*b5+a8*b8)).
Proof.
  intros. unfold mulmR, transposeR, mulvR, dotR. cbn [vx vy vz row0 row1 row2].
  repeat (apply M3_eq || apply V3_eq); ring.
Qed.
Lemma mulmR_assoc : forall a b c, mulmR a (mulmR b c) = mulmR (mulmR a b) c.
Proof.
  intros [[b0 b1 b2] [b3 b4 b5] [b6 b7 b8]] [[c0 c1 c2] [c3 c4 c5] [c6 c7 c8]] [[d0 d1 d2] [d3 d4 d5] [d6 d7 d8]]. rewrite !mulmR_mk. repeat (apply M3_eq || apply V3_eq); ring.
Qed.
Lemma mulmR_1_l : forall a, mulmR idR a = a.
Proof.
  intros [[b0 b1 b2] [b3 b4 b5] [b6 b7 b8]]. unfold mulmR, transposeR, mulvR, dotR, idR.
  cbn [vx vy vz row0 row1 row2]. repeat (apply M3_eq || apply V3_eq); ring.
Qed.
Lemma mulmR_1_r : forall a, mulmR a idR = a.
Proof.
  intros [[b0 b1 b2] [b3 b4 b5] [b6 b7 b8]]. unfold mulmR, transposeR, mulvR, dotR, idR.
  cbn [vx vy vz row0 row1 row2]. repeat (apply M3_eq || apply V3_eq); ring.
Qed.
Lemma transposeR_mul : forall a b, transposeR (mulmR a b) = mulmR (transposeR b) (transposeR a).
Proof.
  intros [[b0 b1 b2] [b3 b4 b5] [b6 b7 b8]] [[c0 c1 c2] [c3 c4 c5] [c6 c7 c8]]. unfold mulmR, transposeR, mulvR, dotR.
  cbn [vx vy vz row0 row1 row2]. repeat (apply M3_eq || apply V3_eq); ring.
Qed.
Lemma detR_mul : forall a b, detR (mulmR a b) = detR a * detR b.
Proof.
  intros [[b0 b1 b2] [b3 b4 b5] [b6 b7 b8]] [[c0 c1 c2] [c3 c4 c5] [c6 c7 c8]]. unfold detR, mulmR, transposeR, mulvR, dotR, crossR.
  cbn [vx vy vz row0 row1 row2]. ring.
Qed.
Lemma mulvR_mulmR : forall a b v, mulvR (mulmR a b) v = mulvR a (mulvR b v).
Proof.
  intros [[b0 b1 b2] [b3 b4 b5] [b6 b7 b8]] [[c0 c1 c2] [c3 c4 c5] [c6 c7 c8]] [d0 d1 d2]. unfold mulmR, transposeR, mulvR, dotR.
  cbn [vx vy vz row0 row1 row2]. apply V3_eq; ring.
Qed.
Lemma mulvR_1 : forall v, mulvR idR v = v.
Proof. intros [b0 b1 b2]. unfold mulvR, dotR, idR. cbn. apply V3_eq; ring. Qed.

Lemma mulmR_row0 : forall m, mulvR m (row0 m) = row0 (mulmR m (transposeR m)).
Proof. intros [[a0 a1 a2] [a3 a4 a5] [a6 a7 a8]]. reflexivity. Qed.
Lemma mulmR_row2 : forall m, mulvR m (row2 m) = row2 (mulmR m (transposeR m)).
Proof. intros [[a0 a1 a2] [a3 a4 a5] [a6 a7 a8]]. reflexivity. Qed.

Lemma rotation_mul : forall a b, rotation a -> rotation b -> rotation (mulmR a b).
Proof.
  intros a b [A1 [A2 A3]] [B1 [B2 B3]]. unfold rotation. rewrite transposeR_mul. repeat split.
  - rewrite <- mulmR_assoc, (mulmR_assoc b), B1, mulmR_1_l. exact A1.
  - rewrite <- mulmR_assoc, (mulmR_assoc (transposeR a)), A2, mulmR_1_l. exact B2.
  - rewrite detR_mul, A3, B3. ring.
Qed.

(** Rotations preserve scalar products, lengths and cross products. *)
Lemma mulvR_transpose_dot : forall m u v, dotR (mulvR m u) v = dotR u (mulvR (transposeR m) v).
Proof. intros [[b0 b1 b2] [b3 b4 b5] [b6 b7 b8]] [c0 c1 c2] [d0 d1 d2]. unfold dotR, mulvR, transposeR. cbn. unfold dotR. cbn. ring. Qed.
Lemma rotation_dot : forall m u v, rotation m -> dotR (mulvR m u) (mulvR m v) = dotR u v.
Proof.
  intros m u v [_ [H _]]. rewrite mulvR_transpose_dot, <- mulvR_mulmR, H, mulvR_1. reflexivity.
Qed.
Lemma rotation_norm : forall m v, rotation m -> normR (mulvR m v) = normR v.
Proof. intros m v H. unfold normR. now rewrite rotation_dot. Qed.
Lemma transposeR_invol : forall m, transposeR (transposeR m) = m.
Proof. intros [[b0 b1 b2] [b3 b4 b5] [b6 b7 b8]]. reflexivity. Qed.
Lemma detR_transpose : forall m, detR (transposeR m) = detR m.
Proof. intros [[b0 b1 b2] [b3 b4 b5] [b6 b7 b8]]. unfold detR, transposeR, dotR, crossR. cbn. ring. Qed.
Lemma rotation_transpose : forall m, rotation m -> rotation (transposeR m).
Proof.
  intros m [H1 [H2 H3]]. unfold rotation. rewrite transposeR_invol, detR_transpose. auto.
Qed.

Lemma Rx_rotation : forall a, rotation (Rx a).
Proof.
  intros a. trig a. unfold rotation, Rx, mulmR, transposeR, mulvR, dotR, detR, crossR, idR, dotR.
  cbn [vx vy vz row0 row1 row2].
  repeat split; try (repeat (apply M3_eq || apply V3_eq)); try ring; try nra.
Qed.
Lemma Ry_rotation : forall a, rotation (Ry a).
Proof.
  intros a. trig a. unfold rotation, Ry, mulmR, transposeR, mulvR, dotR, detR, crossR, idR, dotR.
  cbn [vx vy vz row0 row1 row2].
  repeat split; try (repeat (apply M3_eq || apply V3_eq)); try ring; try nra.
Qed.
Lemma Rz_rotation : forall a, rotation (Rz a).
Proof.
  intros a. trig a. unfold rotation, Rz, mulmR, transposeR, mulvR, dotR, detR, crossR, idR, dotR.
  cbn [vx vy vz row0 row1 row2].
  repeat split; try (repeat (apply M3_eq || apply V3_eq)); try ring; try nra.
Qed.

(** The matrices of the code, over the reals: products of elementary rotations. *)
Definition i2l (lat long az : R) : mat3 R := mulmR (Rx (- az)) (mulmR (Ry (- lat)) (Rz long)).
Definition l2b (roll yaw pitch : R) : mat3 R := mulmR (Ry pitch) (mulmR (Rz yaw) (Rx roll)).

Lemma i2l_rotation : forall lat long az, rotation (i2l lat long az).
Proof.
  intros. unfold i2l. apply rotation_mul; [apply Rx_rotation|].
  apply rotation_mul; [apply Ry_rotation|apply Rz_rotation].
Qed.
Lemma l2b_rotation : forall roll yaw pitch, rotation (l2b roll yaw pitch).
Proof.
  intros. unfold l2b. apply rotation_mul; [apply Ry_rotation|].
  apply rotation_mul; [apply Rz_rotation|apply Rx_rotation].
Qed.

Section Code.
Context {rot : mat3 xr -> mat3 xr}.
Hypothesis Hrot : rot_contract rot.
Notation N := (XR rot).

Lemma launch_to_body_real : forall roll yaw pitch,
  launch_to_body_matrix (N := N) (Fin roll) (Fin yaw) (Fin pitch) = finm (l2b roll yaw pitch).
Proof.
  intros. unfold l2b, Rx, Ry, Rz. rewrite !mulmR_mk. unfold launch_to_body_matrix, finm.
  cbn [vx vy vz row0 row1 row2]. unfold finv. xrs. fin_eq; ring.
Qed.
Lemma inertial_to_launch_real : forall lat long az,
  inertial_to_launch_matrix (N := N) (Fin lat) (Fin long) (Fin az) = finm (i2l lat long az).
Proof.
  intros. unfold i2l, Rx, Ry, Rz. rewrite !mulmR_mk. unfold inertial_to_launch_matrix, finm.
  cbn [vx vy vz row0 row1 row2]. unfold finv. xrs.
  fin_eq; rewrite ?sin_neg, ?cos_neg; ring.
Qed.
Lemma inertial_to_planet_real : forall t w,
  inertial_to_planet_matrix (N := N) (Fin t) (Fin w) = finm (Rz (w * t)).
Proof.
  intros. unfold inertial_to_planet_matrix, finm, Rz. 
  cbn [vx vy vz row0 row1 row2]. unfold finv. xrs. reflexivity.
Qed.

(** ** C01 *)
(** Every frame transformation is a proper rotation, for all real angles. *)
Theorem C01_inertial_to_launch : forall lat long az,
  exists M, inertial_to_launch (N := N) (Fin lat) (Fin long) (Fin az) = finm M /\ rotation M.
Proof.
  intros. exists (i2l lat long az). split; [|apply i2l_rotation].
  unfold inertial_to_launch. rewrite inertial_to_launch_real. apply Hrot, i2l_rotation.
Qed.
Theorem C01_launch_to_body : forall roll yaw pitch,
  exists M, launch_to_body (N := N) (Fin roll) (Fin yaw) (Fin pitch) = finm M /\ rotation M.
Proof.
  intros. exists (l2b roll yaw pitch). split; [|apply l2b_rotation].
  unfold launch_to_body. rewrite launch_to_body_real. apply Hrot, l2b_rotation.
Qed.
Lemma inertial_to_body_real : forall launch euler,
  inertial_to_body (N := N) (finv launch) (finv euler)
  = finm (mulmR (l2b (vx euler) (vy euler) (vz euler)) (i2l (vx launch) (vy launch) (vz launch))).
Proof.
  intros [a b c] [d e f]. unfold inertial_to_body, launch_to_body, inertial_to_launch.
  cbn [finv vx vy vz]. rewrite inertial_to_launch_real, launch_to_body_real.
  cbn [n_rot XR]. rewrite (Hrot _ (i2l_rotation _ _ _)), (Hrot _ (l2b_rotation _ _ _)).
  apply mulm_fin.
Qed.
Theorem C01_inertial_to_body : forall launch euler,
  exists M, inertial_to_body (N := N) (finv launch) (finv euler) = finm M /\ rotation M.
Proof.
  intros launch euler. eexists. split; [apply inertial_to_body_real|].
  apply rotation_mul; [apply l2b_rotation|apply i2l_rotation].
Qed.
Theorem C01_inertial_to_planet : forall t w,
  exists M, inertial_to_planet (N := N) (Fin t) (Fin w) = finm M /\ rotation M.
Proof.
  intros. exists (Rz (w * t)). split; [|apply Rz_rotation].
  unfold inertial_to_planet. rewrite inertial_to_planet_real. apply Hrot, Rz_rotation.
Qed.
(** In other words, vectors keep their lengths and mutual angles, and a
    right-handed triad stays right-handed. *)
Theorem C01_isometry : forall M, rotation M ->
  (forall v, normR (mulvR M v) = normR v) /\
  (forall u v, dotR (mulvR M u) (mulvR M v) = dotR u v) /\
  (forall u v, crossR (mulvR M u) (mulvR M v) = mulvR M (crossR u v)) /\
  (forall v, mulvR (transposeR M) (mulvR M v) = v).
Proof.
  intros M H. split; [intros; now apply rotation_norm|]. split; [intros; now apply rotation_dot|].
  assert (Hinv : forall v, mulvR (transposeR M) (mulvR M v) = v).
  { intros v. destruct H as [_ [H _]]. rewrite <- mulvR_mulmR, H. apply mulvR_1. }
  split; [|exact Hinv].
  (* M^T (Mu x Mv) = det(M) (u x v), hence Mu x Mv = M (u x v) *)
  intros u v.
  assert (Hadj : mulvR (transposeR M) (crossR (mulvR M u) (mulvR M v)) = scaleR (detR M) (crossR u v)).
  { clear. destruct M as [[a0 a1 a2] [a3 a4 a5] [a6 a7 a8]], u as [u0 u1 u2], v as [v0 v1 v2].
    unfold mulvR, transposeR, crossR, scaleR, detR, dotR, crossR. cbn [vx vy vz row0 row1 row2].
    apply V3_eq; ring. }
  destruct H as [H1 [_ H3]]. rewrite H3 in Hadj.
  assert (Hs : scaleR 1 (crossR u v) = crossR u v).
  { unfold scaleR. destruct (crossR u v) as [x y z]. cbn. apply V3_eq; ring. }
  rewrite Hs in Hadj. rewrite <- Hadj, <- mulvR_mulmR, H1. symmetry. apply mulvR_1.
Qed.

(** ** C02 *)
(** The launch frame: x up, z along the heading, y = z x x. *)
Theorem C02_launch_frame : forall lat long az,
  exists M, inertial_to_launch (N := N) (Fin lat) (Fin long) (Fin az) = finm M /\
    mulvR M (up lat long) = V3 1 0 0 /\
    mulvR M (crossR (heading lat long az) (up lat long)) = V3 0 1 0 /\
    mulvR M (heading lat long az) = V3 0 0 1.
Proof.
  intros. exists (i2l lat long az). split.
  { unfold inertial_to_launch. rewrite inertial_to_launch_real. apply Hrot, i2l_rotation. }
  destruct (i2l_rotation lat long az) as [Horth _].
  assert (R0 : row0 (i2l lat long az) = up lat long).
  { unfold i2l, up, Rx, Ry, Rz. rewrite !mulmR_mk. cbn [vx vy vz row0 row1 row2].
    rewrite ?sin_neg, ?cos_neg. apply V3_eq; ring. }
  assert (R2 : row2 (i2l lat long az) = heading lat long az).
  { unfold i2l, heading, north, east, addR, scaleR, Rx, Ry, Rz. rewrite !mulmR_mk.
    cbn [vx vy vz row0 row1 row2]. rewrite ?sin_neg, ?cos_neg. apply V3_eq; ring. }
  assert (Hx : mulvR (i2l lat long az) (up lat long) = V3 1 0 0).
  { rewrite <- R0. apply (f_equal (@row0 R)) in Horth. cbn [idR row0] in Horth. rewrite <- Horth.
    apply mulmR_row0. }
  assert (Hz : mulvR (i2l lat long az) (heading lat long az) = V3 0 0 1).
  { rewrite <- R2. apply (f_equal (@row2 R)) in Horth. cbn [idR row2] in Horth. rewrite <- Horth.
    apply mulmR_row2. }
  split; [exact Hx|]. split; [|exact Hz].
  destruct (C01_isometry (i2l lat long az) (i2l_rotation lat long az)) as [_ [_ [Hc _]]].
  rewrite <- Hc, Hx, Hz. unfold crossR. cbn. apply V3_eq; ring.
Qed.

(** The body frame: roll about x, then yaw about z, then pitch about y. *)
Theorem C02_body_frame : forall roll yaw pitch,
  launch_to_body (N := N) (Fin roll) (Fin yaw) (Fin pitch)
  = finm (mulmR (Ry pitch) (mulmR (Rz yaw) (Rx roll))).
Proof.
  intros. unfold launch_to_body. rewrite launch_to_body_real. apply Hrot, l2b_rotation.
Qed.
(** Attitude: first into the launch frame, then into the body frame. *)
Theorem C02_inertial_to_body : forall lat long az roll yaw pitch,
  exists L B, inertial_to_launch (N := N) (Fin lat) (Fin long) (Fin az) = finm L /\
    launch_to_body (N := N) (Fin roll) (Fin yaw) (Fin pitch) = finm B /\
    inertial_to_body (N := N) (V3 (Fin lat) (Fin long) (Fin az)) (V3 (Fin roll) (Fin yaw) (Fin pitch))
    = finm (mulmR B L).
Proof.
  intros. exists (i2l lat long az), (l2b roll yaw pitch). repeat split.
  - unfold inertial_to_launch. rewrite inertial_to_launch_real. apply Hrot, i2l_rotation.
  - apply C02_body_frame.
  - exact (inertial_to_body_real (V3 lat long az) (V3 roll yaw pitch)).
Qed.
(** At zero Euler angles the body frame is the launch frame: the nose points up.
    A pitch of [- t] tilts the nose (the body x axis, in inertial coordinates) by [t]
    from the vertical towards the heading. *)
Theorem C02_pitch_over : forall lat long az t,
  exists M, inertial_to_body (N := N) (V3 (Fin lat) (Fin long) (Fin az))
              (V3 (Fin 0) (Fin 0) (Fin (- t))) = finm M /\
    mulvR (transposeR M) (V3 1 0 0)
    = addR (scaleR (cos t) (up lat long)) (scaleR (sin t) (heading lat long az)).
Proof.
  intros. eexists. split; [exact (inertial_to_body_real (V3 lat long az) (V3 0 0 (- t)))|].
  cbn [vx vy vz].
  unfold l2b, i2l, Rx, Ry, Rz. rewrite !mulmR_mk. unfold transposeR, mulvR, dotR.
  unfold up, heading, north, east, addR, scaleR. cbn [vx vy vz row0 row1 row2].
  rewrite ?sin_neg, ?cos_neg, ?sin_0, ?cos_0. apply V3_eq; ring.
Qed.
(** The planet frame turns about z at the rotation rate, starting at the
    inertial frame. *)
Theorem C02_planet_frame : forall t w,
  inertial_to_planet (N := N) (Fin t) (Fin w) = finm (Rz (w * t)) /\ Rz (w * 0) = idR.
Proof.
  intros. split.
  - unfold inertial_to_planet. rewrite inertial_to_planet_real. apply Hrot, Rz_rotation.
  - unfold Rz, idR. rewrite Rmult_0_r, sin_0, cos_0. rewrite Ropp_0. reflexivity.
Qed.

(** ** C46 *)
(** Planet-relative position: same distance, same z. *)
Theorem C46_position_planet : forall t w pos, exists q,
  mulv (inertial_to_planet (N := N) (Fin t) (Fin w)) (finv pos) = finv q /\
  normR q = normR pos /\ vz q = vz pos.
Proof.
  intros t w pos. exists (mulvR (Rz (w * t)) pos).
  rewrite (proj1 (C02_planet_frame t w)), mulv_fin. repeat split.
  - apply rotation_norm, Rz_rotation.
  - destruct pos as [x y z]. unfold mulvR, Rz, dotR. cbn. ring.
Qed.
(** Velocity relative to the planet: [v - w x r]. *)
Theorem C46_velocity_planet : forall (p : Planet N) w pos vel,
  pl_rotation_rate p = Fin w ->
  velocity_planet p (finv pos) (finv vel) = finv (subR vel (crossR (V3 0 0 w) pos)).
Proof.
  intros p w pos vel H. unfold velocity_planet. rewrite H. xrs.
  change (V3 (Fin 0) (Fin 0) (Fin w)) with (finv (V3 0 0 w)).
  unfold vcross, vsub. xrs. reflexivity.
Qed.

Definition is_derive3 (c : R -> vec3 R) (t : R) (v : vec3 R) : Prop :=
  is_derive (fun t => vx (c t)) t (vx v) /\ is_derive (fun t => vy (c t)) t (vy v) /\
  is_derive (fun t => vz (c t)) t (vz v).

Lemma planet_rate : forall (fx fy fz : R -> R) w t dx dy dz,
  is_derive fx t dx -> is_derive fy t dy -> is_derive fz t dz ->
  is_derive (fun t => cos (w * t) * fx t + sin (w * t) * fy t + 0 * fz t) t
    (cos (w * t) * (dx - (0 * fz t - w * fy t)) + sin (w * t) * (dy - (w * fx t - 0 * fz t))
     + 0 * (dz - (0 * fy t - 0 * fx t))) /\
  is_derive (fun t => - sin (w * t) * fx t + cos (w * t) * fy t + 0 * fz t) t
    (- sin (w * t) * (dx - (0 * fz t - w * fy t)) + cos (w * t) * (dy - (w * fx t - 0 * fz t))
     + 0 * (dz - (0 * fy t - 0 * fx t))) /\
  is_derive (fun t => 0 * fx t + 0 * fy t + 1 * fz t) t
    (0 * (dx - (0 * fz t - w * fy t)) + 0 * (dy - (w * fx t - 0 * fz t))
     + 1 * (dz - (0 * fy t - 0 * fx t))).
Proof.
  intros fx fy fz w t dx dy dz Hx Hy Hz.
  assert (Ex : ex_derive fx t) by (eexists; exact Hx).
  assert (Ey : ex_derive fy t) by (eexists; exact Hy).
  assert (Ez : ex_derive fz t) by (eexists; exact Hz).
  apply is_derive_unique in Hx. apply is_derive_unique in Hy. apply is_derive_unique in Hz.
  change (Derive (fun x => fx x) t = dx) in Hx.
  change (Derive (fun x => fy x) t = dy) in Hy.
  change (Derive (fun x => fz x) t = dz) in Hz.
  split; [|split]; auto_derive; auto; rewrite ?Hx, ?Hy, ?Hz; ring.
Qed.

(** Along any trajectory, the planet-relative position changes at the
    planet-relative velocity (turned into the planet frame). *)
Theorem C46_kinematics : forall (p : Planet N) w (c : R -> vec3 R) v t,
  pl_rotation_rate p = Fin w -> is_derive3 c t v ->
  exists q u, (forall t, mulv (inertial_to_planet (N := N) (Fin t) (Fin w)) (finv (c t)) = finv (q t)) /\
    mulv (inertial_to_planet (N := N) (Fin t) (Fin w)) (velocity_planet p (finv (c t)) (finv v)) = finv u /\
    is_derive3 q t u.
Proof.
  intros p w c v t Hw [Hx [Hy Hz]].
  exists (fun t => mulvR (Rz (w * t)) (c t)), (mulvR (Rz (w * t)) (subR v (crossR (V3 0 0 w) (c t)))).
  split; [|split].
  - intros t'. rewrite (proj1 (C02_planet_frame t' w)), mulv_fin. reflexivity.
  - rewrite (C46_velocity_planet p w) by exact Hw.
    rewrite (proj1 (C02_planet_frame t w)), mulv_fin. reflexivity.
  - unfold is_derive3, mulvR, Rz, dotR, subR, crossR. cbn [vx vy vz row0 row1 row2].
    pose proof (planet_rate _ _ _ w t _ _ _ Hx Hy Hz) as [D1 [D2 D3]].
    split; [exact D1|split; [exact D2|exact D3]].
Qed.
(** A point turning with the planet has constant planet-relative position and zero
    planet-relative velocity. *)
Theorem C46_corotating : forall (p : Planet N) w pos t,
  pl_rotation_rate p = Fin w ->
  let c t := mulvR (transposeR (Rz (w * t))) pos in
  exists v, is_derive3 c t v /\
    mulv (inertial_to_planet (N := N) (Fin t) (Fin w)) (finv (c t)) = finv pos /\
    velocity_planet p (finv (c t)) (finv v) = finv zeroR.
Proof.
  intros p w pos t Hw c. exists (crossR (V3 0 0 w) (c t)). split; [|split].
  - unfold is_derive3, c, mulvR, Rz, transposeR, dotR, crossR. cbn [vx vy vz row0 row1 row2].
    split; [|split]; auto_derive; auto; ring.
  - rewrite (proj1 (C02_planet_frame t w)), mulv_fin. unfold c.
    rewrite <- mulvR_mulmR. destruct (Rz_rotation (w * t)) as [H _]. rewrite H, mulvR_1. reflexivity.
  - rewrite (C46_velocity_planet p w) by exact Hw. f_equal. unfold subR, zeroR.
    apply V3_eq; ring.
Qed.

End Code.

(** In every state the equations of motion return: the planet-relative velocity
    and the velocity relative to the atmosphere (wind subtracted). *)
Theorem C46_reported : forall {N : Num} (p : Phase N) s0 s, system p s0 = Ret s ->
  st_position_planet s
    = mulv (inertial_to_planet (st_time s) (pl_rotation_rate (ph_planet p))) (st_position s) /\
  st_velocity_planet s = velocity_planet (ph_planet p) (st_position s) (st_velocity s) /\
  st_velocity_atmosphere s = vsub (st_velocity_planet s) (at_wind (ph_atmosphere p)).
Proof. intros N p s0 s H. apply system_eom in H. destruct H. auto. Qed.

(** ** C47 *)
(** For every instance: the reported acceleration is gravity plus the sensed
    acceleration turned back from the body frame, and the sensed acceleration is
    (aerodynamic + thrust force) / mass. *)
Theorem C47_equation_of_motion : forall {N : Num} (p : Phase N) s0 s, system p s0 = Ret s ->
  st_vehicle_acceleration_body s
    = vdiv (vadd (st_aero_force_body s) (st_thrust_force_body s)) (st_mass s) /\
  st_acceleration s
    = vadd (mulv (transpose (inertial_to_body (ph_launch p) (st_euler_angles s)))
                 (st_vehicle_acceleration_body s))
           (st_gravity_acceleration s) /\
  st_gravity_acceleration s = gravity (ph_planet p) (st_position s).
Proof. intros N p s0 s H. apply system_eom in H. destruct H. auto. Qed.

(** Over the reals: Newton's second law in the inertial frame, with the forces turned by
    a proper rotation; the non-gravitational acceleration has the magnitude of the
    sensed one. *)
Theorem C47_newton : forall {rot} (Hrot : rot_contract rot) (p : Phase (XR rot)) s0 s
    launch euler aero thrust m g,
  system p s0 = Ret s ->
  ph_launch p = finv launch -> st_euler_angles s = finv euler ->
  st_aero_force_body s = finv aero -> st_thrust_force_body s = finv thrust ->
  st_mass s = Fin m -> m <> 0 -> st_gravity_acceleration s = finv g ->
  exists M a, inertial_to_body (ph_launch p) (st_euler_angles s) = finm M /\ rotation M /\
    st_acceleration s = finv a /\
    scaleR m (subR a g) = mulvR (transposeR M) (addR aero thrust) /\
    exists sensed, st_vehicle_acceleration_body s = finv sensed /\
      normR (subR a g) = normR sensed.
Proof.
  intros rot Hrot p s0 s launch euler aero thrust m g H Hl He Ha Ht Hm Hm0 Hg.
  apply C47_equation_of_motion in H. destruct H as [Hv [Hacc _]].
  rewrite Hl, He in *.
  destruct (C01_inertial_to_body Hrot launch euler) as [M [HM HR]]. rewrite HM in *.
  set (sensed := V3 (vx (addR aero thrust) / m) (vy (addR aero thrust) / m)
                    (vz (addR aero thrust) / m)).
  assert (Hs : st_vehicle_acceleration_body s = finv sensed).
  { rewrite Hv, Ha, Ht, Hm, vadd_fin. unfold vdiv. cbn [n_div XR finv vx vy vz].
    rewrite !xdiv_fin by exact Hm0. reflexivity. }
  set (a := addR (mulvR (transposeR M) sensed) g).
  exists M, a. split; [reflexivity|]. split; [exact HR|].
  split. { rewrite Hacc, Hs, Hg, transpose_fin, mulv_fin, vadd_fin. reflexivity. }
  assert (Hag : subR a g = mulvR (transposeR M) sensed).
  { unfold a. destruct (mulvR (transposeR M) sensed) as [x y z], g as [g0 g1 g2].
    unfold subR, addR. cbn. apply V3_eq; ring. }
  split.
  - rewrite Hag. destruct M as [[a0 a1 a2] [a3 a4 a5] [a6 a7 a8]].
    unfold sensed, scaleR, mulvR, transposeR, dotR. cbn [vx vy vz row0 row1 row2].
    apply V3_eq; field; exact Hm0.
  - exists sensed. split; [exact Hs|]. rewrite Hag. apply rotation_norm, rotation_transpose, HR.
Qed.

(** ** Concrete instances *)
(** The contract is met, e.g., by the identity. *)
Example ex_rot_contract : rot_contract (fun m => m).
Proof. intros M _. reflexivity. Qed.
Example ex_corotating : exists v,
  is_derive3 (fun t => mulvR (transposeR (Rz (1 * t))) (V3 1 0 0)) 0 v /\ v = V3 0 1 0.
Proof.
  exists (V3 0 1 0). split; [|reflexivity].
  unfold is_derive3, mulvR, Rz, transposeR, dotR. cbn [vx vy vz row0 row1 row2].
  split; [|split]; auto_derive; auto; rewrite ?Rmult_0_r, ?sin_0, ?cos_0; ring.
Qed.
