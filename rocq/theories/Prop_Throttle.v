(** * C21, C22, C24: thrust and auto-throttle *)
From Coq Require Import ZArith List Reals Lra Lia Bool Permutation.
From Verif Require Import Num Constants State Tables Config Vehicle XR XRFacts SpecReal.
Import ListNotations.
Local Open Scope R_scope.

(** ** Specification *)
(** An engine with real parameters. *)
Record engine := { pitch : R; yaw : R; thrust_vac : R; isp : R; exit_area : R }.
(** Unit vector of the engine's axis for the two incidence angles. *)
Definition axis_of (e : engine) : vec3 R :=
  V3 (cos (yaw e) * cos (pitch e)) (sin (yaw e)) (cos (yaw e) * sin (pitch e)).
(** Sum of vectors and of numbers. *)
Definition sumV (l : list (vec3 R)) : vec3 R := fold_right addR zeroR l.
Definition sumR (l : list R) : R := fold_right Rplus 0 l.
(** Thrust of all engines at full throttle in ambient pressure [p]. *)
Definition full_thrust (es : list engine) (p : R) : vec3 R :=
  sumV (map (fun e => scaleR (thrust_vac e - exit_area e * p) (axis_of e)) es).
(** Standard gravity. *)
Definition g0 : R := 980665 / 100000.
(** Propellant consumed per second at full throttle. *)
Definition full_flow (es : list engine) : R := sumR (map (fun e => thrust_vac e / (isp e * g0)) es).

Lemma addR_assoc : forall a b c, addR a (addR b c) = addR (addR a b) c.
Proof. intros [a0 a1 a2] [b0 b1 b2] [c0 c1 c2]. unfold addR. cbn. f_equal; ring. Qed.
Lemma addR_comm : forall a b, addR a b = addR b a.
Proof. intros [a0 a1 a2] [b0 b1 b2]. unfold addR. cbn. f_equal; ring. Qed.
Lemma addR_0_l : forall a, addR zeroR a = a.
Proof. intros [a0 a1 a2]. unfold addR, zeroR. cbn. f_equal; ring. Qed.
Lemma addR_0_r : forall a, addR a zeroR = a.
Proof. intros a. rewrite addR_comm. apply addR_0_l. Qed.

Section Exact.
Context {rot : mat3 xr -> mat3 xr}.
Notation N := (XR rot).

Definition finE (e : engine) : Engine N :=
  mkEngine (N := N) (Fin (pitch e), Fin (yaw e)) (Fin (thrust_vac e)) (Fin (isp e)) (Fin (exit_area e)).
(** A vehicle whose engines are [es]. *)
Definition engines_are (v : Vehicle N) (es : list engine) : Prop := ve_engines v = map finE es.

Lemma engine_thrust_fin : forall e p,
  engine_thrust (N := N) (finE e) (Fin p)
  = finv (scaleR (thrust_vac e - exit_area e * p) (axis_of e)).
Proof.
  intros e p. unfold engine_thrust, finE, vscale_r, axis_of, scaleR, finv.
  cbn [en_incidence en_thrust_vac en_exit_area]. xrs. fin_eq; ring.
Qed.
Lemma vsum_fin_acc : forall (l : list (vec3 R)) a,
  fold_left (vadd (N := N)) (map finv l) (finv a) = finv (addR a (sumV l)).
Proof.
  induction l as [|x l IH]; intros a; cbn [map fold_left sumV fold_right].
  - now rewrite addR_0_r.
  - rewrite vadd_fin, IH. f_equal. now rewrite <- addR_assoc.
Qed.
Lemma vsum_fin : forall l : list (vec3 R), vsum (N := N) (map finv l) = finv (sumV l).
Proof.
  intros l. unfold vsum. rewrite vzero_fin, vsum_fin_acc. now rewrite addR_0_l.
Qed.
Lemma thrust_force_fin : forall v es th p, engines_are v es ->
  thrust_force v (Fin th) (Fin p) = finv (scaleR th (full_thrust es p)).
Proof.
  intros v es th p H. unfold thrust_force. rewrite H, map_map.
  rewrite <- vscale_fin. f_equal. unfold full_thrust.
  rewrite <- vsum_fin, map_map. f_equal. apply map_ext. intros e. apply engine_thrust_fin.
Qed.

(** ** C24 *)
Theorem C24_thrust : forall v es th p, engines_are v es ->
  thrust_force v (Fin th) (Fin p) = finv (scaleR th (full_thrust es p)).
Proof. apply thrust_force_fin. Qed.
(** The engine axis is a unit vector. *)
Theorem C24_axis_unit : forall e, normR (axis_of e) = 1.
Proof.
  intros e. unfold normR. replace (dotR (axis_of e) (axis_of e)) with 1; [apply sqrt_1|].
  unfold dotR, axis_of. cbn [vx vy vz].
  pose proof (sin2_cos2 (pitch e)) as A. pose proof (sin2_cos2 (yaw e)) as B. unfold Rsqr in *.
  replace (_ + _ + _) with (cos (yaw e) * cos (yaw e) * (sin (pitch e) * sin (pitch e) + cos (pitch e) * cos (pitch e)) + sin (yaw e) * sin (yaw e)) by ring.
  rewrite A. lra.
Qed.
Lemma sum_fin_acc : forall (l : list R) a,
  fold_left (fun acc x => xadd acc x) (map Fin l) (Fin a) = Fin (a + sumR l).
Proof.
  induction l as [|x l IH]; intros a; cbn [map fold_left sumR fold_right].
  - now rewrite Rplus_0_r.
  - cbn [xadd]. rewrite IH. f_equal. unfold sumR. ring.
Qed.
Lemma sum_fin : forall l : list R, sum (N := N) (map Fin l) = Fin (sumR l).
Proof.
  intros l. unfold sum. xrs.
  change (fold_left (fun acc x => xadd acc x) (map Fin l) (Fin 0) = Fin (sumR l)).
  rewrite sum_fin_acc. now rewrite Rplus_0_l.
Qed.
Lemma engine_massflow_fin : forall e, isp e <> 0 ->
  engine_massflow (N := N) (finE e) = Fin (- (thrust_vac e / (isp e * g0))).
Proof.
  intros e H. unfold engine_massflow, finE, STD_GRAVITY. cbn [en_thrust_vac en_isp_vac]. xrs.
  rewrite xdiv_fin by exact H. rewrite xdiv_fin by lra. fin_eq. unfold g0. field. exact H.
Qed.
Lemma sumR_opp : forall l, sumR (map Ropp l) = - sumR l.
Proof. induction l as [|x l IH]; cbn; [ring|]. unfold sumR in *. rewrite IH. ring. Qed.
Lemma massflow_fin : forall v es th, engines_are v es -> Forall (fun e => isp e <> 0) es ->
  massflow v (Fin th) = Fin (- (th * full_flow es)).
Proof.
  intros v es th H F. unfold massflow. rewrite H, map_map.
  replace (map _ es) with (map Fin (map Ropp (map (fun e => thrust_vac e / (isp e * g0)) es))).
  - rewrite sum_fin, sumR_opp. xrs. fin_eq. unfold full_flow. ring.
  - rewrite !map_map. apply map_ext_in. intros e He.
    rewrite Forall_forall in F. rewrite engine_massflow_fin; auto.
Qed.
Theorem C24_massflow : forall v es th, engines_are v es -> Forall (fun e => isp e <> 0) es ->
  massflow v (Fin th) = Fin (- (th * full_flow es)).
Proof. apply massflow_fin. Qed.
(** Order of engines, no engines. *)
Lemma sumV_perm : forall a b, Permutation a b -> sumV a = sumV b.
Proof.
  intros a b H. induction H as [|x a b H IH|x y a|a b c _ IH1 _ IH2]; auto.
  - change (addR x (sumV a) = addR x (sumV b)). now rewrite IH.
  - change (addR y (addR x (sumV a)) = addR x (addR y (sumV a))). rewrite !addR_assoc, (addR_comm y x). reflexivity.
  - congruence.
Qed.
Lemma sumR_perm : forall a b, Permutation a b -> sumR a = sumR b.
Proof.
  intros a b H. induction H as [|x a b H IH|x y a|a b c _ IH1 _ IH2]; auto.
  - change (x + sumR a = x + sumR b). now rewrite IH.
  - cbn. ring.
  - congruence.
Qed.
Theorem C24_engine_order : forall v v' es es' th p,
  engines_are v es -> engines_are v' es' -> Permutation es es' ->
  thrust_force v (Fin th) (Fin p) = thrust_force v' (Fin th) (Fin p) /\
  (Forall (fun e => isp e <> 0) es -> massflow v (Fin th) = massflow v' (Fin th)).
Proof.
  intros v v' es es' th p H H' P. split.
  - rewrite (thrust_force_fin v es), (thrust_force_fin v' es') by assumption.
    do 2 f_equal. apply sumV_perm. now apply Permutation_map.
  - intros F. assert (F' : Forall (fun e => isp e <> 0) es').
    { rewrite Forall_forall in *. intros e He. apply F. eapply Permutation_in; [|exact He].
      now apply Permutation_sym. }
    rewrite (massflow_fin v es), (massflow_fin v' es') by assumption.
    do 3 f_equal. apply sumR_perm. now apply Permutation_map.
Qed.
Theorem C24_no_engines : forall (v : Vehicle N) th p, ve_engines v = [] ->
  thrust_force v (Fin th) (Fin p) = finv zeroR /\ massflow v (Fin th) = Fin 0.
Proof.
  intros v th p H. assert (E : engines_are v []) by exact H. split.
  - rewrite (thrust_force_fin v []) by exact E. unfold full_thrust, sumV, scaleR, zeroR. cbn.
    f_equal. f_equal; ring.
  - rewrite (massflow_fin v []) by (auto || constructor). unfold full_flow. cbn [map sumR fold_right]. fin_eq. ring.
Qed.

(** ** C22 *)
(** Size of the aerodynamic force plus [t] times the full thrust. *)
Definition load (aero T : vec3 R) (t : R) : R := normR (addR aero (scaleR t T)).

Lemma load_sq : forall aero T t,
  load aero T t * load aero T t
  = dotR aero aero + 2 * t * dotR aero T + t * t * dotR T T.
Proof.
  intros aero T t. unfold load. rewrite normR_sq. unfold dotR, addR, scaleR. cbn [vx vy vz]. ring.
Qed.
Lemma load_ge0 : forall aero T t, 0 <= load aero T t.
Proof. intros. apply normR_ge0. Qed.
Lemma load_0 : forall aero T, load aero T 0 = normR aero.
Proof.
  intros aero T. unfold load. f_equal. destruct aero as [a b c]. unfold addR, scaleR. cbn. f_equal; ring.
Qed.

Lemma sq_le : forall a b, 0 <= a -> 0 <= b -> (a <= b <-> a * a <= b * b).
Proof. intros. split; intros; nra. Qed.
Lemma sq_eq : forall a b, 0 <= a -> 0 <= b -> (a = b <-> a * a = b * b).
Proof. intros. split; intros; nra. Qed.

(** Cauchy-Schwarz. *)
Lemma cauchy : forall a b, dotR a b * dotR a b <= dotR a a * dotR b b.
Proof.
  intros [a0 a1 a2] [b0 b1 b2]. unfold dotR. cbn [vx vy vz].
  assert (H : 0 <= Rsqr (a0*b1-a1*b0) + Rsqr (a0*b2-a2*b0) + Rsqr (a1*b2-a2*b1)).
  { pose proof (Rle_0_sqr (a0*b1-a1*b0)). pose proof (Rle_0_sqr (a0*b2-a2*b0)).
    pose proof (Rle_0_sqr (a1*b2-a2*b1)). lra. }
  unfold Rsqr in H. lra.
Qed.
Lemma cos_bounds : forall a b, a <> zeroR -> b <> zeroR ->
  -1 <= dotR a b / (normR a * normR b) <= 1.
Proof.
  intros a b Ha Hb. assert (A := normR_pos _ Ha). assert (B := normR_pos _ Hb).
  assert (C := cauchy a b). rewrite <- !normR_sq in C.
  assert (P : 0 < normR a * normR b) by nra.
  replace (normR a * normR a * (normR b * normR b)) with ((normR a * normR b) * (normR a * normR b)) in C by ring.
  set (P0 := normR a * normR b) in *. set (D := dotR a b) in *. clearbody P0 D. clear A B Ha Hb a b.
  split; apply Rmult_le_reg_r with P0; auto;
    unfold Rdiv; rewrite Rmult_assoc, Rinv_l by lra; nra.
Qed.

Lemma clamp_fin : forall x lo hi, lo <= hi ->
  clamp (N := N) (Fin x) (Fin lo) (Fin hi)
  = Fin (if Rlt_dec x lo then lo else if Rlt_dec hi x then hi else x).
Proof.
  intros x lo hi H. unfold clamp. xrs. unfold Rltb.
  destruct (Rlt_dec x lo); xrs; unfold Rltb.
  - destruct (Rlt_dec hi lo); [lra|reflexivity].
  - destruct (Rlt_dec hi x); reflexivity.
Qed.

(** The angle computed for non-zero vectors. *)
Lemma vangle_fin : forall a b, a <> zeroR -> b <> zeroR ->
  vangle (N := N) (finv a) (finv b) = Fin (acos (dotR a b / (normR a * normR b))).
Proof.
  intros a b Ha Hb. assert (A := normR_pos _ Ha). assert (B := normR_pos _ Hb).
  assert (C := cos_bounds a b Ha Hb).
  unfold vangle. rewrite vdot_fin, !norm_fin. xrs. rewrite !Reqb_false by lra. cbn [orb].
  rewrite xdiv_fin by nra.
  rewrite clamp_fin by lra.
  destruct (Rlt_dec _ _); [lra|]. destruct (Rlt_dec _ _); [lra|].
  rewrite xfun1_fin by lra. reflexivity.
Qed.
Lemma vangle_zero : forall b, vangle (N := N) (finv zeroR) (finv b) = Fin 0.
Proof.
  intros b. unfold vangle. rewrite !norm_fin, normR_zeroR. xrs. rewrite Reqb_true by reflexivity. reflexivity.
Qed.
Lemma veqb_zero_fin : forall a, veqb (N := N) (finv a) vzero
  = if Reqb (vx a) 0 && Reqb (vy a) 0 && Reqb (vz a) 0 then true else false.
Proof.
  intros a. unfold veqb. rewrite vzero_fin. xrs. unfold zeroR. cbn [vx vy vz].
  destruct (_ && _ && _)%bool; reflexivity.
Qed.
Lemma zeroR_dec : forall a : vec3 R, {a = zeroR} + {a <> zeroR}.
Proof.
  intros [a b c]. unfold zeroR.
  destruct (Req_EM_T a 0), (Req_EM_T b 0), (Req_EM_T c 0);
    first [left; congruence | right; intros E; injection E; intros; congruence].
Qed.

(** The solution of the triangle: [c] with sides [a], [b] and angle [al] between
    [b] and [c] (opposite to [a]). *)
Lemma triangle_big : forall a b al, 0 < a -> 0 <= b <= a -> 0 < al < PI ->
  exists c, side_side_angle (N := N) (Fin a) (Fin b) (Fin al) = Some (Fin c) /\
    0 <= c /\ exists w, 0 <= w /\ c = b * cos al + w /\ w * w = a * a - (b * sin al) * (b * sin al) /\
    Rabs (b * cos al) <= w.
Proof.
  intros a b al Ha Hb Hal. assert (Hs := sin_gt_0 al (proj1 Hal) (proj2 Hal)).
  assert (S1 := SIN_bound al). assert (C1 := COS_bound al).
  assert (Hsb : 0 <= sin al * b <= a) by (split; nra).
  unfold side_side_angle. xrs. rewrite !Reqb_false by lra.
  rewrite (Rltb_false a (sin al * b)) by lra. rewrite xdiv_fin by lra. rewrite (Rltb_false a b) by lra.
  assert (Hq : 0 <= sin al * b / a <= 1).
  { split.
    - apply Rmult_le_pos; [lra|]. left. now apply Rinv_0_lt_compat.
    - apply Rmult_le_reg_r with a; auto. unfold Rdiv. rewrite Rmult_assoc, Rinv_l by lra. lra. }
  rewrite xfun1_fin by lra. xrs.
  set (be := asin (sin al * b / a)).
  assert (Sbe : sin be = sin al * b / a) by (apply sin_asin; lra).
  assert (Bbe : - (PI/2) <= be <= PI/2) by apply asin_bound.
  assert (Cbe : 0 <= cos be) by (apply cos_ge_0; lra).
  rewrite xdiv_fin by lra.
  eexists. split; [reflexivity|].
  assert (E : sin (PI - be - al) = sin be * cos al + cos be * sin al).
  { replace (PI - be - al) with (PI - (be + al)) by ring. rewrite sin_PI_x, sin_plus. reflexivity. }
  assert (Ec : a * sin (PI - be - al) / sin al = b * cos al + a * cos be).
  { rewrite E, Sbe. field. lra. }
  assert (Ew : (a * cos be) * (a * cos be) = a * a - b * sin al * (b * sin al)).
  { pose proof (sin2_cos2 be) as P. unfold Rsqr in P.
    replace (a * cos be * (a * cos be)) with (a * a * (1 - sin be * sin be)) by nra.
    rewrite Sbe. field. lra. }
  assert (Hw : Rabs (b * cos al) <= a * cos be).
  { rewrite <- (Rabs_pos_eq (a * cos be)) by nra. apply Rsqr_le_abs_0. unfold Rsqr. rewrite Ew.
    pose proof (sin2_cos2 al) as P. unfold Rsqr in P.
    assert (Q : b * cos al * (b * cos al) + b * sin al * (b * sin al) = b * b)
      by (replace (b * b) with (b * b * (sin al * sin al + cos al * cos al)) by (rewrite P; ring); ring).
    assert (b * b <= a * a) by nra. lra. }
  rewrite Ec. split.
  - assert (H := Rabs_def2). unfold Rabs in Hw. destruct (Rcase_abs (b * cos al)); lra.
  - exists (a * cos be). repeat split; auto. nra.
Qed.

(** [c] is the thrust along [T] for which the load is [a0] (larger solution). *)
Definition solves (aero T : vec3 R) (a0 c : R) : Prop :=
  let k := - dotR aero T / normR T in
  exists w, c = k + w /\ Rabs k <= w /\ w * w = a0 * a0 - (dotR aero aero - k * k).

Lemma required_thrust : forall aero T a0, T <> zeroR -> 0 <= a0 -> normR aero <= a0 ->
  exists c, side_side_angle (N := N) (Fin a0) (norm (N := N) (finv aero))
              (xsub (Fin PI) (vangle (N := N) (finv aero) (finv T))) = Some (Fin c) /\
    solves aero T a0 c.
Proof.
  intros aero T a0 HT Ha Hb. rewrite norm_fin.
  assert (PT := normR_pos _ HT). assert (PI0 := PI_RGT_0).
  destruct (zeroR_dec aero) as [->|Hn].
  - rewrite vangle_zero, normR_zeroR. unfold side_side_angle. xrs.
    rewrite Reqb_false by lra. rewrite Reqb_true by ring. eexists. split; [reflexivity|].
    unfold solves.
    assert (D : dotR zeroR T = 0) by (unfold dotR, zeroR; cbn; ring).
    assert (D' : dotR zeroR zeroR = 0) by (unfold dotR, zeroR; cbn; ring).
    rewrite D, D'. exists a0. replace (- 0 / normR T) with 0 by (field; lra).
    rewrite Rabs_R0. repeat split; [ring|lra|ring].
  - assert (PA := normR_pos _ Hn). rewrite vangle_fin by assumption.
    set (u := dotR aero T / (normR aero * normR T)).
    assert (Hu := cos_bounds aero T Hn HT). fold u in Hu.
    assert (Ek : - dotR aero T / normR T = - normR aero * u) by (unfold u; field; lra).
    assert (Bu := acos_bound u). assert (Cu : cos (acos u) = u) by (apply cos_acos; lra).
    unfold solves. rewrite Ek. clear Ek. set (b := normR aero) in *.
    rewrite <- (normR_sq aero). fold b. xrs.
    destruct (Req_dec (acos u) PI) as [E1|E1].
    { assert (u = -1) by (rewrite <- Cu, E1, cos_PI; reflexivity).
      unfold side_side_angle. xrs. rewrite Reqb_true by lra. rewrite Rltb_false by lra.
      eexists. split; [reflexivity|]. exists a0. clearbody u. subst u. replace (- b * -1) with b by ring.
      rewrite Rabs_pos_eq by lra. repeat split; lra. }
    destruct (Req_dec (acos u) 0) as [E2|E2].
    { assert (u = 1) by (rewrite <- Cu, E2, cos_0; reflexivity).
      unfold side_side_angle. xrs. rewrite Reqb_false by lra. rewrite Reqb_true by lra.
      eexists. split; [reflexivity|]. exists a0. clearbody u. subst u.
      rewrite Rabs_left by lra. repeat split; lra. }
    destruct (triangle_big a0 b (PI - acos u)) as [c [Hc [Hc0 [w [Hw [E [Ew Hk]]]]]]]; try lra.
    exists c. split; [exact Hc|]. exists w.
    assert (C : cos (PI - acos u) = - u).
    { replace (PI - acos u) with (- (acos u - PI)) by ring.
      rewrite cos_neg, cos_minus, cos_PI, sin_PI. rewrite Cu. ring. }
    rewrite C in *. replace (- b * u) with (b * - u) by ring.
    repeat split; auto.
    rewrite Ew. assert (P := sin2_cos2 (PI - acos u)). unfold Rsqr in P. rewrite C in P.
    replace (b * sin (PI - acos u) * (b * sin (PI - acos u)))
      with (b * b * (sin (PI - acos u) * sin (PI - acos u))) by ring.
    replace (sin (PI - acos u) * sin (PI - acos u)) with (1 - - u * - u) by lra. ring.
Qed.

Lemma solves_load : forall aero T a0 c t, T <> zeroR -> 0 <= a0 -> solves aero T a0 c -> 0 <= t ->
  (load aero T t <= a0 <-> t <= c / normR T) /\ (t = c / normR T -> load aero T t = a0).
Proof.
  intros aero T a0 c t HT Ha [w [-> [Hk Ew]]] Ht.
  assert (PT := normR_pos _ HT). set (k := - dotR aero T / normR T) in *.
  assert (Ed : dotR aero T = - k * normR T) by (unfold k; field; lra).
  assert (L : load aero T t * load aero T t
              = (t * normR T - k) * (t * normR T - k) - w * w + a0 * a0).
  { rewrite load_sq, Ed, <- (normR_sq T), Ew. ring. }
  assert (Hw : 0 <= w) by (assert (H := Rabs_pos k); lra).
  assert (Hk' : - w <= k <= w) by (unfold Rabs in Hk; destruct (Rcase_abs k); lra).
  assert (Pt : 0 <= t * normR T) by nra.
  assert (L0 := load_ge0 aero T t).
  assert (Q : t <= (k + w) / normR T <-> t * normR T - k <= w).
  { split; intros H.
    - apply Rmult_le_compat_r with (r := normR T) in H; [|lra].
      replace ((k + w) / normR T * normR T) with (k + w) in H by (field; lra). lra.
    - apply Rmult_le_reg_r with (normR T); [lra|].
      replace ((k + w) / normR T * normR T) with (k + w) by (field; lra). lra. }
  split.
  - rewrite Q, (sq_le (load aero T t) a0) by lra. rewrite L.
    assert (X : - w <= t * normR T - k) by lra.
    set (x := t * normR T - k) in *. clearbody x. clear - X Hw. split; intros; nra.
  - intros E. apply sq_eq; [lra|lra|]. rewrite L.
    assert (X : t * normR T - k = w) by (rewrite E; field; lra). rewrite X. ring.
Qed.

Theorem C22_largest_throttle : forall v es p aero L m,
  engines_are v es -> 0 <= L * m -> normR aero <= L * m ->
  exists th, auto_throttle v (Fin L) (Fin m) (Fin p) (finv aero) = Fin th /\
    0 <= th <= 1 /\
    load aero (full_thrust es p) th <= L * m /\
    (forall t, 0 <= t <= 1 -> load aero (full_thrust es p) t <= L * m -> t <= th) /\
    (th < 1 -> load aero (full_thrust es p) th = L * m).
Proof.
  intros v es p aero L m He Hlim Ha. unfold auto_throttle.
  change (@n_lit N 1 0) with (Fin 1). rewrite (thrust_force_fin v es) by exact He.
  set (T := full_thrust es p).
  replace (scaleR 1 T) with T by (unfold scaleR; destruct T; cbn; f_equal; ring).
  rewrite veqb_zero_fin.
  destruct (zeroR_dec T) as [ET|HT].
  { rewrite ET. unfold zeroR. cbn [vx vy vz]. rewrite Reqb_true by reflexivity. cbn [andb].
    exists 1. split; [reflexivity|].
    assert (E : forall t, load aero (V3 0 0 0) t = normR aero).
    { intros t. unfold load. f_equal. destruct aero. unfold addR, scaleR. cbn. f_equal; ring. }
    rewrite E. split; [lra|]. split; [exact Ha|]. split; intros; lra. }
  replace (Reqb (vx T) 0 && Reqb (vy T) 0 && Reqb (vz T) 0)%bool with false.
  2:{ destruct T as [t0 t1 t2]. cbn [vx vy vz]. unfold Reqb.
      destruct (Req_EM_T t0 0), (Req_EM_T t1 0), (Req_EM_T t2 0); cbn; try reflexivity.
      exfalso. apply HT. unfold zeroR. congruence. }
  destruct (required_thrust aero T (L * m) HT Hlim Ha) as [c [Hc Hs]].
  cbn [n_mul n_sub n_pi XR xmul]. cbn [carrier XR] in Hc |- *. rewrite Hc.
  rewrite norm_fin. assert (PT := normR_pos _ HT).
  cbn [n_div XR]. rewrite xdiv_fin by lra. lit_norm. cbn [n_lit XR]. lit_norm.
  rewrite clamp_fin by lra.
  assert (P0 := solves_load aero T (L*m) c 0 HT Hlim Hs (Rle_refl 0)).
  rewrite load_0 in P0. assert (Hc0 : 0 <= c / normR T) by (apply P0; exact Ha).
  eexists. split; [reflexivity|].
  destruct (Rlt_dec (c / normR T) 0); [lra|].
  destruct (Rlt_dec 1 (c / normR T)) as [G|G].
  - split; [lra|]. split.
    + apply (solves_load aero T (L*m) c 1); auto; lra.
    + split; [intros; lra|intros; lra].
  - split; [lra|]. split.
    + apply (solves_load aero T (L*m) c (c / normR T)); auto; lra.
    + split.
      * intros t Ht Hl. apply (solves_load aero T (L*m) c t); auto; lra.
      * intros _. apply (solves_load aero T (L*m) c (c / normR T)); auto.
Qed.

(** Without a limit (a configured limit of -1) the throttle is 1. *)
Theorem C22_unlimited : forall v es p aero m, engines_are v es -> 0 < m ->
  auto_throttle v PInf (Fin m) (Fin p) (finv aero) = Fin 1.
Proof.
  intros v es p aero m He Hm. unfold auto_throttle.
  change (@n_lit N 1 0) with (Fin 1). rewrite (thrust_force_fin v es) by exact He.
  set (T := full_thrust es p).
  replace (scaleR 1 T) with T by (unfold scaleR; destruct T; cbn; f_equal; ring).
  rewrite veqb_zero_fin.
  destruct (zeroR_dec T) as [ET|HT].
  { rewrite ET. unfold zeroR. cbn [vx vy vz]. rewrite Reqb_true by reflexivity. reflexivity. }
  replace (Reqb (vx T) 0 && Reqb (vy T) 0 && Reqb (vz T) 0)%bool with false.
  2:{ destruct T as [t0 t1 t2]. cbn [vx vy vz]. unfold Reqb.
      destruct (Req_EM_T t0 0), (Req_EM_T t1 0), (Req_EM_T t2 0); cbn; try reflexivity.
      exfalso. apply HT. unfold zeroR. congruence. }
  assert (PT := normR_pos _ HT). assert (PI0 := PI_RGT_0).
  rewrite !norm_fin.
  assert (F : side_side_angle (N := N) PInf (Fin (normR aero))
                (xsub (Fin PI) (vangle (N := N) (finv aero) (finv T))) = Some PInf).
  { assert (A : exists g, vangle (N := N) (finv aero) (finv T) = Fin g /\ 0 <= g <= PI).
    { destruct (zeroR_dec aero) as [->|Hn].
      - exists 0. rewrite vangle_zero. split; [reflexivity|lra].
      - eexists. rewrite vangle_fin by assumption. split; [reflexivity|]. apply acos_bound. }
    destruct A as [g [-> Hg]]. unfold side_side_angle. xrs.
    destruct (Req_dec g PI) as [E1|E1].
    { rewrite Reqb_true by lra. reflexivity. }
    rewrite Reqb_false by lra.
    destruct (Req_dec g 0) as [E2|E2].
    { rewrite Reqb_true by lra. reflexivity. }
    rewrite Reqb_false by lra.
    cbn [xdiv]. rewrite xfun1_fin by lra. xrs.
    assert (S : 0 < sin (PI - g)) by (apply sin_gt_0; lra).
    assert (S2 : 0 < sin (PI - asin 0 - (PI - g))).
    { rewrite asin_0. replace (PI - 0 - (PI - g)) with g by ring. apply sin_gt_0; lra. }
    unfold inf_sign. rewrite (Rltb_true 0 _) by exact S2. cbn [xdiv]. rewrite Rltb_false by lra.
    reflexivity. }
  cbn [n_mul n_sub n_pi XR xmul]. unfold inf_sign. rewrite Rltb_true by exact Hm.
  cbn [carrier XR] in F |- *. rewrite F.
  cbn [n_div XR xdiv]. rewrite Rltb_false by lra. reflexivity.
Qed.

(** Smaller solution, used when the aerodynamic force alone exceeds the limit. *)
Lemma required_thrust_small : forall aero T a0, T <> zeroR -> 0 < a0 -> a0 < normR aero ->
  let k := - dotR aero T / normR T in
  0 < k -> 0 <= a0 * a0 - (dotR aero aero - k * k) ->
  exists c w, side_side_angle (N := N) (Fin a0) (norm (N := N) (finv aero))
              (xsub (Fin PI) (vangle (N := N) (finv aero) (finv T))) = Some (Fin c) /\
    c = k - w /\ 0 <= w <= k /\ w * w = a0 * a0 - (dotR aero aero - k * k).
Proof.
  intros aero T a0 HT Ha Hb k Hk Hfeas. rewrite norm_fin.
  assert (PT := normR_pos _ HT). assert (PI0 := PI_RGT_0).
  assert (PA : 0 < normR aero) by lra.
  assert (Hn : aero <> zeroR) by (intros ->; rewrite normR_zeroR in PA; lra).
  rewrite vangle_fin by assumption.
  set (u := dotR aero T / (normR aero * normR T)).
  assert (Hu := cos_bounds aero T Hn HT). fold u in Hu.
  assert (Ek : k = - normR aero * u) by (unfold k, u; field; lra).
  assert (Bu := acos_bound u). assert (Cu : cos (acos u) = u) by (apply cos_acos; lra).
  rewrite <- (normR_sq aero) in *. set (b := normR aero) in *. clearbody k. xrs.
  assert (Un : u < 0) by nra.
  destruct (Req_dec (acos u) PI) as [E1|E1].
  { assert (u = -1) by (rewrite <- Cu, E1, cos_PI; reflexivity).
    unfold side_side_angle. xrs. rewrite Reqb_true by lra. rewrite Rltb_true by lra.
    exists (b - a0), a0. split; [reflexivity|]. subst k. rewrite H in Hk |- *.
    repeat split; try lra. }
  destruct (Req_dec (acos u) 0) as [E2|E2].
  { assert (u = 1) by (rewrite <- Cu, E2, cos_0; reflexivity). lra. }
  set (al := PI - acos u).
  assert (C : cos al = - u).
  { unfold al. replace (PI - acos u) with (- (acos u - PI)) by ring.
    rewrite cos_neg, cos_minus, cos_PI, sin_PI. rewrite Cu. ring. }
  assert (Hal : 0 < al < PI) by (unfold al; lra).
  assert (Hs := sin_gt_0 al (proj1 Hal) (proj2 Hal)).
  assert (P := sin2_cos2 al). unfold Rsqr in P.
  assert (Hsb : (b * sin al) * (b * sin al) = b * b - k * k).
  { rewrite Ek. replace (- b * u) with (b * cos al) by (rewrite C; ring).
    replace (b * sin al * (b * sin al)) with (b * b * (sin al * sin al)) by ring.
    replace (sin al * sin al) with (1 - cos al * cos al) by lra. ring. }
  assert (Hle : 0 <= sin al * b <= a0).
  { split; [nra|]. apply sq_le; [nra|lra|]. nra. }
  unfold side_side_angle. xrs. rewrite !Reqb_false by lra.
  rewrite (Rltb_false a0 (sin al * b)) by lra. rewrite xdiv_fin by lra. rewrite (Rltb_true a0 b) by lra.
  assert (Hq : 0 <= sin al * b / a0 <= 1).
  { split.
    - apply Rmult_le_pos; [lra|]. left. now apply Rinv_0_lt_compat.
    - apply Rmult_le_reg_r with a0; auto. unfold Rdiv. rewrite Rmult_assoc, Rinv_l by lra. lra. }
  rewrite xfun1_fin by lra. xrs.
  set (be := asin (sin al * b / a0)).
  assert (Sbe : sin be = sin al * b / a0) by (apply sin_asin; lra).
  assert (Bbe : - (PI/2) <= be <= PI/2) by apply asin_bound.
  assert (Cbe : 0 <= cos be) by (apply cos_ge_0; lra).
  rewrite xdiv_fin by lra.
  exists (a0 * sin (PI - (PI - be) - al) / sin al), (a0 * cos be).
  split; [reflexivity|].
  assert (E : sin (PI - (PI - be) - al) = sin be * cos al - cos be * sin al).
  { replace (PI - (PI - be) - al) with (be - al) by ring. apply sin_minus. }
  assert (Ew : (a0 * cos be) * (a0 * cos be) = a0 * a0 - (b * b - k * k)).
  { rewrite <- Hsb. pose proof (sin2_cos2 be) as Q. unfold Rsqr in Q.
    replace (a0 * cos be * (a0 * cos be)) with (a0 * a0 * (1 - sin be * sin be)) by nra.
    rewrite Sbe. field. lra. }
  split.
  - rewrite E, Sbe, Ek. replace (- b * u) with (b * cos al) by (rewrite C; ring). field. lra.
  - split; [|exact Ew]. split; [nra|]. apply sq_le; [nra|lra|]. rewrite Ew. nra.
Qed.

(** When the aerodynamic force alone exceeds the limit but some throttle setting brings
    the load within it, the chosen one is the smallest such setting, and meets the
    limit with equality. *)
Theorem C22_overload : forall v es p aero L m t0,
  engines_are v es -> 0 < L * m -> L * m < normR aero ->
  0 <= t0 <= 1 -> load aero (full_thrust es p) t0 <= L * m ->
  exists th, auto_throttle v (Fin L) (Fin m) (Fin p) (finv aero) = Fin th /\
    0 <= th <= 1 /\
    load aero (full_thrust es p) th = L * m /\
    (forall t, 0 <= t <= 1 -> load aero (full_thrust es p) t <= L * m -> th <= t).
Proof.
  intros v es p aero L m t0 He Hlim Ha Ht0 Hf. unfold auto_throttle.
  change (@n_lit N 1 0) with (Fin 1). rewrite (thrust_force_fin v es) by exact He.
  set (T := full_thrust es p) in *.
  replace (scaleR 1 T) with T by (unfold scaleR; destruct T; cbn; f_equal; ring).
  rewrite veqb_zero_fin.
  assert (HT : T <> zeroR).
  { intros E. rewrite E in Hf.
    assert (X : load aero zeroR t0 = normR aero).
    { unfold load. f_equal. destruct aero. unfold addR, scaleR, zeroR. cbn. f_equal; ring. }
    rewrite X in Hf. lra. }
  replace (Reqb (vx T) 0 && Reqb (vy T) 0 && Reqb (vz T) 0)%bool with false.
  2:{ clearbody T. destruct T as [a0 a1 a2]. cbn [vx vy vz]. unfold Reqb.
      destruct (Req_EM_T a0 0), (Req_EM_T a1 0), (Req_EM_T a2 0); cbn; try reflexivity.
      exfalso. apply HT. unfold zeroR. congruence. }
  assert (PT := normR_pos _ HT).
  assert (Ed : dotR aero T = - (- dotR aero T / normR T) * normR T) by (field; lra).
  set (k := - dotR aero T / normR T) in *.
  assert (Lsq : forall t, load aero T t * load aero T t
              = (t * normR T - k) * (t * normR T - k) + dotR aero aero - k * k).
  { intros t. rewrite load_sq, Ed, <- (normR_sq T). ring. }
  assert (Hff : load aero T t0 * load aero T t0 <= L * m * (L * m))
    by (apply (proj1 (sq_le _ _ (load_ge0 aero T t0) (Rlt_le _ _ Hlim))); exact Hf).
  rewrite Lsq in Hff. assert (Hd := normR_sq aero).
  assert (Y := Rle_0_sqr (t0 * normR T - k)). unfold Rsqr in Y.
  assert (Hfeas : 0 <= L * m * (L * m) - (dotR aero aero - k * k)) by lra.
  assert (Hsq : L * m * (L * m) < normR aero * normR aero) by (apply Rmult_le_0_lt_compat; lra).
  assert (Hk : 0 < k).
  { destruct (Rlt_dec 0 k) as [G|G]; [exact G|exfalso]. apply Rnot_lt_le in G.
    assert (0 <= t0 * normR T) by nra.
    assert (k * k <= (t0 * normR T - k) * (t0 * normR T - k)).
    { set (y := t0 * normR T) in *. clearbody y k. clear - G H. nra. }
    lra. }
  destruct (required_thrust_small aero T (L * m) HT Hlim Ha Hk Hfeas) as [c [w [Hc [Ec [Hw Ew]]]]].
  fold k in Ec, Hw, Ew.
  cbn [n_mul n_sub n_pi XR xmul]. cbn [carrier XR] in Hc |- *. rewrite Hc.
  rewrite norm_fin.
  cbn [n_div XR]. rewrite xdiv_fin by lra. lit_norm. cbn [n_lit XR]. lit_norm.
  rewrite clamp_fin by lra.
  assert (Q : forall t, 0 <= t -> load aero T t <= L * m -> c / normR T <= t).
  { intros t Ht Hl. apply sq_le in Hl; [|apply load_ge0|lra]. rewrite Lsq in Hl.
    apply Rmult_le_reg_r with (normR T); [lra|].
    replace (c / normR T * normR T) with c by (field; lra).
    assert (X : (t * normR T - k) * (t * normR T - k) <= w * w) by lra. subst c.
    set (x := t * normR T) in *. clearbody x. clear - X Hw. nra. }
  assert (Hc1 : c / normR T <= 1) by (eapply Rle_trans; [apply (Q t0); [lra|exact Hf]|lra]).
  assert (Hc0 : 0 <= c / normR T).
  { apply Rmult_le_pos; [lra|]. left. now apply Rinv_0_lt_compat. }
  exists (c / normR T).
  destruct (Rlt_dec (c / normR T) 0); [lra|]. destruct (Rlt_dec 1 (c / normR T)); [lra|].
  split; [reflexivity|]. split; [lra|]. split.
  - apply sq_eq; [apply load_ge0|lra|]. rewrite Lsq.
    replace (c / normR T * normR T) with c by (field; lra). rewrite Ec. lra.
  - intros t Ht Hl. apply Q; [lra|exact Hl].
Qed.

(** When no throttle setting whatsoever, not even one outside of [0, 1], brings the load within the
    limit, the engines run at full throttle. *)
Theorem C22_hopeless : forall v es p aero L m,
  engines_are v es -> 0 < L * m -> (forall t, L * m < load aero (full_thrust es p) t) ->
  auto_throttle v (Fin L) (Fin m) (Fin p) (finv aero) = Fin 1.
Proof.
  intros v es p aero L m He Hlim Hall. unfold auto_throttle.
  change (@n_lit N 1 0) with (Fin 1). rewrite (thrust_force_fin v es) by exact He.
  set (T := full_thrust es p) in *.
  replace (scaleR 1 T) with T by (unfold scaleR; destruct T; cbn; f_equal; ring).
  destruct (veqb _ _) eqn:V; [reflexivity|].
  assert (HT : T <> zeroR).
  { intros E. rewrite veqb_zero_fin, E in V. cbn [zeroR vx vy vz] in V. rewrite Reqb_true in V by reflexivity. discriminate. }
  assert (PT := normR_pos _ HT). assert (PI0 := PI_RGT_0).
  assert (Ed : dotR aero T = - (- dotR aero T / normR T) * normR T) by (field; lra).
  set (k := - dotR aero T / normR T) in *.
  assert (Lsq : forall t, load aero T t * load aero T t
              = (t * normR T - k) * (t * normR T - k) + dotR aero aero - k * k).
  { intros t. rewrite load_sq, Ed, <- (normR_sq T). ring. }
  assert (Hmin : L * m * (L * m) < dotR aero aero - k * k).
  { assert (H := Hall (k / normR T)).
    assert (H2 : L * m * (L * m) < load aero T (k / normR T) * load aero T (k / normR T))
      by (apply Rmult_le_0_lt_compat; lra).
    rewrite Lsq in H2. replace (k / normR T * normR T) with k in H2 by (field; lra). lra. }
  assert (PA : 0 < normR aero).
  { assert (H := Hall 0). unfold load in H.
    replace (addR aero (scaleR 0 T)) with aero in H by (destruct aero, T; unfold addR, scaleR; cbn; f_equal; ring). lra. }
  assert (Hn : aero <> zeroR) by (intros ->; rewrite normR_zeroR in PA; lra).
  rewrite vangle_fin by assumption. rewrite !norm_fin.
  set (u := dotR aero T / (normR aero * normR T)).
  assert (Hu := cos_bounds aero T Hn HT). fold u in Hu.
  assert (Ek : k = - normR aero * u) by (unfold k, u; field; lra).
  assert (Bu := acos_bound u). assert (Cu : cos (acos u) = u) by (apply cos_acos; lra).
  rewrite <- (normR_sq aero) in Hmin. set (b := normR aero) in *. clearbody k b. clear Ed Lsq Hall V. xrs.
  assert (Hb : L * m * (L * m) < b * b * (1 - u * u)).
  { replace (b * b * (1 - u * u)) with (b * b - k * k) by (rewrite Ek; ring). exact Hmin. }
  assert (Q0 : 0 < L * m * (L * m)) by now apply Rmult_lt_0_compat.
  assert (E1 : acos u <> PI) by (intros E; rewrite E, cos_PI in Cu; rewrite <- Cu in Hb; lra).
  assert (E2 : acos u <> 0) by (intros E; rewrite E, cos_0 in Cu; rewrite <- Cu in Hb; lra).
  set (al := PI - acos u) in *.
  assert (Hal : 0 < al < PI) by (unfold al; lra).
  assert (Hs := sin_gt_0 al (proj1 Hal) (proj2 Hal)).
  assert (C : cos al = - u).
  { unfold al. replace (PI - acos u) with (- (acos u - PI)) by ring.
    rewrite cos_neg, cos_minus, cos_PI, sin_PI. rewrite Cu. ring. }
  assert (P := sin2_cos2 al). unfold Rsqr in P. rewrite C in P.
  assert (W : L * m < sin al * b).
  { apply Rnot_le_lt. intros G.
    assert (0 <= sin al * b) by (apply Rmult_le_pos; lra).
    assert (sin al * b * (sin al * b) <= L * m * (L * m)) by (apply Rmult_le_compat; assumption).
    replace (sin al * b * (sin al * b)) with (b * b * (sin al * sin al)) in H0 by ring.
    replace (sin al * sin al) with (1 - u * u) in H0 by lra. lra. }
  unfold side_side_angle. xrs. rewrite !Reqb_false by (unfold al; lra).
  rewrite Rltb_true by exact W. reflexivity.
Qed.

End Exact.

(** ** Non-vacuity: two canted engines, an oblique aerodynamic force, a binding limit *)
Example C22_nonvacuous : forall rot,
  let e := {| pitch := 0; yaw := 0; thrust_vac := 100; isp := 300; exit_area := 1 |} in
  let v := mkVehicle (N := XR rot) (Fin 1) (Fin 1) (Fin 1) default_table default_table default_table
             [finE e; finE e] in
  let aero := V3 (-3) 4 0 in
  engines_are v [e; e] /\ 0 <= 2 * 5 /\ normR aero <= 2 * 5 /\
  load aero (full_thrust [e; e] 1) 1 > 2 * 5 /\
  exists th, auto_throttle v (Fin 2) (Fin 5) (Fin 1) (finv aero) = Fin th /\ 0 < th < 1.
Proof.
  intros rot e v aero.
  assert (He : engines_are v [e; e]) by reflexivity.
  assert (Hn : normR aero <= 2 * 5).
  { unfold normR, dotR, aero. cbn [vx vy vz].
    replace (-3 * -3 + 4 * 4 + 0 * 0) with (5 * 5) by ring. rewrite sqrt_square by lra. lra. }
  assert (HT : full_thrust [e; e] 1 = V3 198 0 0).
  { unfold full_thrust, sumV, axis_of, scaleR, addR, zeroR. cbn. rewrite cos_0, sin_0. f_equal; ring. }
  assert (Hl : load aero (full_thrust [e; e] 1) 1 > 2 * 5).
  { rewrite HT. apply Rlt_gt. unfold load, normR. apply Rlt_le_trans with (sqrt (11 * 11)).
    - rewrite sqrt_square; lra.
    - apply sqrt_le_1_alt. unfold dotR, addR, scaleR, aero. cbn. lra. }
  split; [exact He|]. split; [lra|]. split; [exact Hn|]. split; [exact Hl|].
  destruct (C22_largest_throttle v [e; e] 1 aero 2 5 He ltac:(lra) Hn) as [th [E [B [Lm [Mx Eq]]]]].
  exists th. split; [exact E|]. split.
  - apply Rlt_le_trans with (1/100); [lra|]. apply Mx; [lra|]. rewrite HT.
    unfold load, normR. rewrite <- (sqrt_square (2 * 5)) by lra. apply sqrt_le_1_alt.
    unfold dotR, addR, scaleR, aero. cbn. lra.
  - destruct B as [_ [B|B]]; [exact B|]. subst th. lra.
Qed.
