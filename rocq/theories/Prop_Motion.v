(** * C65: coasting flight follows the true motion

    The specification is [motion] (Motion.v): a curve whose acceleration is the gradient of the planet's potential. It is
    compared with the records written, in exact arithmetic and in IEEE binary64. *)
From Coq Require Import ZArith List Reals Lra Lia Bool.
From Coquelicot Require Import Coquelicot.
From Coq Require Import List.
From Flocq Require Import Core BinarySingleNaN.
From Verif Require Import Num Constants State Tables Config Planet Atmosphere Transformations Steering Vehicle RungeKutta Phase Simulation
  XR XRFacts SpecReal SystemFacts SystemTotal B64 B64Facts RKFacts RunFacts PhaseNew Prop_Run Prop_Simulation Prop_Gravity Prop_InterpIEEE Prop_IEEE Rounding
  Prop_Mission Prop_RealSim Prop_GravityIEEE FieldBounds RK4Error Prop_CoastExact StepIEEE CoastStep Prop_CoastIEEE Motion.
Import ListNotations.
Local Open Scope R_scope.

(** How far the method can be from the motion after [k] steps of one second, [lam] times the distance of the positions plus
    the distance of the velocities, if it is [delta] at the start. *)
Definition gap (W G K lam delta : R) (k : nat) : R := exp (lam * INR k) * (delta + INR k * (2 / 5 * K + lam ^ 2 * (6 / 5 * G + lam ^ 2 * W) / 10)).

Lemma gap_rate : forall W G K lam, 0 <= W -> 0 <= G -> 0 <= K -> 0 <= 2 / 5 * K + lam ^ 2 * (6 / 5 * G + lam ^ 2 * W) / 10.
Proof.
  intros W G K lam HW HG HK. assert (A := pow2_ge_0 lam). assert (0 <= lam ^ 2 * (6 / 5 * G + lam ^ 2 * W)); [|lra].
  apply Rmult_le_pos; [exact A|]. assert (0 <= lam ^ 2 * W) by (now apply Rmult_le_pos). lra.
Qed.
Lemma gap_step : forall W G K lam delta k w, 0 <= W -> 0 <= G -> 0 <= K -> 0 < lam -> 0 <= delta ->
  w <= gap W G K lam delta k -> exp lam * w + (2 / 5 * K + lam ^ 2 * (6 / 5 * G + lam ^ 2 * W) / 10) <= gap W G K lam delta (S k).
Proof.
  intros W G K lam delta k w HW HG HK Hl Hd Hw. unfold gap in *. assert (T := gap_rate W G K lam HW HG HK).
  set (tau := 2 / 5 * K + lam ^ 2 * (6 / 5 * G + lam ^ 2 * W) / 10) in *. rewrite S_INR. set (n := INR k) in *. assert (Pn : 0 <= n) by apply pos_INR.
  assert (P : exp (lam * (n + 1)) = exp lam * exp (lam * n)) by (rewrite <- exp_plus; f_equal; ring).
  assert (X1 : exp lam * w <= exp lam * (exp (lam * n) * (delta + n * tau))) by (apply Rmult_le_compat_l; [left; apply exp_pos|exact Hw]).
  assert (X3 : 1 <= exp (lam * (n + 1))).
  { assert (Z : 0 < lam * (n + 1)) by (apply Rmult_lt_0_compat; lra). apply exp_increasing in Z. rewrite exp_0 in Z. lra. }
  assert (X4 : 1 * tau <= exp (lam * (n + 1)) * tau) by (apply Rmult_le_compat_r; lra).
  replace (exp (lam * (n + 1)) * (delta + (n + 1) * tau)) with (exp lam * (exp (lam * n) * (delta + n * tau)) + exp (lam * (n + 1)) * tau); [lra|].
  rewrite P. ring.
Qed.
Lemma gap_mono : forall W G K lam delta k n, 0 <= W -> 0 <= G -> 0 <= K -> 0 < lam -> 0 <= delta -> (k <= n)%nat -> gap W G K lam delta k <= gap W G K lam delta n.
Proof.
  intros W G K lam delta k n HW HG HK Hl Hd H. unfold gap. assert (T := gap_rate W G K lam HW HG HK). apply le_INR in H. assert (A := pos_INR k).
  assert (Y : INR k * (2 / 5 * K + lam ^ 2 * (6 / 5 * G + lam ^ 2 * W) / 10) <= INR n * (2 / 5 * K + lam ^ 2 * (6 / 5 * G + lam ^ 2 * W) / 10)) by (apply Rmult_le_compat_r; assumption).
  assert (Y0 : 0 <= INR k * (2 / 5 * K + lam ^ 2 * (6 / 5 * G + lam ^ 2 * W) / 10)) by (apply Rmult_le_pos; assumption).
  apply Rmult_le_compat; [left; apply exp_pos|lra| |lra].
  assert (E : lam * INR k <= lam * INR n) by (apply Rmult_le_compat_l; lra). destruct E as [E|E]; [left; now apply exp_increasing|rewrite E; lra].
Qed.

Lemma derive_shift : forall (c : R -> vec3 R) u t v, is_derive3 c (u + t) v -> is_derive3 (fun t => c (u + t)) t v.
Proof.
  assert (H : forall (f : R -> R) u t d, is_derive f (u + t) d -> is_derive (fun t => f (u + t)) t d).
  { intros f u t d H. replace d with (scal 1 d) by (unfold scal; cbn; unfold mult; cbn; ring).
    apply (is_derive_comp f (fun t => u + t)); [exact H|]. auto_derive; [exact I|ring]. }
  intros c u t v (A & B & C). split; [|split]; [apply (H (fun t => vx (c t)))|apply (H (fun t => vy (c t)))|apply (H (fun t => vz (c t)))]; assumption.
Qed.

(** The circumstances, on real numbers (compare [circumstances] of C63). *)
Record orbit_data (Re mu J2 J3 J4 R0 W lam : R) : Prop := {
  o_mu : 0 < mu; o_J2 : Rabs J2 <= 1 / 500; o_J3 : Rabs J3 <= 1 / 10000; o_J4 : Rabs J4 <= 1 / 10000;
  o_R0 : 0 < R0; o_Re : 0 < Re <= 21 / 20 * R0; o_WR : 2 * (mu / R0 ^ 2) <= W <= R0 / 50;
  o_lam : 0 < lam <= / 10; o_rate : lam ^ 2 = 7 * mu / R0 ^ 3 }.
(** A motion outside the distance [R0] and not faster than [W]. *)
Definition outside (T R0 W : R) (x v : R -> vec3 R) : Prop := forall t, 0 <= t <= T -> R0 <= normR (x t) /\ normR (v t) <= W.

Section Field.
Variables (Re mu J2 J3 J4 R0 W lam : R) (g : vec3 R -> vec3 R).
Hypothesis O : orbit_data Re mu J2 J3 J4 R0 W lam.
Hypothesis Hg : forall x, x <> zeroR -> gradient (potential mu J2 J3 J4 Re) x (g x).
Local Notation rho := (24 / 25 * R0).
Local Notation G := (mu / R0 ^ 2).
Lemma G_pos : 0 < G.
Proof. apply Rdiv_lt_0_compat; [apply O|apply pow_lt, O]. Qed.
Lemma G_small : G <= R0 / 700.
Proof.
  destruct O as [Pm _ _ _ PR _ _ [L1 L2] Hl2]. assert (Y : lam ^ 2 <= (/ 10) ^ 2) by (apply pow_incr; lra). rewrite Hl2 in Y.
  replace G with (7 * mu / R0 ^ 3 * (R0 / 7)) by (field; lra). replace (R0 / 700) with ((/ 10) ^ 2 * (R0 / 7)) by field.
  apply Rmult_le_compat_r; lra.
Qed.
Lemma field_is : forall y, 0 < normR y -> g y = grav mu J2 J3 J4 Re y.
Proof.
  intros y Hy. assert (y <> zeroR) by (intros ->; rewrite normR_zeroR in Hy; lra).
  symmetry. apply (gradient_unique (potential mu J2 J3 J4 Re) y); [now apply grav_gradient|now apply Hg].
Qed.
Lemma g_lip : forall x y, rho <= normR x -> rho <= normR y -> normR (subR (g x) (g y)) <= lam ^ 2 * normR (subR x y).
Proof.
  intros x y Hx Hy. destruct O as [Pm A2 A3 A4 PR [R1 R2] _ _ Hl2]. rewrite !field_is by lra.
  eapply Rle_trans; [apply (field_lipschitz mu J2 J3 J4 Re rho); auto; lra|].
  apply Rmult_le_compat_r; [apply normR_ge0|]. rewrite Hl2.
  replace (6 * mu / rho ^ 3) with (6 * (15625 / 13824) * (mu / R0 ^ 3)) by (field; lra).
  replace (7 * mu / R0 ^ 3) with (7 * (mu / R0 ^ 3)) by (field; lra). apply Rmult_le_compat_r; [|lra].
  left. apply Rdiv_lt_0_compat; [exact Pm|apply pow_lt; lra].
Qed.
Lemma g_max : forall x, rho <= normR x -> normR (g x) <= 131 / 100 * G.
Proof.
  intros x Hx. assert (P := G_pos). destruct O as [Pm A2 A3 A4 PR [R1 R2] _ _ Hl2]. rewrite field_is by lra.
  eapply Rle_trans; [apply (field_bound mu J2 J3 J4 Re rho); auto; lra|].
  replace (mu / rho ^ 2) with (625 / 576 * G) by (field; lra). lra.
Qed.
Lemma g_max0 : forall x, R0 <= normR x -> normR (g x) <= 6 / 5 * G.
Proof.
  intros x Hx. destruct O as [Pm A2 A3 A4 PR [R1 R2] _ _ Hl2]. rewrite field_is by lra.
  apply (field_bound mu J2 J3 J4 Re R0); auto; lra.
Qed.
(** The stages of a step from a point not far inside [R0] are not much farther inside. *)
Lemma stages_out : forall X V, 99 / 100 * R0 <= normR X -> normR V <= W + R0 / 1000 ->
  rho <= normR X /\ rho <= normR (addR X (scaleR (1 / 2) V)) /\ rho <= normR (addR X (scaleR (1 / 2) (addR V (scaleR (1 / 2) (g X))))) /\
  rho <= normR (addR X (addR V (scaleR (1 / 2) (g (addR X (scaleR (1 / 2) V)))))).
Proof.
  intros X V HX HV. assert (GS := G_small). assert (GP := G_pos). assert (PR := o_R0 _ _ _ _ _ _ _ _ O). destruct (o_WR _ _ _ _ _ _ _ _ O) as [GW WR].
  assert (OUT : forall d, normR d <= 3 / 100 * R0 -> rho <= normR (addR X d)).
  { intros d Hdd. assert (A := norm_from X (addR X d)).
    assert (E : subR (addR X d) X = d) by (destruct d as [d0 d1 d2]; unfold subR, addR; cbn [vx vy vz]; f_equal; ring).
    rewrite norm_sub_comm, E in A. lra. }
  assert (HS : forall y, normR (scaleR (1 / 2) y) = 1 / 2 * normR y) by (intros y; rewrite normR_scale, Rabs_pos_eq by lra; reflexivity).
  assert (Q1 : rho <= normR X) by lra.
  assert (Q2 : rho <= normR (addR X (scaleR (1 / 2) V))) by (apply OUT; rewrite HS; lra).
  split; [exact Q1|]. split; [exact Q2|]. split.
  - apply OUT. rewrite HS. assert (A := norm_add V (scaleR (1 / 2) (g X))). rewrite HS in A. assert (B := g_max X Q1). lra.
  - apply OUT. assert (A := norm_add V (scaleR (1 / 2) (g (addR X (scaleR (1 / 2) V))))). rewrite HS in A. assert (B := g_max _ Q2). lra.
Qed.
Lemma exact_stages : forall x v, inexact_second g 0 0 0 x v (fst (rk4_second g (x, v))) (snd (rk4_second g (x, v)))
  (g x) (addR x (scaleR (1 / 2) v)) (addR v (scaleR (1 / 2) (g x))) (g (addR x (scaleR (1 / 2) v)))
  (addR x (scaleR (1 / 2) (addR v (scaleR (1 / 2) (g x))))) (addR v (scaleR (1 / 2) (g (addR x (scaleR (1 / 2) v)))))
  (g (addR x (scaleR (1 / 2) (addR v (scaleR (1 / 2) (g x))))))
  (addR x (addR v (scaleR (1 / 2) (g (addR x (scaleR (1 / 2) v))))))
  (addR v (g (addR x (scaleR (1 / 2) (addR v (scaleR (1 / 2) (g x)))))))
  (g (addR x (addR v (scaleR (1 / 2) (g (addR x (scaleR (1 / 2) v))))))).
Proof. intros. constructor; apply close_refl. Qed.

(** ** C65, the method *)
(** The Runge-Kutta method for x'' = gradient of the potential, with steps of one second, stays within [gap k] of every motion
    that starts near, as long as the motion stays outside [R0] and is not faster than [W]. *)
Theorem C65_flight : forall n K x v x1 v1 delta, motion g (INR n) K x v -> outside (INR n) R0 W x v ->
  lam * normR (subR x1 (x 0)) + normR (subR v1 (v 0)) <= delta -> gap W G K lam delta n <= lam * (R0 / 100) ->
  forall k, (k <= n)%nat ->
    lam * normR (subR (fst (flight g k (x1, v1))) (x (INR k))) + normR (subR (snd (flight g k (x1, v1))) (v (INR k))) <= gap W G K lam delta k.
Proof.
  intros n K x v x1 v1 delta (j & s & M) Out H1 Hn.
  assert (GP := G_pos). assert (PR := o_R0 _ _ _ _ _ _ _ _ O). destruct (o_WR _ _ _ _ _ _ _ _ O) as [GW WR]. assert (Hl := o_lam _ _ _ _ _ _ _ _ O).
  assert (PD : 0 <= delta).
  { assert (A := normR_ge0 (subR x1 (x 0))). assert (B := normR_ge0 (subR v1 (v 0))). assert (0 <= lam * normR (subR x1 (x 0))) by (apply Rmult_le_pos; lra). lra. }
  assert (PK : 0 <= K).
  { destruct (M 0) as (_ & _ & _ & _ & A); [assert (Z := pos_INR n); lra|]. assert (B := normR_ge0 (s 0)). lra. }
  induction k as [|k IH]; intros Hk.
  { cbn [flight fst snd INR]. unfold gap. cbn [INR]. rewrite Rmult_0_r, exp_0. lra. }
  specialize (IH ltac:(lia)). cbn [flight]. set (XV := flight g k (x1, v1)) in *. destruct XV as [X V]. cbn [fst snd] in IH.
  assert (Lk : gap W G K lam delta k <= lam * (R0 / 100)) by (eapply Rle_trans; [apply (gap_mono W G K lam delta k n); try lra; lia|exact Hn]).
  set (t := INR k) in *. assert (Pt : 0 <= t) by apply pos_INR.
  assert (It : forall u, 0 <= u <= 1 -> 0 <= t + u <= INR n). { intros u Hu. apply le_INR in Hk. rewrite S_INR in Hk. fold t in Hk. lra. }
  destruct (Out t) as [Ox Ov]; [destruct (It 0 ltac:(lra)); lra|].
  assert (Na := normR_ge0 (subR X (x t))). assert (Nb := normR_ge0 (subR V (v t))).
  assert (La : normR (subR X (x t)) <= R0 / 100) by (apply (Rmult_le_reg_l lam); lra).
  assert (Lb : normR (subR V (v t)) <= R0 / 1000).
  { assert (0 <= lam * normR (subR X (x t))) by (apply Rmult_le_pos; lra). assert (lam * (R0 / 100) <= / 10 * (R0 / 100)) by (apply Rmult_le_compat_r; lra). lra. }
  assert (FX := norm_from (x t) X). rewrite norm_sub_comm in FX. assert (FV := norm_from V (v t)).
  destruct (stages_out (x t) (v t)) as (S1 & S2 & S3 & S4); [lra|lra|].
  destruct (stages_out X V) as (Q1 & Q2 & Q3 & Q4); [lra|lra|].
  assert (Ca : close (normR (subR X (x t))) (x t) X) by (unfold close; rewrite norm_sub_comm; apply Rle_refl).
  assert (Cb : close (normR (subR V (v t))) (v t) V) by (unfold close; rewrite norm_sub_comm; apply Rle_refl).
  destruct (second_error g rho lam 0 0 0 g_lip Hl (Rle_refl 0) (Rle_refl 0) (Rle_refl 0) _ _ _ _ _ _ _ _ _ _ _ _ _ _ X V _ _ (exact_stages (x t) (v t)) Ca Cb S1 S2 S3 S4 Q1 Q2 Q3 Q4)
    as (a' & b' & Ca' & Cb' & L').
  assert (E1 : t + 0 = t) by ring.
  assert (ST := step_weighted g rho lam W (6 / 5 * G) K g_lip Hl ltac:(lra) ltac:(lra) PK (fun u => x (t + u)) (fun u => v (t + u)) (fun u => j (t + u)) (fun u => s (t + u))
    ltac:(intros u Hu; apply derive_shift, (M (t + u) (It u Hu)))
    ltac:(intros u Hu; apply (derive_shift v), (M (t + u) (It u Hu)))
    ltac:(intros u Hu; apply (derive_shift (fun t => g (x t))), (M (t + u) (It u Hu)))
    ltac:(intros u Hu; apply derive_shift, (M (t + u) (It u Hu)))
    ltac:(intros u Hu; apply (M (t + u) (It u Hu)))
    ltac:(intros u Hu; apply (Out (t + u) (It u Hu)))
    ltac:(intros u Hu; apply g_max0, (Out (t + u) (It u Hu)))
    ltac:(intros u Hu; assert (Z := proj1 (Out (t + u) (It u Hu))); lra)).
  unfold X3, X4, V2, V3', A2, X2 in ST. unfold X2 in ST. cbv beta in ST. rewrite E1 in ST. specialize (ST S2 S3 S4).
  rewrite S_INR. fold t.
  unfold close in Ca', Cb'.
  set (X' := fst (rk4_second g (X, V))) in *. set (V' := snd (rk4_second g (X, V))) in *.
  set (Y := fst (rk4_second g (x t, v t))) in *. set (U := snd (rk4_second g (x t, v t))) in *.
  assert (T1 := sub_split X' Y (x (t + 1))). assert (T2 := sub_split V' U (v (t + 1))).
  rewrite (norm_sub_comm X' Y), (norm_sub_comm Y (x (t + 1))) in T1. rewrite (norm_sub_comm V' U), (norm_sub_comm U (v (t + 1))) in T2.
  assert (T3 : lam * normR (subR X' (x (t + 1))) <= lam * (a' + normR (subR (x (t + 1)) Y))) by (apply Rmult_le_compat_l; lra).
  eapply Rle_trans; [|apply (gap_step W G K lam delta k _ ltac:(lra) ltac:(lra) PK ltac:(lra) PD IH)].
  assert (PA : 0 <= lam * a') by (apply Rmult_le_pos; [lra|]; eapply Rle_trans; [apply normR_ge0|exact Ca']). lra.
Qed.
End Field.

(** ** C65, the records *)
Section IEEE.
Variable lm : libm.
Notation N := (B64 lm).
Lemma circumstances_data : forall (planet : Planet N) Re mu J2 J3 J4 R0 M W lam, circumstances lm planet Re mu J2 J3 J4 R0 M W lam ->
  orbit_data Re mu J2 J3 J4 R0 W lam.
Proof.
  intros planet Re mu J2 J3 J4 R0 M W lam C. destruct C as [OP HJ2 HJ3 HJ4 BR BM BW ReR [RM MR] WR Hl Hl2].
  change (between 90 R0) in BR. constructor; try assumption.
  - apply (between_pos 300), OP.
  - now apply (between_pos 90).
  - split; [|exact ReR]. destruct (op_radius _ _ _ _ _ _ _ OP) as (_ & _ & X). assert (Y := bpow_gt_0 radix2 (-100)). lra.
Qed.
(** In double precision: the position in every record is within [drift k + gap k / lam] of the position of the motion at that
    time, the velocity within [lam * drift k + gap k] of its velocity, as long as the records before are in range. *)
Theorem C65_next : forall fuel (cs : list (PhaseConfig N)) ev st a i h b n Re mu J2 J3 J4 R0 M W lam (g : vec3 R -> vec3 R) s1 K x v delta,
  simulate fuel cs = (ev, st) -> block ev a i h b -> engines_in_effect cs i = [] -> atmosphere_in_effect cs i = false ->
  circumstances lm (planet_update_with_config (planet_in_effect cs i)) Re mu J2 J3 J4 R0 M W lam ->
  (forall x, x <> zeroR -> gradient (potential mu J2 J3 J4 Re) x (g x)) ->
  (forall k s, (k <= n)%nat -> nth_error h k = Some s -> B2R (st_time_since_event s) = INR k + 1 /\ finite_state lm s) ->
  (forall k s, (k < n)%nat -> nth_error h k = Some s -> in_range lm R0 M W s) ->
  drift M W (mu / R0 ^ 2) lam n <= R0 / 100 -> nth_error h 0 = Some s1 ->
  motion g (INR n) K x v -> outside (INR n) R0 W x v ->
  lam * normR (subR (realv (st_position s1)) (x 0)) + normR (subR (realv (st_velocity s1)) (v 0)) <= delta ->
  gap W (mu / R0 ^ 2) K lam delta n <= lam * (R0 / 100) ->
  forall k s, (k <= n)%nat -> nth_error h k = Some s ->
    normR (subR (realv (st_position s)) (x (INR k))) <= drift M W (mu / R0 ^ 2) lam k + gap W (mu / R0 ^ 2) K lam delta k / lam /\
    normR (subR (realv (st_velocity s)) (v (INR k))) <= lam * drift M W (mu / R0 ^ 2) lam k + gap W (mu / R0 ^ 2) K lam delta k.
Proof.
  intros fuel cs ev st a i h b n Re mu J2 J3 J4 R0 M W lam g s1 K x v delta H Bl He Ha C Hg Hr IR Hd H1 Mo Out D0 Hn k s Hk Hs.
  destruct (C63_next lm fuel cs ev st a i h b n Re mu J2 J3 J4 R0 M W lam g s1 H Bl He Ha C Hg Hr IR Hd H1 k s Hk Hs) as [A B].
  assert (O := circumstances_data _ _ _ _ _ _ _ _ _ _ C). assert (Hl := o_lam _ _ _ _ _ _ _ _ O).
  assert (F := C65_flight Re mu J2 J3 J4 R0 W lam g O Hg n K x v _ _ delta Mo Out D0 Hn k Hk).
  set (P := fst (flight g k _)) in *. set (Q := snd (flight g k _)) in *.
  assert (T1 := sub_split (realv (st_position s)) P (x (INR k))). assert (T2 := sub_split (realv (st_velocity s)) Q (v (INR k))).
  assert (N1 := normR_ge0 (subR P (x (INR k)))). assert (N2 := normR_ge0 (subR Q (v (INR k)))).
  assert (0 <= lam * normR (subR P (x (INR k)))) by (apply Rmult_le_pos; lra).
  split; [|lra]. assert (normR (subR P (x (INR k))) <= gap W (mu / R0 ^ 2) K lam delta k / lam); [|lra].
  apply (Rmult_le_reg_l lam); [lra|]. replace (lam * (gap W (mu / R0 ^ 2) K lam delta k / lam)) with (gap W (mu / R0 ^ 2) K lam delta k) by (field; lra). lra.
Qed.
(** In particular as long as the records are in range. *)
Theorem C65_records : forall fuel (cs : list (PhaseConfig N)) ev st a i h b n Re mu J2 J3 J4 R0 M W lam (g : vec3 R -> vec3 R) s1 K x v delta,
  simulate fuel cs = (ev, st) -> block ev a i h b -> engines_in_effect cs i = [] -> atmosphere_in_effect cs i = false ->
  circumstances lm (planet_update_with_config (planet_in_effect cs i)) Re mu J2 J3 J4 R0 M W lam ->
  (forall x, x <> zeroR -> gradient (potential mu J2 J3 J4 Re) x (g x)) ->
  (forall k s, (k <= n)%nat -> nth_error h k = Some s -> B2R (st_time_since_event s) = INR k + 1 /\ in_range lm R0 M W s) ->
  drift M W (mu / R0 ^ 2) lam n <= R0 / 100 -> nth_error h 0 = Some s1 ->
  motion g (INR n) K x v -> outside (INR n) R0 W x v ->
  lam * normR (subR (realv (st_position s1)) (x 0)) + normR (subR (realv (st_velocity s1)) (v 0)) <= delta ->
  gap W (mu / R0 ^ 2) K lam delta n <= lam * (R0 / 100) ->
  forall k s, (k <= n)%nat -> nth_error h k = Some s ->
    normR (subR (realv (st_position s)) (x (INR k))) <= drift M W (mu / R0 ^ 2) lam k + gap W (mu / R0 ^ 2) K lam delta k / lam /\
    normR (subR (realv (st_velocity s)) (v (INR k))) <= lam * drift M W (mu / R0 ^ 2) lam k + gap W (mu / R0 ^ 2) K lam delta k.
Proof.
  intros fuel cs ev st a i h b n Re mu J2 J3 J4 R0 M W lam g s1 K x v delta H Bl He Ha C Hg Hr Hd H1 Mo Out D0 Hn.
  apply (C65_next fuel cs ev st a i h b n Re mu J2 J3 J4 R0 M W lam g s1 K x v delta); auto.
  - intros k s Hk Hs. destruct (Hr k s Hk Hs) as (T & F1 & F2 & _). split; [exact T|split; assumption].
  - intros k s Hk Hs. now apply (Hr k s ltac:(lia)).
Qed.
(** No need to look at the records: a motion that stays [e] farther outside, and slower, keeps them in range. *)
Theorem C65_whole : forall fuel (cs : list (PhaseConfig N)) ev st a i h b n Re mu J2 J3 J4 R0 M W lam (g : vec3 R -> vec3 R) s1 K x v delta,
  simulate fuel cs = (ev, st) -> block ev a i h b -> engines_in_effect cs i = [] -> atmosphere_in_effect cs i = false ->
  circumstances lm (planet_update_with_config (planet_in_effect cs i)) Re mu J2 J3 J4 R0 M W lam ->
  (forall x, x <> zeroR -> gradient (potential mu J2 J3 J4 Re) x (g x)) ->
  (forall k s, (k <= n)%nat -> nth_error h k = Some s -> B2R (st_time_since_event s) = INR k + 1 /\ finite_state lm s) ->
  nth_error h 0 = Some s1 -> motion g (INR n) K x v ->
  lam * normR (subR (realv (st_position s1)) (x 0)) + normR (subR (realv (st_velocity s1)) (v 0)) <= delta ->
  let e := drift M W (mu / R0 ^ 2) lam n + gap W (mu / R0 ^ 2) K lam delta n / lam in
  e <= R0 / 100 ->
  (forall t, 0 <= t <= INR n -> R0 + e <= normR (x t) <= M - e /\ normR (v t) <= W - lam * e) ->
  forall k s, (k <= n)%nat -> nth_error h k = Some s -> in_range lm R0 M W s /\
    normR (subR (realv (st_position s)) (x (INR k))) <= drift M W (mu / R0 ^ 2) lam k + gap W (mu / R0 ^ 2) K lam delta k / lam /\
    normR (subR (realv (st_velocity s)) (v (INR k))) <= lam * drift M W (mu / R0 ^ 2) lam k + gap W (mu / R0 ^ 2) K lam delta k.
Proof.
  intros fuel cs ev st a i h b n Re mu J2 J3 J4 R0 M W lam g s1 K x v delta H Bl He Ha C Hg Hr H1 Mo D0 e Le Out.
  assert (O := circumstances_data _ _ _ _ _ _ _ _ _ _ C). assert (Hl := o_lam _ _ _ _ _ _ _ _ O).
  assert (Pm := o_mu _ _ _ _ _ _ _ _ O). assert (P0 := o_R0 _ _ _ _ _ _ _ _ O). destruct (o_WR _ _ _ _ _ _ _ _ O) as [GW WR].
  assert (PG : 0 < mu / R0 ^ 2) by (apply Rdiv_lt_0_compat; [exact Pm|now apply pow_lt]). set (G := mu / R0 ^ 2) in *.
  assert (PW : 0 <= W) by lra. assert (PM : 0 <= M) by (assert (Z := c_RM _ _ _ _ _ _ _ _ _ _ _ C); lra).
  assert (PD : 0 <= delta).
  { assert (A := normR_ge0 (subR (realv (st_position s1)) (x 0))). assert (B := normR_ge0 (subR (realv (st_velocity s1)) (v 0))).
    assert (0 <= lam * normR (subR (realv (st_position s1)) (x 0))) by (apply Rmult_le_pos; lra). lra. }
  assert (PK : 0 <= K).
  { destruct Mo as (j & z & Mo). destruct (Mo 0) as (_ & _ & _ & _ & A); [assert (Z := pos_INR n); lra|]. assert (B := normR_ge0 (z 0)). lra. }
  assert (Dp : forall m, 0 <= drift M W G lam m) by (intros m; apply drift_pos; lra).
  assert (Gp : forall m, 0 <= gap W G K lam delta m / lam).
  { intros m. apply Rmult_le_pos; [|left; apply Rinv_0_lt_compat; lra]. unfold gap. apply Rmult_le_pos; [left; apply exp_pos|].
    assert (T := gap_rate W G K lam PW ltac:(lra) PK).
    assert (0 <= INR m * (2 / 5 * K + lam ^ 2 * (6 / 5 * G + lam ^ 2 * W) / 10)) by (apply Rmult_le_pos; [apply pos_INR|exact T]). lra. }
  assert (Dm : forall m, (m <= n)%nat -> drift M W G lam m <= drift M W G lam n) by (intros m Hm; apply drift_mono; lra || exact Hm).
  assert (Gm : forall m, (m <= n)%nat -> gap W G K lam delta m / lam <= gap W G K lam delta n / lam).
  { intros m Hm. apply Rmult_le_compat_r; [left; apply Rinv_0_lt_compat; lra|]. apply gap_mono; lra || exact Hm. }
  assert (Gl : forall m, gap W G K lam delta m = lam * (gap W G K lam delta m / lam)) by (intros m; field; lra).
  assert (Pe : 0 <= e) by (unfold e; assert (A := Dp n); assert (B := Gp n); lra).
  assert (Ple : 0 <= lam * e) by (apply Rmult_le_pos; lra).
  assert (All : forall k, (k <= n)%nat -> (forall j s, (j < k)%nat -> nth_error h j = Some s -> in_range lm R0 M W s) -> forall s, nth_error h k = Some s ->
    normR (subR (realv (st_position s)) (x (INR k))) <= drift M W G lam k + gap W G K lam delta k / lam /\
    normR (subR (realv (st_velocity s)) (v (INR k))) <= lam * drift M W G lam k + gap W G K lam delta k).
  { intros k Hk IR s Hs. assert (Lk := le_INR _ _ Hk).
    assert (Dk := Dm k Hk). assert (Gk := Gm k Hk). assert (Dk0 := Dp k). assert (Gk0 := Gp k).
    apply (C65_next fuel cs ev st a i h b k Re mu J2 J3 J4 R0 M W lam g s1 K x v delta H Bl He Ha C Hg); auto.
    - intros j z Hj Hz. apply Hr; [lia|exact Hz].
    - fold G. unfold e in Le. lra.
    - destruct Mo as (j & z & Mo). exists j, z. intros t Ht. apply Mo. lra.
    - intros t Ht. destruct (Out t) as [A B]; [lra|]. lra.
    - fold G. rewrite Gl. apply Rmult_le_compat_l; [lra|]. unfold e in Le. lra. }
  assert (Step : forall k s, (k <= n)%nat -> (forall j s, (j < k)%nat -> nth_error h j = Some s -> in_range lm R0 M W s) -> nth_error h k = Some s -> in_range lm R0 M W s).
  { intros k s Hk IR Hs. destruct (All k Hk IR s Hs) as [A B]. destruct (Hr k s Hk Hs) as (_ & F1 & F2). split; [exact F1|split; [exact F2|]].
    assert (Dk := Dm k Hk). assert (Gk := Gm k Hk). assert (Lk := le_INR _ _ Hk). assert (Pk := pos_INR k).
    destruct (Out (INR k)) as [[O1 O2] O3]; [lra|].
    assert (E1 := norm_from (realv (st_position s)) (x (INR k))). assert (E2 := norm_from (x (INR k)) (realv (st_position s))). rewrite (norm_sub_comm (x (INR k))) in E2.
    assert (E3 := norm_from (realv (st_velocity s)) (v (INR k))).
    assert (Ae : normR (subR (realv (st_position s)) (x (INR k))) <= e) by (unfold e; lra).
    assert (Be : normR (subR (realv (st_velocity s)) (v (INR k))) <= lam * e).
    { unfold e. rewrite Rmult_plus_distr_l, <- Gl. assert (lam * drift M W G lam k <= lam * drift M W G lam n) by (apply Rmult_le_compat_l; lra).
      assert (gap W G K lam delta k <= gap W G K lam delta n) by (rewrite (Gl k), (Gl n); apply Rmult_le_compat_l; lra). lra. }
    split; lra. }
  assert (Rng : forall k, (k <= n)%nat -> forall j s, (j < k)%nat -> nth_error h j = Some s -> in_range lm R0 M W s).
  { induction k as [|k IH]; intros Hk j s Hj Hs; [lia|]. destruct (Nat.eq_dec j k) as [->|Hne].
    - apply (Step k s ltac:(lia)); [|exact Hs]. intros j s' Hj' Hs'. apply (IH ltac:(lia) j s' Hj' Hs').
    - apply (IH ltac:(lia) j s); [lia|exact Hs]. }
  intros k s Hk Hs. split.
  - exact (Step k s Hk (Rng k Hk) Hs).
  - exact (All k Hk (Rng k Hk) s Hs).
Qed.
End IEEE.

Section Exact.
Context {rot : mat3 xr -> mat3 xr}.
Notation N := (XR rot).
(** In exact arithmetic only the error of the method remains. *)
Theorem C65_exact : forall fuel (cs : list (PhaseConfig N)) ev st a i h b n Re Rp mu J2 J3 J4 w R0 W lam (g : vec3 R -> vec3 R) s1 x1 v1 K x v delta,
  simulate fuel cs = (ev, st) -> block ev a i h b -> engines_in_effect cs i = [] -> atmosphere_in_effect cs i = false ->
  planet_data (planet_in_effect cs i) Re Rp mu J2 J3 J4 w -> orbit_data Re mu J2 J3 J4 R0 W lam ->
  (forall x, x <> zeroR -> gradient (potential mu J2 J3 J4 Re) x (g x)) ->
  (forall k s, (k <= n)%nat -> nth_error h k = Some s -> st_time_since_event s = Fin (INR k + 1) /\ exists v, st_velocity s = finv v) ->
  nth_error h 0 = Some s1 -> st_position s1 = finv x1 -> st_velocity s1 = finv v1 ->
  motion g (INR n) K x v -> outside (INR n) R0 W x v ->
  lam * normR (subR x1 (x 0)) + normR (subR v1 (v 0)) <= delta -> gap W (mu / R0 ^ 2) K lam delta n <= lam * (R0 / 100) ->
  forall k s, (k <= n)%nat -> nth_error h k = Some s -> exists xk vk, st_position s = finv xk /\ st_velocity s = finv vk /\
    lam * normR (subR xk (x (INR k))) + normR (subR vk (v (INR k))) <= gap W (mu / R0 ^ 2) K lam delta k.
Proof.
  intros fuel cs ev st a i h b n Re Rp mu J2 J3 J4 w R0 W lam g s1 x1 v1 K x v delta H Bl He Ha D O Hg Hr H1 Ex Ev Mo Out D0 Hn k s Hk Hs.
  destruct (C63_exact fuel cs ev st a i h b n Re Rp mu J2 J3 J4 w g s1 x1 v1 H Bl He Ha D Hg Hr H1 Ex Ev k s Hk Hs) as [A B].
  eexists _, _. split; [exact A|]. split; [exact B|]. exact (C65_flight Re mu J2 J3 J4 R0 W lam g O Hg n K x v x1 v1 delta Mo Out D0 Hn k Hk).
Qed.
End Exact.
