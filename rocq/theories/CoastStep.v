(** * One coasting step in double precision, continued: the whole step. *)
From Coq Require Import ZArith List Reals Lra Lia Bool.
From Coquelicot Require Import Coquelicot.
From Coq Require Import List.
From Flocq Require Import Core BinarySingleNaN.
From Verif Require Import Num Constants State Tables Config Planet Atmosphere Transformations Steering Vehicle RungeKutta Phase Simulation
  XR XRFacts SpecReal SystemFacts B64 B64Facts RKFacts Prop_Gravity Prop_InterpIEEE Prop_IEEE Rounding Prop_GravityIEEE FieldBounds RK4Error StepIEEE.
Import ListNotations.
Local Open Scope R_scope.
Local Notation lit m := (b64_lit m 0).
Section IEEE.
Variable lm : libm.
Notation N := (B64 lm).
Notation add := (vadd (N := N)).
Notation scale := (vscale (N := N)).
(** ** The step *)
Section Second.
Variables (p : Phase N) (Re mu J2 J3 J4 R0 M W lam : R).
Hypothesis (He : ve_engines (ph_vehicle p) = []) (Ha : at_model (ph_atmosphere p) = NoAtmosphere).
Hypothesis (OP : ordinary_planet lm (ph_planet p) Re mu J2 J3 J4).
Hypothesis (HJ2 : Rabs J2 <= 1 / 500) (HJ3 : Rabs J3 <= 1 / 10000) (HJ4 : Rabs J4 <= 1 / 10000).
Hypothesis (BR : between 90 R0) (BM : between 90 M) (BW : between 90 W) (RM : R0 <= M) (WR : W <= R0 / 50) (GW : 2 * (mu / R0 ^ 2) <= W) (ReR : Re <= 21 / 20 * R0) (MR : M <= 1000000 * R0).
Hypothesis (Hl : 0 < lam <= / 10) (Hl2 : lam ^ 2 = 7 * mu / R0 ^ 3).
Let rho := 24 / 25 * R0.
Let g := grav mu J2 J3 J4 Re.
Let ex := 3 * M * u53.
Let ev := 14 * W * u53.
Let ea := 140 * (mu / R0 ^ 2) * u53.
Lemma Pmu : 0 < mu. Proof. apply (between_pos 300). apply OP. Qed.
Lemma PR0 : 0 < R0. Proof. exact (between_pos _ _ BR). Qed.
Lemma grav_size : mu / R0 ^ 2 <= R0 / 700.
Proof.
  assert (A := PR0). assert (X : lam ^ 2 <= (/ 10) ^ 2) by (apply pow_incr; lra). rewrite Hl2 in X.
  replace (mu / R0 ^ 2) with (7 * mu / R0 ^ 3 * (R0 / 7)) by (field; lra). replace (R0 / 700) with ((/ 10) ^ 2 * (R0 / 7)) by field.
  apply Rmult_le_compat_r; lra.
Qed.
Lemma grav_pos : 0 < mu / R0 ^ 2.
Proof. apply Rdiv_lt_0_compat; [exact Pmu|apply pow_lt, PR0]. Qed.
Lemma grav_rho : mu / rho ^ 2 = 625 / 576 * (mu / R0 ^ 2).
Proof. assert (A := PR0). unfold rho. field. lra. Qed.
Lemma field_lip : forall x y, rho <= normR x -> rho <= normR y -> normR (subR (g x) (g y)) <= lam ^ 2 * normR (subR x y).
Proof.
  intros x y Hx Hy. assert (A := PR0). assert (B := Pmu). destruct (op_radius _ _ _ _ _ _ _ OP) as (_ & _ & C).
  eapply Rle_trans; [apply (field_lipschitz mu J2 J3 J4 Re rho); auto; unfold rho; lra|].
  apply Rmult_le_compat_r; [apply normR_ge0|]. rewrite Hl2. unfold rho.
  replace (6 * mu / (24 / 25 * R0) ^ 3) with (6 * (15625 / 13824) * (mu / R0 ^ 3)) by (field; lra).
  replace (7 * mu / R0 ^ 3) with (7 * (mu / R0 ^ 3)) by (field; lra). apply Rmult_le_compat_r; [|lra].
  left. apply Rdiv_lt_0_compat; [exact B|apply pow_lt; lra].
Qed.
Lemma field_max : forall x, rho <= normR x -> normR (g x) <= 131 / 100 * (mu / R0 ^ 2).
Proof.
  intros x Hx. assert (A := PR0). assert (B := Pmu). destruct (op_radius _ _ _ _ _ _ _ OP) as (_ & _ & C).
  eapply Rle_trans; [apply (field_bound mu J2 J3 J4 Re rho); auto; unfold rho; lra|]. rewrite grav_rho. assert (X := grav_pos). lra.
Qed.
Lemma stage_acceleration : forall (s0 d : State N), system p s0 = Ret d -> finite_vector (st_acceleration d) -> finite_vector (st_position s0) ->
  rho <= normR (realv (st_position s0)) <= 2 * M ->
  close ea (realv (st_acceleration d)) (g (realv (st_position s0))) /\ normR (realv (st_acceleration d)) <= 132 / 100 * (mu / R0 ^ 2).
Proof.
  intros s0 d H F Fp Hr. assert (A := PR0). assert (B := Pmu). assert (G0 := grav_pos).
  destruct (coast_acceleration lm p s0 d He Ha H F) as [FG ->].
  set (y := st_position s0) in *. set (r := normR (realv y)) in *.
  assert (P1 : bpow radix2 (-100) <= r <= bpow radix2 100).
  { destruct BR as [X1 _]. destruct BM as [_ X2]. split.
    - apply Rle_trans with (bpow radix2 (-10) * bpow radix2 (- (90))); [rewrite <- bpow_plus; apply bpow_le; lia|].
      change (bpow radix2 (-10)) with (/ 1024). unfold rho in Hr. lra.
    - apply Rle_trans with (bpow radix2 10 * bpow radix2 90); [|rewrite <- bpow_plus; apply bpow_le; lia]. change (bpow radix2 10) with 1024.
      assert (X := bpow_gt_0 radix2 90). lra. }
  destruct (C62_gravity lm (ph_planet p) Re mu J2 J3 J4 y OP Fp P1 ltac:(fold r; unfold rho in Hr; lra)) as (g' & Gg & _ & E1 & E2 & E3).
  fold r in E1, E2, E3.
  assert (Eg : g' = g (realv y)).
  { apply (gradient_unique (potential mu J2 J3 J4 Re) (realv y)); [exact Gg|]. apply grav_gradient. intros Z. unfold r in Hr. rewrite Z, normR_zeroR in Hr. unfold rho in Hr. lra. }
  subst g'.
  assert (EE : bpow radix2 (-47) * (mu / r ^ 2) <= 70 * (mu / R0 ^ 2) * u53).
  { assert (X : mu / r ^ 2 <= mu / rho ^ 2).
    { unfold Rdiv. apply Rmult_le_compat_l; [lra|]. apply Rinv_le_contravar; [apply pow_lt; unfold rho; lra|]. apply pow_incr. unfold rho in *. lra. }
    rewrite grav_rho in X. unfold u53. change (bpow radix2 (-47)) with (/ 140737488355328). lra. }
  assert (Cl : close ea (realv (gravity (ph_planet p) y)) (g (realv y))).
  { unfold close, ea. replace (140 * (mu / R0 ^ 2) * u53) with (2 * (70 * (mu / R0 ^ 2) * u53)) by ring.
    apply norm_components; [apply Rmult_le_pos; [lra|unfold u53; lra]|eapply Rle_trans; [exact E1|exact EE]|eapply Rle_trans; [exact E2|exact EE]|eapply Rle_trans; [exact E3|exact EE]]. }
  split; [exact Cl|]. assert (X := close_far _ _ _ Cl). assert (Y := field_max (realv y) (proj1 Hr)). unfold ea, u53 in X. lra.
Qed.
Lemma finite_add : forall a b : vec3 N, finite_vector (add a b) -> finite_vector a /\ finite_vector b.
Proof.
  intros a b (H1 & H2 & H3). apply plus_operands in H1, H2, H3. split; (split; [apply H1|split; [apply H2|apply H3]]).
Qed.
Lemma finite_scale : forall (k : N) (a : vec3 N), finite_vector (scale k a) -> finite_vector a.
Proof. intros k a (H1 & H2 & H3). apply mult_operands in H1, H2, H3. split; [apply H1|split; [apply H2|apply H3]]. Qed.
Lemma add_zero : forall x z : vec3 N, finite_vector x -> vval0 z -> finite_vector (add x z) /\ realv (add x z) = realv x.
Proof.
  intros x z (F1 & F2 & F3) (Z1 & Z2 & Z3).
  destruct (val_plus_zero (vx x) (B2R (vx x)) (vx z) (conj F1 eq_refl) Z1) as [A1 B1]. destruct (val_plus_zero (vy x) (B2R (vy x)) (vy z) (conj F2 eq_refl) Z2) as [A2 B2].
  destruct (val_plus_zero (vz x) (B2R (vz x)) (vz z) (conj F3 eq_refl) Z3) as [A3 B3].
  split; [split; [exact A1|split; [exact A2|exact A3]]|]. unfold realv. f_equal; assumption.
Qed.
Lemma stage_near : forall c x r d, close c r (addR (realv x) d) -> R0 <= normR (realv x) <= M -> c + normR d <= R0 / 25 -> rho <= normR r <= 2 * M.
Proof.
  intros c x r d H Hx Hd. apply close_far in H. assert (A := norm_from (addR (realv x) d) (realv x)). assert (B := norm_from (realv x) (addR (realv x) d)).
  assert (E : subR (addR (realv x) d) (realv x) = d) by (destruct d as [a b c0]; unfold subR, addR; cbn [vx vy vz]; f_equal; ring).
  rewrite E in A. rewrite norm_sub_comm, E in B. unfold rho. assert (X := PR0). lra.
Qed.
Lemma from_vec_pos : forall (t : N * N) (v : vec7 N), st_position (from_vec t v) = v7_pos v.
Proof. reflexivity. Qed.
Lemma from_vec_vel : forall (t : N * N) (v : vec7 N), st_velocity (from_vec t v) = v7_vel v.
Proof. reflexivity. Qed.
Local Ltac inp := match goal with |- _ ?i = _ => unfold i end; rewrite ?from_vec_pos, ?from_vec_vel;
  cbn [v7_pos v7_vel v7_add v7_scale v7_zero to_primary_vec to_differentials_vector]; reflexivity.
Local Ltac input H i := match type of H with system p ?x = _ => set (i := x) in H end.
Theorem coast_step : forall s s' : State N, integrator_step (system p) s (lit 1 : N) = Ret s' ->
  finite_vector (st_position s) -> finite_vector (st_velocity s) -> finite_vector (st_velocity s') ->
  R0 <= normR (realv (st_position s)) <= M -> normR (realv (st_velocity s)) <= W ->
  exists a1 x2 v2 a2 x3 v3 a3 x4 v4 a4,
    inexact_second g ex ev ea (realv (st_position s)) (realv (st_velocity s)) (realv (st_position s')) (realv (st_velocity s')) a1 x2 v2 a2 x3 v3 a3 x4 v4 a4 /\
    rho <= normR x2 /\ rho <= normR x3 /\ rho <= normR x4.
Proof.
  intros s s' H Fx Fv Fv' Hx Hv. apply integrator_step_inv in H. destruct H as (d0 & d1 & d2 & d3 & H0 & H1 & H2 & H3 & H4).
  unfold rk_sum in H0, H1, H2, H3, H4. cbn [combine map fold_left fst snd] in H0, H1, H2, H3, H4.
  input H0 i0. input H1 i1. input H2 i2. input H3 i3. input H4 i4.
  set (x := st_position s) in *. set (v := st_velocity s) in *.
  set (Z := scale (lit 0 : N) (vzero (N := N))).
  set (h := b64_lit 5 (-1)).
  assert (X0 : st_position i0 = add x ((vsum4 lm) Z Z Z Z)) by inp. assert (V0 : st_velocity i0 = add v ((vsum4 lm) Z Z Z Z)) by inp.
  assert (X1 : st_position i1 = add x ((vsum4 lm) (scale (h : N) (scale (lit 1 : N) (st_velocity d0))) Z Z Z)) by inp.
  assert (V1 : st_velocity i1 = add v ((vsum4 lm) (scale (h : N) (scale (lit 1 : N) (st_acceleration d0))) Z Z Z)) by inp.
  assert (X2 : st_position i2 = add x ((vsum4 lm) (scale (lit 0 : N) (scale (lit 1 : N) (st_velocity d0))) (scale (h : N) (scale (lit 1 : N) (st_velocity d1))) Z Z)) by inp.
  assert (V2 : st_velocity i2 = add v ((vsum4 lm) (scale (lit 0 : N) (scale (lit 1 : N) (st_acceleration d0))) (scale (h : N) (scale (lit 1 : N) (st_acceleration d1))) Z Z)) by inp.
  assert (X3 : st_position i3 = add x ((vsum4 lm) (scale (lit 0 : N) (scale (lit 1 : N) (st_velocity d0))) (scale (lit 0 : N) (scale (lit 1 : N) (st_velocity d1))) (scale (lit 1 : N) (scale (lit 1 : N) (st_velocity d2))) Z)) by inp.
  assert (V3' : st_velocity i3 = add v ((vsum4 lm) (scale (lit 0 : N) (scale (lit 1 : N) (st_acceleration d0))) (scale (lit 0 : N) (scale (lit 1 : N) (st_acceleration d1))) (scale (lit 1 : N) (scale (lit 1 : N) (st_acceleration d2))) Z)) by inp.
  assert (X4 : st_position i4 = add x ((vsum4 lm) (scale (sixth lm) (scale (lit 1 : N) (st_velocity d0))) (scale (third lm) (scale (lit 1 : N) (st_velocity d1))) (scale (third lm) (scale (lit 1 : N) (st_velocity d2))) (scale (sixth lm) (scale (lit 1 : N) (st_velocity d3))))) by inp.
  assert (V4 : st_velocity i4 = add v ((vsum4 lm) (scale (sixth lm) (scale (lit 1 : N) (st_acceleration d0))) (scale (third lm) (scale (lit 1 : N) (st_acceleration d1))) (scale (third lm) (scale (lit 1 : N) (st_acceleration d2))) (scale (sixth lm) (scale (lit 1 : N) (st_acceleration d3))))) by inp.
  clearbody i0 i1 i2 i3 i4.
  assert (VEL : forall (i d : State N), system p i = Ret d -> st_velocity d = st_velocity i) by (intros i d E; apply system_eom in E; exact (e_velocity _ _ _ E)).
  assert (POS : forall (i d : State N), system p i = Ret d -> st_position d = st_position i) by (intros i d E; apply system_eom in E; exact (e_position _ _ _ E)).
  rewrite <- (VEL _ _ H0) in V0. rewrite <- (VEL _ _ H1) in V1. rewrite <- (VEL _ _ H2) in V2. rewrite <- (VEL _ _ H3) in V3'. rewrite <- (VEL _ _ H4) in V4. rewrite <- (POS _ _ H4) in X4.
  assert (FA : finite_vector (st_acceleration d0) /\ finite_vector (st_acceleration d1) /\ finite_vector (st_acceleration d2) /\ finite_vector (st_acceleration d3)).
  { rewrite V4 in Fv'. apply finite_add in Fv'. destruct Fv' as [_ Q]. unfold vsum4 in Q. apply finite_add in Q. destruct Q as [Q Q3].
    apply finite_add in Q. destruct Q as [Q Q2]. apply finite_add in Q. destruct Q as [Q Q1]. apply finite_add in Q. destruct Q as [_ Q0].
    apply finite_scale, finite_scale in Q0. apply finite_scale, finite_scale in Q1. apply finite_scale, finite_scale in Q2. apply finite_scale, finite_scale in Q3. auto. }
  destruct FA as (FA0 & FA1 & FA2 & FA3).
  assert (GP := grav_pos). assert (GS := grav_size). assert (PR := PR0). assert (U := u53_pos). assert (U1 := u53_le).
  assert (PM : 0 < M) by lra. assert (PW : 0 < W) by lra.
  assert (BM' : between 95 M) by (destruct BM as [Q1 Q2]; split; [eapply Rle_trans; [|exact Q1]; apply bpow_le; lia|eapply Rle_trans; [exact Q2|]; apply bpow_le; lia]).
  assert (BW' : between 95 W) by (destruct BW as [Q1 Q2]; split; [eapply Rle_trans; [|exact Q1]; apply bpow_le; lia|eapply Rle_trans; [exact Q2|]; apply bpow_le; lia]).
  assert (WM : W <= M / 50) by lra.
  assert (Hh : near (1 / 2) 0 h (1 / 2)) by exact near_half.
  assert (ZZ : vval0 Z) by (apply (vzero_times lm); exact (vzero_finite lm)).
  assert (UM : M * u53 <= R0 / 1000000).
  { apply Rle_trans with (1000000 * R0 * / 1000000000000000); [apply Rmult_le_compat; lra|lra]. }
  assert (UW : W * u53 <= W / 1000000) by (apply Rle_trans with (W * / 1000000000000000); [apply Rmult_le_compat_l; lra|lra]).
  set (G := mu / R0 ^ 2) in *.
  assert (VN : forall w : vec3 N, finite_vector w -> normR (realv w) <= 21 / 10 * W -> vnear (21 / 10 * W) 0 w (realv w)) by (intros w Q1 Q2; exact (vnear_exact _ _ Q1 Q2)).
  assert (AN : forall w : vec3 N, finite_vector w -> normR (realv w) <= 132 / 100 * G -> vnear (7 / 10 * W) 0 w (realv w)) by (intros w Q1 Q2; apply vnear_exact; [exact Q1|lra]).
  (* first stage *)
  destruct (add_zero x _ Fx (vsum_0 lm Z Z Z Z ZZ ZZ ZZ ZZ)) as [FX0 EX0]. rewrite <- X0 in FX0, EX0.
  destruct (add_zero v _ Fv (vsum_0 lm Z Z Z Z ZZ ZZ ZZ ZZ)) as [FV0 EV0]. rewrite <- V0 in FV0, EV0.
  destruct (stage_acceleration i0 d0 H0 FA0 FX0 ltac:(rewrite EX0; unfold rho; lra)) as [A0c A0n]. rewrite EX0 in A0c. fold G in A0n.
  assert (N0 := VN _ FV0 ltac:(rewrite EV0; lra)). assert (M0 := AN _ FA0 A0n). rewrite EV0 in N0.
  (* second stage *)
  destruct (vadd_x lm M W BM' BW' WM (21 / 10 / 2) (11 / 10) x _ _ ltac:(lra) ltac:(lra) Fx (proj2 Hx)
    (vsum_1 lm _ _ _ Z Z Z _ (vhalf lm W h BW' Hh (21 / 10) _ _ ltac:(lra) N0) ZZ ZZ ZZ)) as [FX1 EX1]. rewrite <- X1 in FX1, EX1.
  destruct (vadd_v lm W BW' (7 / 10 / 2) (11 / 10) v _ _ ltac:(lra) ltac:(lra) Fv Hv
    (vsum_1 lm _ _ _ Z Z Z _ (vhalf lm W h BW' Hh (7 / 10) _ _ ltac:(lra) M0) ZZ ZZ ZZ)) as [FV1 EV1]. rewrite <- V1 in FV1, EV1.
  assert (R1 : rho <= normR (realv (st_position i1)) <= 2 * M).
  { apply (stage_near _ _ _ _ EX1 Hx). rewrite normR_scale, Rabs_pos_eq by lra. lra. }
  assert (W1 : normR (realv (st_velocity d1)) <= 134 / 100 * W).
  { apply close_far in EV1. assert (Q := norm_add (realv v) (scaleR (1 / 2) (realv (st_acceleration d0)))). rewrite normR_scale, Rabs_pos_eq in Q by lra. lra. }
  destruct (stage_acceleration i1 d1 H1 FA1 FX1 R1) as [A1c A1n]. fold G in A1n.
  assert (N1 := VN _ FV1 ltac:(lra)). assert (M1 := AN _ FA1 A1n).
  (* third stage *)
  assert (Z0 : vval0 (scale (lit 0 : N) (scale (lit 1 : N) (st_velocity d0)))).
  { apply vzero_times. exact (vnear_finite _ _ _ _ (vone_times lm _ _ _ _ N0)). }
  assert (Y0 : vval0 (scale (lit 0 : N) (scale (lit 1 : N) (st_acceleration d0)))).
  { apply vzero_times. exact (vnear_finite _ _ _ _ (vone_times lm _ _ _ _ M0)). }
  assert (Z1 : vval0 (scale (lit 0 : N) (scale (lit 1 : N) (st_velocity d1)))).
  { apply vzero_times. exact (vnear_finite _ _ _ _ (vone_times lm _ _ _ _ N1)). }
  assert (Y1 : vval0 (scale (lit 0 : N) (scale (lit 1 : N) (st_acceleration d1)))).
  { apply vzero_times. exact (vnear_finite _ _ _ _ (vone_times lm _ _ _ _ M1)). }
  destruct (vadd_x lm M W BM' BW' WM (21 / 10 / 2) (11 / 10) x _ _ ltac:(lra) ltac:(lra) Fx (proj2 Hx)
    (vsum_2 lm _ _ _ _ Z Z _ Z0 (vhalf lm W h BW' Hh (21 / 10) _ _ ltac:(lra) N1) ZZ ZZ)) as [FX2 EX2]. rewrite <- X2 in FX2, EX2.
  destruct (vadd_v lm W BW' (7 / 10 / 2) (11 / 10) v _ _ ltac:(lra) ltac:(lra) Fv Hv
    (vsum_2 lm _ _ _ _ Z Z _ Y0 (vhalf lm W h BW' Hh (7 / 10) _ _ ltac:(lra) M1) ZZ ZZ)) as [FV2 EV2]. rewrite <- V2 in FV2, EV2.
  assert (R2 : rho <= normR (realv (st_position i2)) <= 2 * M).
  { apply (stage_near _ _ _ _ EX2 Hx). rewrite normR_scale, Rabs_pos_eq by lra. lra. }
  assert (W2 : normR (realv (st_velocity d2)) <= 134 / 100 * W).
  { apply close_far in EV2. assert (Q := norm_add (realv v) (scaleR (1 / 2) (realv (st_acceleration d1)))). rewrite normR_scale, Rabs_pos_eq in Q by lra. lra. }
  destruct (stage_acceleration i2 d2 H2 FA2 FX2 R2) as [A2c A2n]. fold G in A2n.
  assert (N2 := VN _ FV2 ltac:(lra)). assert (M2 := AN _ FA2 A2n).
  (* fourth stage *)
  destruct (vadd_x lm M W BM' BW' WM (21 / 10) 0 x _ _ ltac:(lra) ltac:(lra) Fx (proj2 Hx)
    (vsum_3 lm _ _ _ _ _ Z _ Z0 Z1 (vone_times lm _ _ _ _ (vone_times lm _ _ _ _ N2)) ZZ)) as [FX3 EX3]. rewrite <- X3 in FX3, EX3.
  destruct (vadd_v lm W BW' (7 / 10) 0 v _ _ ltac:(lra) ltac:(lra) Fv Hv
    (vsum_3 lm _ _ _ _ _ Z _ Y0 Y1 (vone_times lm _ _ _ _ (vone_times lm _ _ _ _ M2)) ZZ)) as [FV3 EV3]. rewrite <- V3' in FV3, EV3.
  assert (R3 : rho <= normR (realv (st_position i3)) <= 2 * M).
  { apply (stage_near _ _ _ _ EX3 Hx). lra. }
  assert (W3 : normR (realv (st_velocity d3)) <= 18 / 10 * W).
  { apply close_far in EV3. assert (Q := norm_add (realv v) (realv (st_acceleration d2))). lra. }
  destruct (stage_acceleration i3 d3 H3 FA3 FX3 R3) as [A3c A3n]. fold G in A3n.
  assert (N3 := VN _ FV3 ltac:(lra)). assert (M3 := AN _ FA3 A3n).
  (* the result *)
  destruct (vadd_x lm M W BM' BW' WM (21 / 10) (47 / 10) x _ _ ltac:(lra) ltac:(lra) Fx (proj2 Hx)
    (vsum_all lm W BW' (21 / 10) _ _ _ _ _ _ _ _ ltac:(lra) N0 N1 N2 N3)) as [FX4 EX4]. rewrite <- X4 in FX4, EX4.
  destruct (vadd_v lm W BW' (7 / 10) (47 / 10) v _ _ ltac:(lra) ltac:(lra) Fv Hv
    (vsum_all lm W BW' (7 / 10) _ _ _ _ _ _ _ _ ltac:(lra) M0 M1 M2 M3)) as [FV4 EV4]. rewrite <- V4 in FV4, EV4.
  exists (realv (st_acceleration d0)), (realv (st_position i1)), (realv (st_velocity d1)), (realv (st_acceleration d1)),
    (realv (st_position i2)), (realv (st_velocity d2)), (realv (st_acceleration d2)), (realv (st_position i3)), (realv (st_velocity d3)), (realv (st_acceleration d3)).
  split; [|split; [apply R1|split; [apply R2|apply R3]]].
  constructor; assumption.
Qed.
End Second.
End IEEE.
