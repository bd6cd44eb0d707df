(** * C65: a mission that meets the hypotheses

    A planet that rotates so fast that a vehicle resting on its equator is in a circular orbit: the motion is known. The
    mission is executed in binary64. *)
From Coq Require Import ZArith List Reals Lra Lia Bool.
From Coquelicot Require Import Coquelicot.
From Coq Require Import List.
From Flocq Require Import Core BinarySingleNaN.
From Verif Require Import Num Constants State Tables Config Planet Atmosphere Transformations Steering Vehicle RungeKutta Phase Simulation
  XR XRFacts SpecReal SystemFacts B64 B64Facts Prop_Run Prop_Simulation Prop_Gravity Prop_InterpIEEE Prop_IEEE Rounding
  Prop_Mission Prop_GravityIEEE Prop_AltitudeIEEE FieldBounds RK4Error StepIEEE CoastStep Demo Prop_CoastIEEE Prop_CoastDemo Motion Prop_Motion.
Import ListNotations.
Local Open Scope R_scope.

Definition spin_planet : PlanetConfig DN :=
  Custom (N := DN) (b64_lit 64 5) (b64_lit 64 5) (b64_lit 25 13, b64_lit 0 0, b64_lit 0 0, b64_lit 0 0) (b64_lit 9765625 (-10)).
Definition orbit : PhaseConfig DN :=
  mkPhaseConfig (N := DN) (Some (mkInitConfig (N := DN) (b64_lit 0 0) (b64_lit 0 0) (b64_lit 90 0) (b64_lit 0 0)))
    (Some (mkVehicleConfig (N := DN) (Some (b64_lit 1000 0)) None None None None None None))
    None (Some spin_planet) (Some (mkAtmosphereConfig (N := DN) (Some false) None)) None None (Some (TimeSinceEvent, b64_lit 4 0)).
Definition orbit_ok (k : Z) (s : State DN) : bool :=
  Beqb (st_time_since_event s : b64) (b64_of_Z k) &&
  inside (b64_of_Z 6380000) (vx (st_position s)) (b64_of_Z 6400000) && inside (b64_of_Z (-30000)) (vy (st_position s)) (b64_of_Z 30000) &&
  inside (b64_of_Z (-5000)) (vz (st_position s)) (b64_of_Z 5000) &&
  inside (b64_of_Z (-7000)) (vx (st_velocity s)) (b64_of_Z 7000) && inside (b64_of_Z (-7000)) (vy (st_velocity s)) (b64_of_Z 7000) &&
  inside (b64_of_Z (-7000)) (vz (st_velocity s)) (b64_of_Z 7000).
(** The first record to a tenth of a millimetre and a micrometre per second. *)
Definition first_ok (s : State DN) : bool :=
  inside (b64_lit 63999969482 (-4)) (vx (st_position s)) (b64_lit 63999969483 (-4)) && inside (b64_lit 62499990 (-4)) (vy (st_position s)) (b64_lit 62499991 (-4)) &&
  inside (b64_of_Z 0) (vz (st_position s)) (b64_of_Z 0) &&
  inside (b64_lit (-61035147) (-7)) (vx (st_velocity s)) (b64_lit (-61035146) (-7)) && inside (b64_lit 6249997019 (-6)) (vy (st_velocity s)) (b64_lit 6249997020 (-6)) &&
  inside (b64_of_Z 0) (vz (st_velocity s)) (b64_of_Z 0).
Definition orbit_check : bool :=
  match simulate 10 [orbit] with
  | ([EPhase 1%nat; ERecord a; ERecord b; ERecord c; ERecord d], Finished _) => orbit_ok 1 a && orbit_ok 2 b && orbit_ok 3 c && orbit_ok 4 d && first_ok a
  | _ => false
  end.
Lemma orbit_checked : orbit_check = true.
Proof. vm_compute. reflexivity. Qed.
Lemma inside_bounds : forall l x h : b64, is_finite l = true -> is_finite h = true -> inside l x h = true -> B2R l <= B2R x <= B2R h.
Proof.
  intros l x h Fl Fh H. unfold inside in H. apply andb_prop in H. destruct H as [H H2]. apply andb_prop in H. destruct H as [F H1].
  rewrite Bltb_correct in H1 by assumption. rewrite Bltb_correct in H2 by assumption.
  split; apply Rnot_lt_le; intros X; apply Rlt_bool_true in X; [rewrite X in H1; discriminate H1|rewrite X in H2; discriminate H2].
Qed.
Lemma orbit_range : forall k (s : State DN), (Z.abs k <=? 2 ^ 53)%Z = true -> orbit_ok k s = true ->
  B2R (st_time_since_event s) = IZR k /\ in_range demo_lm 6370000 13000000 14000 s.
Proof.
  intros k s Hk H. unfold orbit_ok in H. repeat (apply andb_prop in H; let X := fresh "X" in destruct H as [H X]).
  apply inside_R in X, X0, X1, X2, X3, X4; try reflexivity.
  destruct X as [A1 B1], X0 as [A2 B2], X1 as [A3 B3], X2 as [A4 B4], X3 as [A5 B5], X4 as [A6 B6].
  split.
  - destruct (int_B2R k Hk) as [Fk Ek]. rewrite <- Ek. set (t := st_time_since_event s : b64) in *.
    assert (Ft : is_finite t = true).
    { clearbody t. destruct (b64_of_Z k) as [? |?| |? ? ? ?]; try discriminate Fk; destruct t as [? |s1| |? ? ? ?]; try reflexivity; try destruct s1; discriminate H. }
    change (Beqb t (b64_of_Z k) = true) in H. rewrite Beqb_correct in H by assumption.
    destruct (Req_bool_spec (B2R t) (B2R (b64_of_Z k))) as [X|X]; [exact X|discriminate H].
  - unfold in_range. split; [split; [exact A6|split; [exact A5|exact A4]]|]. split; [split; [exact A3|split; [exact A2|exact A1]]|]. split; [split|].
    + destruct (component_le (realv (st_position s))) as (X & _). eapply Rle_trans; [|exact X]. eapply Rle_trans; [|apply Rle_abs]. apply Rle_trans with 6380000; [lra|exact (proj1 B6)].
    + eapply Rle_trans; [apply (norm_components _ 6500000); [lra|apply (wide _ _ _ _ B6)|apply (wide _ _ _ _ B5)|apply (wide _ _ _ _ B4)]|]; lra.
    + eapply Rle_trans; [apply (norm_components _ 7000); [lra|apply (wide _ _ _ _ B3)|apply (wide _ _ _ _ B2)|apply (wide _ _ _ _ B1)]|]; lra.
Qed.

(** ** The circular motion *)
Definition rate_w : R := / 1024.
Definition circle (t : R) : vec3 R := V3 (6400000 * cos (rate_w * (1 + t))) (6400000 * sin (rate_w * (1 + t))) 0.
Definition circle_v (t : R) : vec3 R := V3 (- 6250 * sin (rate_w * (1 + t))) (6250 * cos (rate_w * (1 + t))) 0.
Definition inverse_square (mu : R) (x : vec3 R) : vec3 R := scaleR (- mu / normR x ^ 3) x.
Lemma inverse_square_gradient : forall mu Re x, x <> zeroR -> gradient (potential mu 0 0 0 Re) x (inverse_square mu x).
Proof.
  intros mu Re x H. assert (P := normR_pos _ H). replace (inverse_square mu x) with (grav mu 0 0 0 Re x); [now apply grav_gradient|].
  unfold grav, inverse_square, pot_r, pot_z, scaleR. destruct x as [a b c]. cbn [vx vy vz] in *. set (r := normR _) in *. f_equal; field; lra.
Qed.
Lemma trig_unit : forall a k, 0 <= k -> normR (V3 (k * cos a) (k * sin a) 0) = k /\ normR (V3 (- k * sin a) (k * cos a) 0) = k.
Proof.
  intros a k H. assert (E := sin2_cos2 a). unfold Rsqr in E. unfold normR, dotR. cbn [vx vy vz]. split.
  - replace (k * cos a * (k * cos a) + k * sin a * (k * sin a) + 0 * 0) with (k * k * (sin a * sin a + cos a * cos a)) by ring. rewrite E, Rmult_1_r. now apply R_sqrt.sqrt_square.
  - replace (- k * sin a * (- k * sin a) + k * cos a * (k * cos a) + 0 * 0) with (k * k * (sin a * sin a + cos a * cos a)) by ring. rewrite E, Rmult_1_r. now apply R_sqrt.sqrt_square.
Qed.
Lemma circle_norm : forall t, normR (circle t) = 6400000.
Proof. intros t. apply trig_unit. lra. Qed.
Lemma circle_v_norm : forall t, normR (circle_v t) = 6250.
Proof. intros t. apply (trig_unit (rate_w * (1 + t)) 6250). lra. Qed.
Lemma circle_field : forall t, inverse_square 250000000000000 (circle t) = scaleR (- (rate_w * rate_w)) (circle t).
Proof. intros t. unfold inverse_square. rewrite circle_norm. unfold rate_w. f_equal. field. Qed.
Lemma is_derive3_ext : forall c d t v, (forall t, c t = d t) -> is_derive3 c t v -> is_derive3 d t v.
Proof.
  intros c d t v H (A & B & C). split; [|split].
  - apply (is_derive_ext (fun t => vx (c t))); [intros; now rewrite H|exact A].
  - apply (is_derive_ext (fun t => vy (c t))); [intros; now rewrite H|exact B].
  - apply (is_derive_ext (fun t => vz (c t))); [intros; now rewrite H|exact C].
Qed.
Lemma circle_motion : forall T, motion (inverse_square 250000000000000) T (6400000 * rate_w ^ 4) circle circle_v.
Proof.
  intros T. exists (fun t => scaleR (- (rate_w * rate_w)) (circle_v t)), (fun t => scaleR (rate_w ^ 4) (circle t)). intros t _.
  assert (Dc : is_derive3 circle t (circle_v t)).
  { unfold circle, circle_v. split; [|split]; cbn [vx vy vz]; (auto_derive; [exact I|unfold rate_w; field]). }
  assert (Dv : forall t, is_derive3 circle_v t (scaleR (- (rate_w * rate_w)) (circle t))).
  { intros u. unfold circle, circle_v, scaleR. split; [|split]; cbn [vx vy vz]; (auto_derive; [exact I|unfold rate_w; field]). }
  split; [exact Dc|]. split; [rewrite circle_field; apply Dv|]. split; [|split].
  - apply (is_derive3_ext (fun t => scaleR (- (rate_w * rate_w)) (circle t))); [intros; symmetry; apply circle_field|].
    unfold circle, circle_v, scaleR. split; [|split]; cbn [vx vy vz]; (auto_derive; [exact I|unfold rate_w; field]).
  - unfold circle, circle_v, scaleR. split; [|split]; cbn [vx vy vz]; (auto_derive; [exact I|unfold rate_w; field]).
  - rewrite normR_scale, circle_norm, Rabs_pos_eq by (unfold rate_w; lra). lra.
Qed.
Lemma first_angle : 1 - / 2097152 <= cos rate_w <= 1 - / 2097152 + / 10000000000000 /\ rate_w - / 6000000000 <= sin rate_w <= rate_w - / 6500000000.
Proof.
  assert (B : -2 <= rate_w <= 2 /\ 0 <= rate_w) by (unfold rate_w; lra). 
  destruct (pre_cos_bound rate_w 0) as [C1 C2]; [lra|lra|]. destruct (pre_sin_bound rate_w 0) as [S1 S2]; [lra|lra|].
  unfold cos_approx, cos_term, sin_approx, sin_term in *. cbn [sum_f_R0 Nat.mul Nat.add pow fact INR] in *. unfold rate_w in *.
  split; split; [eapply Rle_trans; [|exact C1]|eapply Rle_trans; [exact C2|]|eapply Rle_trans; [|exact S1]|eapply Rle_trans; [exact S2|]]; lra.
Qed.

Section Example.
Let E : Planet DN := planet_update_with_config spin_planet.
Local Ltac value x s m e k F V := assert (F : is_finite x = true /\ B2R x = IZR (cond_Zopp s (Zpos m)) * / IZR k);
  [assert (H : B2SF x = SpecFloat.S754_finite s m e) by (vm_compute; reflexivity);
   destruct (SF_value _ _ _ _ H) as [H1 H2]; split; [exact H1|rewrite H2; reflexivity]|destruct F as [F V]; cbn [cond_Zopp Z.opp] in V].
Let rate : R := sqrt (7 * 250000000000000 / 6370000 ^ 3).
Lemma orbit_circumstances : circumstances demo_lm E 6400000 250000000000000 0 0 0 6370000 13000000 14000 rate /\ 26 / 10000 <= rate <= 261 / 100000.
Proof.
  value (pl_equatorial_radius E) false 6871947673600000%positive (-30)%Z (1073741824)%Z F1 W1.
  value (Planet.mu E) false 8000000000000000%positive (-5)%Z (32)%Z F3 W3.
  assert (Z : (gp1 E : b64) = B754_zero false /\ (gp2 E : b64) = B754_zero false /\ (gp3 E : b64) = B754_zero false) by (vm_compute; auto).
  destruct Z as (Z1 & Z2 & Z3).
  assert (B90 : forall x, 1 <= x <= 16777216 -> bpow radix2 (-90) <= x <= bpow radix2 90).
  { intros x [X1 X2]. split.
    - apply Rle_trans with (bpow radix2 0); [apply bpow_le; lia|exact X1].
    - apply Rle_trans with (bpow radix2 24); [|apply bpow_le; lia]. exact X2. }
  assert (RR : 26 / 10000 <= rate <= 261 / 100000).
  { unfold rate. rewrite <- (sqrt_Rsqr (26 / 10000)) by lra. rewrite <- (sqrt_Rsqr (261 / 100000)) by lra. unfold Rsqr. split; apply sqrt_le_1_alt; lra. }
  split; [|exact RR].
  assert (A0 : forall e, 0 <= e -> Rabs 0 <= e) by (intros e He; rewrite Rabs_R0; exact He).
  constructor; try (apply B90; lra); try (apply A0; lra); try lra.
  - constructor.
    + split; [exact F1|split; [rewrite W1|]; lra].
    + split; [exact F3|split; [rewrite W3; lra|]]. split.
      * apply Rle_trans with (bpow radix2 0); [apply bpow_le; lia|]. change (bpow radix2 0) with 1. lra.
      * apply Rle_trans with (bpow radix2 60); [|apply bpow_le; lia]. change (bpow radix2 60) with 1152921504606846976. lra.
    + split; [rewrite Z1; reflexivity|split; [rewrite Z1; reflexivity|apply A0; lra]].
    + split; [rewrite Z2; reflexivity|split; [rewrite Z2; reflexivity|apply A0; lra]].
    + split; [rewrite Z3; reflexivity|split; [rewrite Z3; reflexivity|apply A0; lra]].
  - unfold rate. rewrite pow2_sqrt; [reflexivity|]. lra.
Qed.
(** The first record is near the circle. *)
Lemma first_near : forall s : State DN, first_ok s = true ->
  rate * normR (subR (realv (st_position s)) (circle 0)) + normR (subR (realv (st_velocity s)) (circle_v 0)) <= 3 / 1000000.
Proof.
  intros s X5. unfold first_ok in X5. do 5 (apply andb_prop in X5; let X := fresh "X" in destruct X5 as [X5 X]).
  value (b64_lit 63999969482 (-4)) false 6871944396754702%positive (-30)%Z (1073741824)%Z FA VA.
  value (b64_lit 63999969483 (-4)) false 6871944396862076%positive (-30)%Z (1073741824)%Z FB VB.
  value (b64_lit 62499990 (-4)) false 6871946574088372%positive (-40)%Z (1099511627776)%Z FC VC.
  value (b64_lit 62499991 (-4)) false 6871946684039535%positive (-40)%Z (1099511627776)%Z FD VD.
  value (b64_lit (-61035147) (-7)) true 6871946632142586%positive (-50)%Z (1125899906842624)%Z FE VE.
  value (b64_lit (-61035146) (-7)) true 6871946519552595%positive (-50)%Z (1125899906842624)%Z FF VF.
  value (b64_lit 6249997019 (-6)) false 6871944395955838%positive (-40)%Z (1099511627776)%Z FG VG.
  value (b64_lit 6249997020 (-6)) false 6871944397055349%positive (-40)%Z (1099511627776)%Z FH VH.
  apply (inside_bounds _ _ _ FA FB) in X5. rewrite VA, VB in X5.
  apply (inside_bounds _ _ _ FC FD) in X3. rewrite VC, VD in X3.
  apply (inside_R 0 _ 0) in X2; [|reflexivity|reflexivity]. destruct X2 as [_ X2].
  apply (inside_bounds _ _ _ FE FF) in X1. rewrite VE, VF in X1.
  apply (inside_bounds _ _ _ FG FH) in X0. rewrite VG, VH in X0.
  apply (inside_R 0 _ 0) in X; [|reflexivity|reflexivity]. destruct X as [_ X].
  destruct first_angle as [[C1 C2] [S1 S2]]. destruct orbit_circumstances as [_ RR].
  match type of X5 with ?l <= _ <= ?h => change (l <= vx (realv (st_position s)) <= h) in X5 end.
  match type of X3 with ?l <= _ <= ?h => change (l <= vy (realv (st_position s)) <= h) in X3 end.
  match type of X2 with ?l <= _ <= ?h => change (l <= vz (realv (st_position s)) <= h) in X2 end.
  match type of X1 with ?l <= _ <= ?h => change (l <= vx (realv (st_velocity s)) <= h) in X1 end.
  match type of X0 with ?l <= _ <= ?h => change (l <= vy (realv (st_velocity s)) <= h) in X0 end.
  match type of X with ?l <= _ <= ?h => change (l <= vz (realv (st_velocity s)) <= h) in X end.
  generalize dependent (realv (st_position s)). generalize dependent (realv (st_velocity s)). intros u Y1 Y2 Y3 r Y4 Y5 Y6.
  assert (A : normR (subR r (circle 0)) <= 2 * (/ 5500)).
  { apply norm_components; [lra|..]; unfold circle, subR; cbn [vx vy vz]; replace (rate_w * (1 + 0)) with rate_w by ring; unfold rate_w in *; apply Rabs_le; lra. }
  assert (B : normR (subR u (circle_v 0)) <= 2 * (/ 1000000)).
  { apply norm_components; [lra|..]; unfold circle_v, subR; cbn [vx vy vz]; replace (rate_w * (1 + 0)) with rate_w by ring; unfold rate_w in *; apply Rabs_le; lra. }
  assert (rate * normR (subR r (circle 0)) <= 261 / 100000 * (2 * (/ 5500))).
  { apply Rmult_le_compat; [lra|apply normR_ge0|lra|exact A]. }
  lra.
Qed.
(** Four seconds of the mission take four records; the last is within a centimetre of the circular orbit. *)
Example C65_nonvacuous : exists q a b c d,
  simulate 10 [orbit] = ([EPhase 1%nat; ERecord a; ERecord b; ERecord c; ERecord d], Finished q) /\
  motion (inverse_square 250000000000000) 3 (6400000 * rate_w ^ 4) circle circle_v /\
  normR (subR (realv (st_position d)) (circle 3)) <= / 100.
Proof.
  destruct orbit_circumstances as (C & RR). assert (CK := orbit_checked). unfold orbit_check in CK.
  destruct (simulate 10 [orbit]) as [ev st] eqn:S.
  destruct ev as [|[n|?] [|[?|a] [|[?|b] [|[?|c] [|[?|d] [|? ?]]]]]]; try discriminate CK; destruct n as [|[|n]]; try discriminate CK; destruct st as [q|?|?]; try discriminate CK.
  apply andb_prop in CK. destruct CK as [CK K5]. apply andb_prop in CK. destruct CK as [CK K4]. apply andb_prop in CK. destruct CK as [CK K3]. apply andb_prop in CK. destruct CK as [K1 K2].
  apply orbit_range in K1, K2, K3, K4; try reflexivity. apply first_near in K5.
  exists q, a, b, c, d. split; [reflexivity|split; [apply circle_motion|]].
  assert (B : block (N := DN) [EPhase 1%nat; ERecord a; ERecord b; ERecord c; ERecord d] [] 1 [a; b; c; d] []) by (split; [reflexivity|now left]).
  assert (HR : forall k s, (k <= 3)%nat -> nth_error [a; b; c; d] k = Some s -> B2R (st_time_since_event s) = INR k + 1 /\ in_range demo_lm 6370000 13000000 14000 s).
  { intros k s Hk H. destruct k as [|[|[|[|k]]]]; try lia; cbn [nth_error] in H; injection H as <-; cbn [INR].
    - destruct K1 as [T R1]. split; [rewrite T; lra|exact R1].
    - destruct K2 as [T R1]. split; [rewrite T; lra|exact R1].
    - destruct K3 as [T R1]. split; [rewrite T; lra|exact R1].
    - destruct K4 as [T R1]. split; [rewrite T; lra|exact R1]. }
  assert (Hg : forall x, x <> zeroR -> gradient (potential 250000000000000 0 0 0 6400000) x (inverse_square 250000000000000 x)) by (intros; now apply inverse_square_gradient).
  assert (E3 : exp (rate * (1 + 1 + 1)) <= 101 / 100).
  { assert (Y := exp_ineq1_le (- (rate * (1 + 1 + 1)))). rewrite exp_Ropp in Y. assert (P := exp_pos (rate * (1 + 1 + 1))). set (t := exp _) in *.
    assert (Q : / t * t = 1) by (apply Rinv_l; lra). apply (Rmult_le_compat_r t) in Y; [|lra]. rewrite Q in Y.
    assert (9921 / 10000 * t <= (1 + - (rate * (1 + 1 + 1))) * t) by (apply Rmult_le_compat_r; lra). lra. }
  assert (X0 := exp_pos (rate * (1 + 1 + 1))).
  set (G := 250000000000000 / 6370000 ^ 2) in *. assert (GB : 6 <= G <= 62 / 10) by (unfold G; lra).
  assert (D3 : drift 13000000 14000 G rate 3 <= / 10000000).
  { unfold drift. cbn [INR]. change (bpow radix2 (-53)) with (/ 9007199254740992).
    assert (X2 : (16 * 14000 + 160 * G) / rate <= (16 * 14000 + 160 * 10) * 400).
    { apply Rmult_le_compat; [lra|left; apply Rinv_0_lt_compat; lra|lra|]. replace 400 with (/ / 400) by field. apply Rinv_le_contravar; lra. }
    assert (X3 : 0 <= (16 * 14000 + 160 * G) / rate) by (apply Rmult_le_pos; [lra|left; apply Rinv_0_lt_compat; lra]).
    apply Rle_trans with ((1 + 1 + 1) * (101 / 100) * (4 * 13000000 + (16 * 14000 + 160 * 10) * 400) * / 9007199254740992); [|lra].
    apply Rmult_le_compat_r; [lra|]. apply Rmult_le_compat; try lra. }
  assert (G3 : gap 14000 G (6400000 * rate_w ^ 4) rate (3 / 1000000) 3 <= 257 / 10000000).
  { unfold gap. cbn [INR]. assert (L2 : 0 <= rate ^ 2 <= (261 / 100000) ^ 2) by (split; [apply pow2_ge_0|apply pow_incr; lra]).
    assert (L3 : 0 <= rate ^ 2 * (6 / 5 * G + rate ^ 2 * 14000) <= (261 / 100000) ^ 2 * (7540 / 1000)).
    { split; [apply Rmult_le_pos; lra|]. apply Rmult_le_compat; lra. }
    eapply Rle_trans; [apply Rmult_le_compat; [lra| |exact E3|]|].
    - unfold rate_w. lra.
    - instantiate (1 := 3 / 1000000 + (1 + 1 + 1) * (2 / 5 * (6400000 * rate_w ^ 4) + (261 / 100000) ^ 2 * (7540 / 1000) / 10)). lra.
    - unfold rate_w. lra. }
  destruct (C65_records demo_lm 10 [orbit] _ _ _ _ _ _ 3 _ _ _ _ _ _ _ _ rate (inverse_square 250000000000000) a (6400000 * rate_w ^ 4) circle circle_v (3 / 1000000) S B eq_refl eq_refl C Hg HR
    ltac:(fold G; lra) eq_refl (circle_motion (INR 3)) ltac:(intros t _; rewrite circle_norm, circle_v_norm; lra) K5 ltac:(fold G; lra) 3%nat d ltac:(lia) eq_refl) as [R1 _].
  fold G in R1. cbn [INR] in R1. replace (1 + 1 + 1) with 3 in R1 by ring.
  assert (gap 14000 G (6400000 * rate_w ^ 4) rate (3 / 1000000) 3 / rate <= 99 / 10000); [|lra].
  apply (Rmult_le_reg_r rate); [lra|]. unfold Rdiv at 1. rewrite Rmult_assoc, Rinv_l by lra. lra.
Qed.
End Example.
