(** * C63: a mission that meets the hypotheses

    A vehicle released at rest (relative to the planet) above the equator of the Smithsonian Earth, executed in binary64. *)
From Coq Require Import ZArith List Reals Lra Lia Bool.
From Coquelicot Require Import Coquelicot.
From Coq Require Import List.
From Flocq Require Import Core BinarySingleNaN.
From Verif Require Import Num Constants State Tables Config Planet Atmosphere Transformations Steering Vehicle RungeKutta Phase Simulation
  XR XRFacts SpecReal SystemFacts B64 B64Facts Prop_Run Prop_Simulation Prop_Gravity Prop_InterpIEEE Prop_IEEE Rounding
  Prop_Mission Prop_GravityIEEE Prop_AltitudeIEEE FieldBounds RK4Error StepIEEE CoastStep Demo Prop_CoastIEEE.
Import ListNotations.
Local Open Scope R_scope.

Definition fall : PhaseConfig DN :=
  mkPhaseConfig (N := DN) (Some (mkInitConfig (N := DN) (b64_lit 0 0) (b64_lit 0 0) (b64_lit 90 0) (b64_lit 0 0)))
    (Some (mkVehicleConfig (N := DN) (Some (b64_lit 1000 0)) None None None None None None))
    None (Some Smithsonian) (Some (mkAtmosphereConfig (N := DN) (Some false) None)) None None (Some (TimeSinceEvent, b64_lit 4 0)).
Definition inside (lo x hi : b64) : bool := is_finite x && negb (Bltb x lo) && negb (Bltb hi x).
Definition fall_ok (k : Z) (s : State DN) : bool :=
  Beqb (st_time_since_event s : b64) (b64_of_Z k) &&
  inside (b64_of_Z 6370000) (vx (st_position s)) (b64_of_Z 6390000) && inside (b64_of_Z (-5000)) (vy (st_position s)) (b64_of_Z 5000) &&
  inside (b64_of_Z (-5000)) (vz (st_position s)) (b64_of_Z 5000) &&
  inside (b64_of_Z (-1000)) (vx (st_velocity s)) (b64_of_Z 1000) && inside (b64_of_Z (-1000)) (vy (st_velocity s)) (b64_of_Z 1000) &&
  inside (b64_of_Z (-1000)) (vz (st_velocity s)) (b64_of_Z 1000).
Definition fall_check : bool :=
  match simulate 10 [fall] with
  | ([EPhase 1%nat; ERecord a; ERecord b; ERecord c; ERecord d], Finished _) => fall_ok 1 a && fall_ok 2 b && fall_ok 3 c && fall_ok 4 d
  | _ => false
  end.
Lemma fall_checked : fall_check = true.
Proof. vm_compute. reflexivity. Qed.
Lemma inside_R : forall l x h, (Z.abs l <=? 2 ^ 53)%Z = true -> (Z.abs h <=? 2 ^ 53)%Z = true -> inside (b64_of_Z l) x (b64_of_Z h) = true ->
  is_finite x = true /\ IZR l <= B2R x <= IZR h.
Proof.
  intros l x h Hl Hh H. unfold inside in H. apply andb_prop in H. destruct H as [H H2]. apply andb_prop in H. destruct H as [F H1].
  destruct (int_B2R l Hl) as [Fl El]. destruct (int_B2R h Hh) as [Fh Eh].
  rewrite Bltb_correct in H1 by assumption. rewrite Bltb_correct in H2 by assumption. rewrite El in H1. rewrite Eh in H2.
  split; [exact F|]. split; apply Rnot_lt_le; intros X; apply Rlt_bool_true in X; [rewrite X in H1; discriminate H1|rewrite X in H2; discriminate H2].
Qed.
Lemma wide : forall l x h e, l <= x <= h -> - e <= l -> h <= e -> Rabs x <= e.
Proof. intros l x h e H A B. apply Rabs_le. lra. Qed.
Lemma fall_range : forall k (s : State DN), (Z.abs k <=? 2 ^ 53)%Z = true -> fall_ok k s = true ->
  B2R (st_time_since_event s) = IZR k /\ in_range demo_lm 6370000 13000000 2000 s.
Proof.
  intros k s Hk H. unfold fall_ok in H. repeat (apply andb_prop in H; let X := fresh "X" in destruct H as [H X]).
  apply inside_R in X, X0, X1, X2, X3, X4; try reflexivity.
  destruct X as [A1 B1], X0 as [A2 B2], X1 as [A3 B3], X2 as [A4 B4], X3 as [A5 B5], X4 as [A6 B6].
  split.
  - destruct (int_B2R k Hk) as [Fk Ek]. rewrite <- Ek. set (t := st_time_since_event s : b64) in *.
    assert (Ft : is_finite t = true).
    { clearbody t. destruct (b64_of_Z k) as [? |?| |? ? ? ?]; try discriminate Fk; destruct t as [? |s1| |? ? ? ?]; try reflexivity; try destruct s1; discriminate H. }
    change (Beqb t (b64_of_Z k) = true) in H. rewrite Beqb_correct in H by assumption.
    destruct (Req_bool_spec (B2R t) (B2R (b64_of_Z k))) as [X|X]; [exact X|discriminate H].
  - unfold in_range. split; [split; [exact A6|split; [exact A5|exact A4]]|]. split; [split; [exact A3|split; [exact A2|exact A1]]|]. split; [split|].
    + destruct (component_le (realv (st_position s))) as (X & _). eapply Rle_trans; [|exact X]. eapply Rle_trans; [|apply Rle_abs]. exact (proj1 B6).
    + eapply Rle_trans; [apply (norm_components _ 6500000); [lra|apply (wide _ _ _ _ B6)|apply (wide _ _ _ _ B5)|apply (wide _ _ _ _ B4)]|]; lra.
    + eapply Rle_trans; [apply (norm_components _ 1000); [lra|apply (wide _ _ _ _ B3)|apply (wide _ _ _ _ B2)|apply (wide _ _ _ _ B1)]|]; lra.
Qed.
Section Example.
Let E : Planet DN := EARTH_SMITHSONIAN.
Local Ltac value x s m e k F V := assert (F : is_finite x = true /\ B2R x = IZR (cond_Zopp s (Zpos m)) * / IZR k);
  [assert (H : B2SF x = SpecFloat.S754_finite s m e) by (vm_compute; reflexivity);
   destruct (SF_value _ _ _ _ H) as [H1 H2]; split; [exact H1|rewrite H2; reflexivity]|destruct F as [F V]; cbn [cond_Zopp Z.opp] in V].
(** The rate [lam] of this example: about 1/300 per second. *)
Let rate : R := sqrt (7 * B2R (Planet.mu E) / 6370000 ^ 3).
Lemma fall_circumstances : circumstances demo_lm E (B2R (pl_equatorial_radius E)) (B2R (Planet.mu E)) (B2R (gp1 E)) (B2R (gp2 E)) (B2R (gp3 E))
    6370000 13000000 2000 rate /\ / 1000 <= rate <= / 100 /\ B2R (Planet.mu E) / 6370000 ^ 2 <= 10.
Proof.
  value (pl_equatorial_radius E) false 6848503440854955%positive (-30)%Z (1073741824)%Z F1 W1.
  value (Planet.mu E) false 6377614400731526%positive (-4)%Z (16)%Z F3 W3.
  value (gp1 E) false 4992791139304209%positive (-62)%Z (4611686018427387904)%Z F4 W4.
  value (gp2 E) true 6056435014280320%positive (-71)%Z (2361183241434822606848)%Z F5 W5.
  value (gp3 E) true 7593565304454390%positive (-72)%Z (4722366482869645213696)%Z F6 W6.
  assert (B90 : forall x, 1 <= x <= 16777216 -> bpow radix2 (-90) <= x <= bpow radix2 90).
  { intros x [X1 X2]. split.
    - apply Rle_trans with (bpow radix2 0); [apply bpow_le; lia|exact X1].
    - apply Rle_trans with (bpow radix2 24); [|apply bpow_le; lia]. exact X2. }
  assert (RR : / 1000 <= rate <= / 100).
  { unfold rate. rewrite W3. rewrite <- (sqrt_Rsqr (/ 1000)) by lra. rewrite <- (sqrt_Rsqr (/ 100)) by lra. unfold Rsqr. split; apply sqrt_le_1_alt; lra. }
  assert (GG : B2R (Planet.mu E) / 6370000 ^ 2 <= 10) by (rewrite W3; lra).
  split; [|split; [exact RR|exact GG]].
  constructor; try (apply B90; lra); try lra.
  - constructor; (split; [assumption|split; [reflexivity|]]).
    + rewrite W1. lra.
    + rewrite W3. split.
      * apply Rle_trans with (bpow radix2 0); [apply bpow_le; lia|]. change (bpow radix2 0) with 1. lra.
      * apply Rle_trans with (bpow radix2 60); [|apply bpow_le; lia]. change (bpow radix2 60) with 1152921504606846976. lra.
    + rewrite W4. apply Rabs_le. lra.
    + rewrite W5. apply Rabs_le. lra.
    + rewrite W6. apply Rabs_le. lra.
  - rewrite W4. apply Rabs_le. lra.
  - rewrite W5. apply Rabs_le. lra.
  - rewrite W6. apply Rabs_le. lra.
  - unfold rate. rewrite pow2_sqrt; [reflexivity|]. rewrite W3. lra.
Qed.
(** The fall takes four records; the last is within a tenth of a micrometre of three exact steps from the first. *)
Example C63_nonvacuous : exists q a b c d g,
  simulate 10 [fall] = ([EPhase 1%nat; ERecord a; ERecord b; ERecord c; ERecord d], Finished q) /\
  (forall x, x <> zeroR -> gradient (potential (B2R (Planet.mu E)) (B2R (gp1 E)) (B2R (gp2 E)) (B2R (gp3 E)) (B2R (pl_equatorial_radius E))) x (g x)) /\
  normR (subR (realv (st_position d)) (fst (flight g 3 (realv (st_position a), realv (st_velocity a))))) <= / 10000000.
Proof.
  destruct fall_circumstances as (C & RR & GG). assert (CK := fall_checked). unfold fall_check in CK.
  destruct (simulate 10 [fall]) as [ev st] eqn:S.
  destruct ev as [|[n|?] [|[?|a] [|[?|b] [|[?|c] [|[?|d] [|? ?]]]]]]; try discriminate CK; destruct n as [|[|n]]; try discriminate CK; destruct st as [q|?|?]; try discriminate CK.
  apply andb_prop in CK. destruct CK as [CK K4]. apply andb_prop in CK. destruct CK as [CK K3]. apply andb_prop in CK. destruct CK as [K1 K2].
  apply fall_range in K1, K2, K3, K4; try reflexivity.
  set (g := grav (B2R (Planet.mu E)) (B2R (gp1 E)) (B2R (gp2 E)) (B2R (gp3 E)) (B2R (pl_equatorial_radius E))).
  exists q, a, b, c, d, g.
  assert (Hg : forall x, x <> zeroR -> gradient (potential (B2R (Planet.mu E)) (B2R (gp1 E)) (B2R (gp2 E)) (B2R (gp3 E)) (B2R (pl_equatorial_radius E))) x (g x))
    by (intros x Hx; now apply grav_gradient).
  split; [reflexivity|split; [exact Hg|]].
  assert (B : block (N := DN) [EPhase 1%nat; ERecord a; ERecord b; ERecord c; ERecord d] [] 1 [a; b; c; d] []) by (split; [reflexivity|now left]).
  assert (HR : forall k s, (k <= 3)%nat -> nth_error [a; b; c; d] k = Some s -> B2R (st_time_since_event s) = INR k + 1 /\ in_range demo_lm 6370000 13000000 2000 s).
  { intros k s Hk H. destruct k as [|[|[|[|k]]]]; try lia; cbn [nth_error] in H; injection H as <-; cbn [INR].
    - destruct K1 as [T R1]. split; [rewrite T; lra|exact R1].
    - destruct K2 as [T R1]. split; [rewrite T; lra|exact R1].
    - destruct K3 as [T R1]. split; [rewrite T; lra|exact R1].
    - destruct K4 as [T R1]. split; [rewrite T; lra|exact R1]. }
  assert (GP : 0 <= B2R (Planet.mu E) / 6370000 ^ 2).
  { destruct (op_mu _ _ _ _ _ _ _ (c_planet _ _ _ _ _ _ _ _ _ _ _ C)) as (_ & _ & X). assert (Y := bpow_gt_0 radix2 (-300)). apply Rmult_le_pos; [lra|]. left. apply Rinv_0_lt_compat. lra. }
  set (G := B2R (Planet.mu E) / 6370000 ^ 2) in *.
  assert (D3 : drift 13000000 2000 G rate 3 <= / 10000000).
  { unfold drift. cbn [INR]. change (bpow radix2 (-53)) with (/ 9007199254740992).
    assert (X1 : exp (rate * (1 + 1 + 1)) <= 3).
    { apply Rle_trans with (exp 1); [|exact exp_le_3]. left. apply exp_increasing. lra. }
    assert (X0 := exp_pos (rate * (1 + 1 + 1))).
    assert (X2 : (16 * 2000 + 160 * G) / rate <= (16 * 2000 + 160 * 10) * 1000).
    { apply Rmult_le_compat; [lra|left; apply Rinv_0_lt_compat; lra|lra|]. replace 1000 with (/ / 1000) by field. apply Rinv_le_contravar; lra. }
    assert (X3 : 0 <= (16 * 2000 + 160 * G) / rate) by (apply Rmult_le_pos; [lra|left; apply Rinv_0_lt_compat; lra]).
    apply Rle_trans with ((1 + 1 + 1) * 3 * (4 * 13000000 + (16 * 2000 + 160 * 10) * 1000) * / 9007199254740992); [|lra].
    apply Rmult_le_compat_r; [lra|]. apply Rmult_le_compat; try lra. }
  destruct (C63_records demo_lm 10 [fall] _ _ _ _ _ _ 3 _ _ _ _ _ _ _ _ rate g a S B eq_refl eq_refl C Hg HR ltac:(fold G; lra) eq_refl 3%nat d ltac:(lia) eq_refl) as [R1 _].
  fold G in R1. cbv zeta in R1. eapply Rle_trans; [exact R1|exact D3].
Qed.
End Example.
