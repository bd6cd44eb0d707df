(** * Properties in IEEE binary64 arithmetic, rounding and special values included

    [lm] is any implementation of the mathematical library. *)
From Coq Require Import ZArith List Reals Lra Lia Bool.
From Flocq Require Import Core BinarySingleNaN.
From Verif Require Import Num Constants State Tables Config Planet Atmosphere Transformations
  Steering Vehicle RungeKutta Phase Simulation B64 B64Facts SystemFacts RKFacts RunFacts PhaseNew Prop_Run.
Import ListNotations.
Local Open Scope R_scope.

Section IEEE.
Variable lm : libm.
Notation N := (B64 lm).

(** ** C21 *)
(** A float that is a number between 0 and 1. *)
Definition fraction (x : b64) : Prop := is_finite x = true /\ 0 <= B2R x <= 1.

Lemma Bltb_true_cases : forall x y : b64, Bltb x y = true ->
  match x, y with
  | B754_nan, _ | _, B754_nan => False
  | B754_infinity s, B754_infinity s' => s = true /\ s' = false
  | B754_infinity s, _ => s = true
  | _, B754_infinity s' => s' = false
  | _, _ => B2R x < B2R y
  end.
Proof.
  intros x y H.
  destruct (is_finite x) eqn:Fx; [destruct (is_finite y) eqn:Fy|].
  - rewrite Bltb_correct in H by assumption.
    destruct (Rlt_bool_spec (B2R x) (B2R y)) as [L|L]; [|discriminate].
    destruct x; try discriminate; destruct y; try discriminate; exact L.
  - destruct x as [s|s| |s m e B]; try discriminate; destruct y as [s'|s'| |s' m' e' B']; try discriminate;
      destruct s'; try discriminate; try reflexivity; cbn in H; destruct s; discriminate.
  - destruct x as [s|s| |s m e B]; try discriminate; destruct y as [s'|s'| |s' m' e' B']; try discriminate;
      destruct s; cbn in H; try discriminate; try reflexivity; destruct s'; try discriminate; auto.
Qed.

Lemma clamp_fraction : forall x : b64, let c := clamp (N := N) x (b64_lit 0 0) (b64_lit 1 0) in
  is_nan c = true \/ fraction c.
Proof.
  intros x c. unfold c, clamp. cbn [n_ltb B64].
  destruct lit_1 as [E1 [F1 _]]. rewrite lit_0.
  assert (F0 : fraction (B754_zero false)) by (split; [reflexivity|cbn; lra]).
  assert (Fr1 : fraction (b64_lit 1 0)) by (split; [exact F1|rewrite E1; lra]).
  destruct (Bltb x (B754_zero false)) eqn:L.
  - replace (Bltb (b64_lit 1 0) (B754_zero false)) with false.
    + right. exact F0.
    + symmetry. rewrite Bltb_correct; [|exact F1|reflexivity].
      apply Rlt_bool_false. rewrite E1. cbn. lra.
  - destruct (Bltb (b64_lit 1 0) x) eqn:U; [right; exact Fr1|].
    destruct (is_finite x) eqn:Fx.
    + right. rewrite Bltb_correct in L; [|exact Fx|reflexivity].
      rewrite Bltb_correct in U by assumption. rewrite E1 in U. cbn [B2R] in L.
      destruct (Rlt_bool_spec (B2R x) 0); [discriminate|].
      destruct (Rlt_bool_spec 1 (B2R x)); [discriminate|].
      split; [exact Fx|lra].
    + left. destruct x as [s|s| |s m e B]; try discriminate; try reflexivity.
      exfalso. destruct s; [discriminate L|].
      destruct (b64_lit 1 0) as [s'|s'| |s' m' e' B']; try discriminate; destruct s'; discriminate.
Qed.

(** Auto-throttling: any vehicle, limit, mass, pressure, aerodynamic force. *)
Theorem C21_auto_throttle : forall (v : Vehicle N) (limit mass pressure : b64) (aero : vec3 b64),
  let t := auto_throttle (N := N) v limit mass pressure aero in
  is_nan t = true \/ fraction t.
Proof.
  intros v limit mass pressure aero t. unfold t, auto_throttle.
  assert (Fr1 : fraction (b64_lit 1 0))
    by (destruct lit_1 as [E1 [F1 _]]; split; [exact F1|rewrite E1; lra]).
  destruct (veqb _ _); [right; exact Fr1|].
  destruct (side_side_angle _ _ _); [|right; exact Fr1].
  apply clamp_fraction.
Qed.
(** Every state returned by the equations of motion, for any phase and argument. *)
Theorem C21_states : forall (p : Phase N) (s0 s : State N), system p s0 = Ret s ->
  fraction (st_throttle s).
Proof.
  intros p s0 s H. apply system_eom in H.
  assert (E := e_throttle _ _ _ H). assert (Nn := e_throttle_not_nan _ _ _ H).
  cbn [n_isnan B64] in Nn.
  destruct (C21_auto_throttle (ph_vehicle p) (ph_max_acceleration p) (st_mass s) (st_pressure s)
              (st_aero_force_body s)) as [A|A]; rewrite <- E in A; [congruence|exact A].
Qed.
(** Every state printed by a simulation of any list of configurations. *)
Theorem C21_reported : forall fuel (cs : list (PhaseConfig N)) ev st (s : State N),
  simulate fuel cs = (ev, st) -> In (ERecord s) ev -> fraction (st_throttle s).
Proof.
  intros fuel cs ev st s H Hin.
  destruct (C45_reported _ _ _ _ _ H Hin) as [p Hp]. destruct (C37_reported _ _ _ Hp) as [s0 E].
  apply C21_states with p s0. now apply system_eom.
Qed.

(** ** C13, C14: special values in the aerodynamic force *)
Definition is_zero (x : b64) : Prop := exists s, x = B754_zero s.

Lemma nan_to_zero_not_nan : forall x : b64, is_nan (nan_to_zero (N := N) x) = false.
Proof. intros x. unfold nan_to_zero. cbn [n_isnan B64]. destruct (is_nan x) eqn:E; [reflexivity|exact E]. Qed.

Theorem C14_no_nan : forall (v : Vehicle N) (s : State N) f, aero_force v s = Ret f ->
  is_nan (vx f) = false /\ is_nan (vy f) = false /\ is_nan (vz f) = false.
Proof.
  intros v s f H. unfold aero_force in H.
  apply bind_Ret in H. destruct H as [cd [_ H]].
  apply bind_Ret in H. destruct H as [cl [_ H]].
  apply bind_Ret in H. destruct H as [cy [_ H]].
  injection H as <-. cbn [vx vy vz]. repeat split; apply nan_to_zero_not_nan.
Qed.

(** A zero factor gives zero or NaN. *)
Definition zero_or_nan (x : b64) : Prop := is_zero x \/ x = B754_nan.
Lemma zn_mult_l : forall x y, zero_or_nan x -> zero_or_nan (Bmult mode_NE x y).
Proof.
  intros x y [[s ->]| ->].
  - destruct y as [s'|s'| |s' m e B]; cbn; unfold zero_or_nan, is_zero; eauto.
  - right. destruct y; reflexivity.
Qed.
Lemma zn_mult_r : forall x y, zero_or_nan y -> zero_or_nan (Bmult mode_NE x y).
Proof.
  intros x y [[s ->]| ->].
  - destruct x as [s'|s'| |s' m e B]; cbn; unfold zero_or_nan, is_zero; eauto.
  - right. destruct x; reflexivity.
Qed.
Lemma nan_to_zero_zn : forall x, zero_or_nan x -> is_zero (nan_to_zero (N := N) x).
Proof.
  intros x [[s ->]| ->]; unfold nan_to_zero; cbn [n_isnan B64 is_nan].
  - exists s. reflexivity.
  - exists false. reflexivity.
Qed.

(** With a dynamic pressure that is zero (or NaN), or no reference area, no force. *)
Lemma aero_force_zero : forall (v : Vehicle N) (s : State N) f,
  zero_or_nan (st_dynamic_pressure s) \/ zero_or_nan (ve_reference_area v) ->
  aero_force v s = Ret f -> is_zero (vx f) /\ is_zero (vy f) /\ is_zero (vz f).
Proof.
  intros v s f Hq H. unfold aero_force in H.
  apply bind_Ret in H. destruct H as [cd [_ H]].
  apply bind_Ret in H. destruct H as [cl [_ H]].
  apply bind_Ret in H. destruct H as [cy [_ H]].
  injection H as <-. cbn [vx vy vz vscale n_mul B64].
  assert (K : zero_or_nan (Bmult mode_NE (st_dynamic_pressure s) (ve_reference_area v)))
    by (destruct Hq; [now apply zn_mult_l|now apply zn_mult_r]).
  repeat split; apply nan_to_zero_zn, zn_mult_l, K.
Qed.

(** No reference area, no aerodynamic force. *)
Theorem C13_no_area : forall (p : Phase N) (s0 s : State N), is_zero (ve_reference_area (ph_vehicle p)) ->
  system p s0 = Ret s ->
  is_zero (vx (st_aero_force_body s)) /\ is_zero (vy (st_aero_force_body s)) /\
  is_zero (vz (st_aero_force_body s)).
Proof.
  intros p s0 s HA H. apply system_eom in H.
  apply aero_force_zero with (ph_vehicle p) (before_aero s0 s); [right; left; exact HA|apply (e_aero_force _ _ _ H)].
Qed.

(** The atmosphere disabled: pressure, density and temperature are zero, the
    dynamic pressure is zero (or NaN, if the square of the velocity overflows), and the
    aerodynamic force is zero in every component, whatever the vehicle, the tables, the
    wind and the velocity. *)
Theorem C13_no_atmosphere : forall (p : Phase N) (s0 s : State N),
  at_model (ph_atmosphere p) = NoAtmosphere -> system p s0 = Ret s ->
  is_zero (st_pressure s) /\ is_zero (st_density s) /\ is_zero (st_temperature s) /\
  zero_or_nan (st_dynamic_pressure s) /\
  is_zero (vx (st_aero_force_body s)) /\ is_zero (vy (st_aero_force_body s)) /\
  is_zero (vz (st_aero_force_body s)).
Proof.
  intros p s0 s HA H. apply system_eom in H.
  assert (T := e_temperature _ _ _ H). assert (P := e_pressure _ _ _ H).
  assert (D := e_density _ _ _ H).
  unfold at_temperature, at_pressure, at_density in T, P, D. rewrite HA in T, P, D.
  injection T as T. injection P as P. injection D as D.
  assert (Z : is_zero (B754_zero false)) by (exists false; reflexivity).
  cbn [n_lit B64] in T, P, D. rewrite lit_0 in T, P, D. rewrite <- T, <- P, <- D.
  assert (Q : zero_or_nan (st_dynamic_pressure s)).
  { rewrite (e_dynamic_pressure _ _ _ H). unfold at_dynamic_pressure. cbn [n_mul B64].
    apply zn_mult_l, zn_mult_r. left. rewrite <- D. exact Z. }
  split; [exact Z|]. split; [exact Z|]. split; [exact Z|]. split; [exact Q|].
  apply aero_force_zero with (ph_vehicle p) (before_aero s0 s); [left; exact Q|apply (e_aero_force _ _ _ H)].
Qed.
(** ... so in every printed state of a phase whose last configured switch is off (or
    never configured). *)
Theorem C13_reported : forall (cs : list (PhaseConfig N)) (p : Phase N) (s : State N),
  reported cs p s -> at_model (ph_atmosphere p) = NoAtmosphere ->
  is_zero (st_pressure s) /\ is_zero (st_density s) /\ is_zero (st_temperature s) /\
  zero_or_nan (st_dynamic_pressure s) /\
  is_zero (vx (st_aero_force_body s)) /\ is_zero (vy (st_aero_force_body s)) /\
  is_zero (vz (st_aero_force_body s)).
Proof.
  intros cs p s H HA. destruct (C37_reported _ _ _ H) as [s0 E].
  apply C13_no_atmosphere with p s0; [exact HA|]. now apply system_eom.
Qed.
Theorem C14_reported : forall (cs : list (PhaseConfig N)) (p : Phase N) (s : State N),
  reported cs p s ->
  is_nan (vx (st_aero_force_body s)) = false /\ is_nan (vy (st_aero_force_body s)) = false /\
  is_nan (vz (st_aero_force_body s)) = false.
Proof.
  intros cs p s H. destruct (C37_reported _ _ _ H) as [s0 E].
  eapply C14_no_nan. apply (e_aero_force _ _ _ E).
Qed.

(** ** C50: coefficient tables left out *)
(** An unconfigured table evaluates to NaN. *)
Lemma empty_table : forall s : State N, at_state default_table s = Ret (B754_nan : b64).
Proof. reflexivity. Qed.
Lemma nan_mult_r : forall x : b64, Bmult mode_NE x B754_nan = B754_nan.
Proof. intros [s|s| |s m e B]; reflexivity. Qed.
Lemma nan_minus_r : forall x : b64, Bminus mode_NE x B754_nan = B754_nan.
Proof. intros [s|s| |s m e B]; reflexivity. Qed.
Lemma nan_plus_r : forall x : b64, Bplus mode_NE x B754_nan = B754_nan.
Proof. intros [s|s| |s m e B]; reflexivity. Qed.
Lemma nan_minus_l : forall x : b64, Bminus mode_NE B754_nan x = B754_nan.
Proof. intros [s|s| |s m e B]; reflexivity. Qed.
Lemma nan_plus_l : forall x : b64, Bplus mode_NE B754_nan x = B754_nan.
Proof. intros [s|s| |s m e B]; reflexivity. Qed.

(** The full property would be: a table left out counts as a zero coefficient and does
    not affect the other components.  It holds for the side force ... *)
Theorem C50_side_force_partial : forall (v : Vehicle N) (s : State N) f, aero_force v s = Ret f ->
  exists cy, at_state (ve_side_force_coeff v) s = Ret cy /\
  let y := Bmult mode_NE (Bmult mode_NE (st_dynamic_pressure s) (ve_reference_area v)) cy in
  vy f = if is_nan y then B754_zero false else y.
Proof.
  intros v s f H. unfold aero_force in H.
  apply bind_Ret in H. destruct H as [cd [_ H]].
  apply bind_Ret in H. destruct H as [cl [_ H]].
  apply bind_Ret in H. destruct H as [cy [Hy H]].
  injection H as <-. exists cy. split; [exact Hy|]. reflexivity.
Qed.
Theorem C50_no_side_table_partial : forall (v : Vehicle N) (s : State N) f,
  ve_side_force_coeff v = default_table -> aero_force v s = Ret f -> vy f = B754_zero false.
Proof.
  intros v s f Hv H. destruct (C50_side_force_partial _ _ _ H) as [cy [Hy E]].
  rewrite Hv, empty_table in Hy. injection Hy as <-. rewrite nan_mult_r in E. exact E.
Qed.
(** ... but without a lift table there is no drag, whatever the drag table, and
    without a drag table there is no lift. *)
Theorem C50_drag_lift_refuted : forall (v : Vehicle N) (s : State N) f,
  ve_lift_coeff v = default_table \/ ve_drag_coeff v = default_table ->
  aero_force v s = Ret f -> vx f = B754_zero false /\ vz f = B754_zero false.
Proof.
  intros v s f Hv H. unfold aero_force in H.
  apply bind_Ret in H. destruct H as [cd [Hd H]].
  apply bind_Ret in H. destruct H as [cl [Hl H]].
  apply bind_Ret in H. destruct H as [cy [_ H]].
  assert (K : cl = B754_nan \/ cd = B754_nan).
  { destruct Hv as [Hv|Hv].
    - left. rewrite Hv, empty_table in Hl. congruence.
    - right. rewrite Hv, empty_table in Hd. congruence. }
  injection H as <-. cbn [vx vz vscale n_mul n_sub n_add n_neg B64].
  destruct K as [-> | ->]; rewrite !nan_mult_r, ?nan_minus_r, ?nan_plus_r, ?nan_minus_l, ?nan_plus_l;
    (replace (Bopp (@B754_nan 53 1024)) with (@B754_nan 53 1024) by reflexivity);
    rewrite ?nan_mult_r; split; reflexivity.
Qed.

(** ** C07: at rest on the rotating planet *)
Lemma rest_component : forall c : b64, let v := Bopp (Bminus mode_NE (b64_lit 0 0) c) in
  is_finite v = true -> is_zero (Bminus mode_NE v c).
Proof.
  intros c v. unfold v. rewrite lit_0. clear v. intros Hv.
  rewrite is_finite_Bopp in Hv.
  assert (Fc : is_finite c = true).
  { destruct c as [s|s| |s m e B]; try reflexivity; discriminate. }
  assert (H := Bminus_correct 53 1024 _ _ mode_NE (B754_zero false) c eq_refl Fc).
  assert (Rc : round radix2 fexp64 (round_mode mode_NE) (B2R (B754_zero false : b64) - B2R c) = - B2R c).
  { cbn [B2R]. rewrite Rminus_0_l. apply round_generic; auto with typeclass_instances.
    apply generic_format_opp, generic_format_B2R. }
  rewrite Rc in H. rewrite Rlt_bool_true in H.
  2:{ rewrite Rabs_Ropp. apply abs_B2R_lt_emax. }
  destruct H as [E [F _]].
  assert (G := Bminus_correct 53 1024 _ _ mode_NE (Bopp (Bminus mode_NE (B754_zero false) c)) c).
  rewrite is_finite_Bopp in G. specialize (G F Fc).
  rewrite B2R_Bopp, E in G.
  replace (- - B2R c - B2R c) with 0 in G by ring.
  rewrite round_0 in G; auto with typeclass_instances.
  rewrite Rlt_bool_true in G.
  2:{ rewrite Rabs_R0. apply bpow_gt_0. }
  destruct G as [E2 [F2 _]].
  destruct (finite_zero _ F2 E2) as [s Hs]. exists s. exact Hs.
Qed.

Definition vfinite (v : vec3 b64) : Prop :=
  is_finite (vx v) = true /\ is_finite (vy v) = true /\ is_finite (vz v) = true.
Definition vis_zero (v : vec3 b64) : Prop := is_zero (vx v) /\ is_zero (vy v) /\ is_zero (vz v).

(** In the initial state of the first phase (as long as the launch velocity is finite)
    every component of the velocity relative to the planet is exactly zero. *)
Theorem C07_at_rest_ieee : forall (c : PhaseConfig N) (p : Phase N) (s : State N),
  begins [c] p -> initial p s -> vfinite (st_velocity s) -> vis_zero (st_velocity_planet s).
Proof.
  intros c p s Hb Hi Hf.
  destruct (begins_simulate _ _ Hb [] c eq_refl) as [[_ [p' [Hn ->]]]|(p1 & fuel & h & q & p' & B & _)].
  2:{ inversion B. destruct cs; discriminate. }
  rewrite phase_new_configured in Hn. destruct (pc_init c) as [i|]; [|discriminate].
  injection Hn as <-. unfold initial in Hi. apply system_eom in Hi.
  rewrite (e_velocity_planet _ _ _ Hi), (e_position _ _ _ Hi).
  rewrite (e_velocity _ _ _ Hi) in Hf |- *. clear Hi.
  revert Hf. unfold phase_init, reset.
  cbn [set_ph_state set_ph_stepsize set_ph_steering set_ph_ended set_ph_end_criterion_tries
       set_ph_launch ph_planet ph_state set_time_since_event st_velocity st_position set_velocity
       set_position].
  match goal with |- context [vneg (velocity_planet ?pl ?pos vzero)] => generalize pos; generalize pl end.
  intros pl pos Hf. destruct pos as [x y z]. destruct Hf as [Hx [Hy Hz]].
  unfold velocity_planet, vneg, vsub, vcross, vzero in *. cbn [vx vy vz n_neg n_sub n_mul n_lit B64] in *.
  repeat split; cbn [vx vy vz]; apply rest_component; assumption.
Qed.

(** ** C31: the tolerance *)
Lemma tolerance_value : B2R (b64_lit 1 (-3)) = 1152921504606847 / 1152921504606846976 /\
  is_finite (b64_lit 1 (-3)) = true.
Proof.
  destruct (B2R_lit 1 (-3) false 4611686018427388 (-62)) as [A [B _]]; [vm_compute; reflexivity|].
  split; [|exact B]. rewrite A. unfold F2R. cbn. lra.
Qed.
(** The final state of a finished phase: value and target are finite numbers and
    differ by less than 0.001 (to 17 digits), in real arithmetic. *)
Theorem C31_finished_ieee : forall fuel (p : Phase N) h q, ph_ended p = false ->
  run fuel p = (h, Finished q) ->
  let v := get_value (fst (ph_end_criterion p)) (ph_state q) in
  let tgt := snd (ph_end_criterion p) in
  is_finite (v : b64) = true /\ is_finite (tgt : b64) = true /\
  Rabs (B2R (v : b64) - B2R (tgt : b64)) < 10000000000000001 / 10000000000000000000.
Proof.
  intros fuel p h q He H v tgt. assert (C := C31_finished _ _ _ _ He H).
  destruct (ph_end_criterion p) as [var t]. cbn [fst snd] in v, tgt. destruct C as [_ [_ [M _]]].
  fold v tgt in M. change (Bltb (Babs (Bminus mode_NE v tgt)) (b64_lit 1 (-3)) = true) in M.
  destruct tolerance_value as [Ev Ef].
  revert M Ev Ef. generalize (b64_lit 1 (-3)). intros tol M Ev Ef.
  assert (Fd : is_finite (Bminus mode_NE v tgt) = true).
  { destruct (Bminus mode_NE v tgt) as [s|s| |s m e B]; try reflexivity.
    - exfalso. destruct tol as [s'|s'| |s' m' e' B']; try discriminate.
    - discriminate M. }
  assert (Fv : is_finite (v : b64) = true /\ is_finite (tgt : b64) = true).
  { clear - Fd. revert Fd. generalize v tgt. intros [s|s| |s m e B] [s'|s'| |s' m' e' B'] Fd;
      try discriminate; try (split; reflexivity); cbn in Fd; destruct s; try destruct s'; discriminate. }
  destruct Fv as [Fv Ft]. split; [exact Fv|]. split; [exact Ft|].
  rewrite Bltb_correct in M; [|now rewrite is_finite_Babs|exact Ef].
  destruct (Rlt_bool_spec (B2R (Babs (Bminus mode_NE v tgt))) (B2R tol)) as [L|L]; [|discriminate].
  rewrite B2R_Babs in L.
  assert (G := Bminus_correct 53 1024 _ _ mode_NE v tgt Fv Ft).
  destruct (Rlt_bool_spec (Rabs (round radix2 fexp64 (round_mode mode_NE) (B2R (v:b64) - B2R (tgt:b64)))) (bpow radix2 1024)) as [O|O].
  - destruct G as [E _]. rewrite E in L.
    destruct (Rle_or_lt (B2R tol) (Rabs (B2R (v : b64) - B2R (tgt : b64)))) as [K|K].
    + exfalso. apply (abs_round_ge_generic radix2 fexp64 (round_mode mode_NE)) in K;
        [lra|apply generic_format_B2R].
    + rewrite Ev in K. lra.
  - destruct G as [E _]. destruct (Bminus mode_NE v tgt) as [s|s| |s m e B]; discriminate.
Qed.

(** ** C25: mass never increases *)
(** Engines with non-negative vacuum thrust and positive specific impulse. *)
Definition proper_engine (e : Engine N) : Prop :=
  is_finite (en_thrust_vac e : b64) = true /\ 0 <= B2R (en_thrust_vac e : b64) /\
  is_finite (en_isp_vac e : b64) = true /\ 0 < B2R (en_isp_vac e : b64).
Lemma nneg_of_B2R : forall x : b64, is_finite x = true -> 0 <= B2R x -> nneg x.
Proof.
  intros [s|s| |s m e B] F H; try exact I; [discriminate|]. destruct s; [|reflexivity].
  exfalso. assert (K := F2R_lt_0 radix2 (Float radix2 (Zneg m) e) eq_refl). cbn in *. lra.
Qed.
Lemma npos_div' : forall x y, npos x -> nneg y -> B2R y <> 0 -> npos (Bdiv mode_NE x y).
Proof.
  intros x y Hx Hy NZ. destruct (npos_div x y Hx Hy) as [[s ->]|H]; [|exact H]. now destruct NZ.
Qed.
Lemma std_gravity_nneg : nneg (STD_GRAVITY (N := N)) /\ B2R (STD_GRAVITY (N := N) : b64) <> 0.
Proof.
  assert (H : 0 < B2R (STD_GRAVITY (N := N) : b64) /\ is_finite (STD_GRAVITY (N := N) : b64) = true).
  { unfold STD_GRAVITY. cbn [n_lit B64].
    match goal with |- context [b64_lit ?m ?e] =>
      let r := eval vm_compute in (B2SF (b64_lit m e)) in
      lazymatch r with SpecFloat.S754_finite ?s ?k ?x =>
        destruct (B2R_lit m e s k x) as [A [B _]]; [vm_compute; reflexivity|] end end.
    split; [|exact B]. rewrite A. apply F2R_gt_0. reflexivity. }
  destruct H as [H F]. split; [apply nneg_of_B2R; [exact F|lra]|lra].
Qed.
Lemma engine_massflow_npos : forall e : Engine N, proper_engine e -> npos (engine_massflow e).
Proof.
  intros e [F1 [T [F2 I]]]. unfold engine_massflow. cbn [n_neg n_div B64].
  destruct std_gravity_nneg as [G1 G2].
  apply npos_div'; [|exact G1|exact G2].
  apply npos_div'; [|apply nneg_of_B2R; [exact F2|lra]|lra].
  apply npos_nneg. rewrite Bopp_involutive. exact (nneg_of_B2R _ F1 T).
Qed.
Lemma sum_npos : forall l : list b64, Forall npos l -> npos (sum (N := N) l).
Proof.
  intros l H. unfold sum. cbn [n_lit n_add B64]. rewrite lit_0.
  assert (K : forall l acc, Forall npos l -> npos acc ->
    npos (fold_left (fun a x : b64 => Bplus mode_NE a x) l acc)).
  { clear. intros l. induction l as [|x l IH]; intros acc Hl Ha; [exact Ha|].
    inversion Hl; subst. cbn [fold_left]. apply IH; [assumption|]. now apply npos_plus. }
  apply K; [exact H|exact I].
Qed.
Lemma massflow_npos : forall (v : Vehicle N) t, Forall proper_engine (ve_engines v) -> nneg t ->
  npos (massflow (N := N) v t).
Proof.
  intros v t H Ht. unfold massflow. cbn [n_mul B64]. apply npos_mult; [exact Ht|].
  apply sum_npos. apply Forall_forall. intros x Hx. apply in_map_iff in Hx.
  destruct Hx as [e [<- He]]. apply engine_massflow_npos. rewrite Forall_forall in H. now apply H.
Qed.
Lemma system_massflow_npos : forall (p : Phase N) s0 s, Forall proper_engine (ve_engines (ph_vehicle p)) ->
  system p s0 = Ret s -> npos (st_massflow s).
Proof.
  intros p s0 s H Hs. destruct (C21_states _ _ _ Hs) as [F [L _]].
  apply system_eom in Hs. rewrite (e_massflow _ _ _ Hs). apply massflow_npos; [exact H|].
  now apply nneg_of_B2R.
Qed.
Lemma weight_nneg : nneg (Bdiv mode_NE (b64_lit 1 0) (b64_lit 6 0)) /\
  nneg (Bdiv mode_NE (b64_lit 1 0) (b64_lit 3 0)).
Proof.
  split; apply sign_nneg; right; vm_compute; reflexivity.
Qed.
(** Every attempted step with non-negative step size: the mass is not larger. *)
Theorem C25_mass_ieee : forall (p : Phase N) (s' : State N),
  Forall proper_engine (ve_engines (ph_vehicle p)) ->
  is_finite (ph_stepsize p : b64) = true -> 0 <= B2R (ph_stepsize p : b64) ->
  candidate p = Ret s' ->
  Bltb (st_mass (ph_state p) : b64) (st_mass s' : b64) = false /\
  (is_finite (st_mass (ph_state p) : b64) = true -> is_finite (st_mass s' : b64) = true ->
   B2R (st_mass s' : b64) <= B2R (st_mass (ph_state p) : b64)).
Proof.
  intros p s' HE Fh Hh H.
  assert (Nh := nneg_of_B2R _ Fh Hh).
  destruct (integrator_step_inv _ _ _ _ H) as (d0 & d1 & d2 & d3 & F0 & F1 & F2 & F3 & F).
  apply system_massflow_npos in F0; [|exact HE]. apply system_massflow_npos in F1; [|exact HE].
  apply system_massflow_npos in F2; [|exact HE]. apply system_massflow_npos in F3; [|exact HE].
  apply system_eom in F. assert (E := e_mass _ _ _ F).
  unfold from_vec, rk_sum in E.
  cbn [set_mass set_velocity set_position set_time_since_event set_time st_mass v7_mass v7_add
       map combine fold_left fst snd v7_scale v7_zero to_primary_vec to_differentials_vector
       n_add n_mul n_div n_lit B64] in E.
  destruct weight_nneg as [W6 W3].
  assert (K : Bltb (st_mass (ph_state p) : b64) (st_mass s' : b64) = false).
  { rewrite E, lit_0. clear E F. revert W6 W3.
    generalize (Bdiv mode_NE (b64_lit 1 0) (b64_lit 6 0)). generalize (Bdiv mode_NE (b64_lit 1 0) (b64_lit 3 0)).
    intros w3 w6 W6 W3. apply plus_npos_le.
    repeat apply npos_plus; try (apply npos_mult; [assumption|apply npos_mult; assumption]).
    exact I. }
  split; [exact K|]. intros A B. exact (not_lt_le _ _ A B K).
Qed.
(** ... hence along the records of a phase: every iteration that starts with a
    non-negative step size leaves the mass unchanged or smaller. *)
Theorem C25_step_ieee : forall (p p' : Phase N),
  Forall proper_engine (ve_engines (ph_vehicle p)) ->
  is_finite (ph_stepsize p : b64) = true -> 0 <= B2R (ph_stepsize p : b64) ->
  step p = Ret p' -> Bltb (st_mass (ph_state p) : b64) (st_mass (ph_state p') : b64) = false.
Proof.
  intros p p' HE Fh Hh H. destruct (C32_iteration _ _ H) as [s [Hc [_ C]]].
  destruct (attempt_overshoots p).
  - destruct C as [-> _]. destruct (st_mass (ph_state p)) as [s1|s1| |s1 m e B]; cbn;
      try destruct s1; try reflexivity; cbn; rewrite Z.compare_refl, Pos.compare_cont_refl; reflexivity.
  - destruct C as [-> _]. now apply C25_mass_ieee.
Qed.
End IEEE.
