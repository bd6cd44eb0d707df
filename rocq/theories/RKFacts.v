(** * One integration step, unrolled

    The classical Runge-Kutta scheme as it comes out of the generic tableau
    code: four evaluations of the right-hand side, each at an intermediate
    point, and the weighted sum. *)
From Coq Require Import ZArith List.
From Verif Require Import Num State Tables RungeKutta SystemFacts.
Import ListNotations.

Section Generic.
Context {N : Num}.
Local Open Scope num_scope.
Context {X Y : Type}.
Variable x_add_scalar : X -> N -> X.
Variable y_zero : Y.
Variable y_add : Y -> Y -> Y.
Variable y_scale : N -> Y -> Y.
Notation sm := (rk_sum y_zero y_add y_scale).
Notation half := (n_lit 5 (-1)).

Lemma rk4_step_inv : forall f x y h r,
  rk_step x_add_scalar y_zero y_add y_scale RK4 f x y h = Ret r ->
  exists f0 f1 f2 f3,
    let k0 := y_scale h f0 in
    let k1 := y_scale h f1 in
    let k2 := y_scale h f2 in
    let k3 := y_scale h f3 in
    f (x_add_scalar x (#0 * h)) (y_add y (sm [#0; #0; #0; #0] [y_zero; y_zero; y_zero; y_zero])) = Ret f0
    /\ f (x_add_scalar x (half * h)) (y_add y (sm [half; #0; #0; #0] [k0; y_zero; y_zero; y_zero])) = Ret f1
    /\ f (x_add_scalar x (half * h)) (y_add y (sm [#0; half; #0; #0] [k0; k1; y_zero; y_zero])) = Ret f2
    /\ f (x_add_scalar x (#1 * h)) (y_add y (sm [#0; #0; #1; #0] [k0; k1; k2; y_zero])) = Ret f3
    /\ r = (x_add_scalar x h, y_add y (sm [#1 / #6; #1 / #3; #1 / #3; #1 / #6] [k0; k1; k2; k3])).
Proof.
  intros f x y h r H. unfold rk_step, RK4 in H. cbn [length rk_b repeat seq rk_loop] in H.
  apply bind_Ret in H. destruct H as [k [H E]].
  apply bind_Ret in H. destruct H as [l0 [H0 H]].
  apply bind_Ret in H. destruct H as [l1 [H1 H]].
  apply bind_Ret in H. destruct H as [l2 [H2 H]].
  apply bind_Ret in H. destruct H as [l3 [H3 H]].
  unfold rk_stage in H0, H1, H2, H3. cbn [rk_c rk_a index nth_error bind] in H0, H1, H2, H3.
  apply bind_Ret in H0. destruct H0 as [f0 [F0 E0]]. injection E0 as <-.
  apply bind_Ret in H1. destruct H1 as [f1 [F1 E1]]. injection E1 as <-.
  apply bind_Ret in H2. destruct H2 as [f2 [F2 E2]]. injection E2 as <-.
  apply bind_Ret in H3. destruct H3 as [f3 [F3 E3]]. injection E3 as <-.
  injection H as <-. injection E as <-.
  exists f0, f1, f2, f3. cbv zeta.
  repeat split; assumption || reflexivity.
Qed.

Lemma rk4_step_intro : forall f x y h f0 f1 f2 f3,
    let k0 := y_scale h f0 in
    let k1 := y_scale h f1 in
    let k2 := y_scale h f2 in
    let k3 := y_scale h f3 in
    f (x_add_scalar x (#0 * h)) (y_add y (sm [#0; #0; #0; #0] [y_zero; y_zero; y_zero; y_zero])) = Ret f0 ->
    f (x_add_scalar x (half * h)) (y_add y (sm [half; #0; #0; #0] [k0; y_zero; y_zero; y_zero])) = Ret f1 ->
    f (x_add_scalar x (half * h)) (y_add y (sm [#0; half; #0; #0] [k0; k1; y_zero; y_zero])) = Ret f2 ->
    f (x_add_scalar x (#1 * h)) (y_add y (sm [#0; #0; #1; #0] [k0; k1; k2; y_zero])) = Ret f3 ->
    rk_step x_add_scalar y_zero y_add y_scale RK4 f x y h
    = Ret (x_add_scalar x h, y_add y (sm [#1 / #6; #1 / #3; #1 / #3; #1 / #6] [k0; k1; k2; k3])).
Proof.
  cbv zeta. intros f x y h f0 f1 f2 f3 F0 F1 F2 F3. unfold rk_step, RK4.
  cbn [length rk_b repeat seq rk_loop].
  unfold rk_stage. cbn [rk_c rk_a index nth_error bind].
  rewrite F0. cbn [bind set_column firstn skipn app].
  rewrite F1. cbn [bind set_column firstn skipn app].
  rewrite F2. cbn [bind set_column firstn skipn app].
  rewrite F3. cbn [bind set_column firstn skipn app].
  reflexivity.
Qed.
End Generic.

Section Step.
Context {N : Num}.
Local Open Scope num_scope.
Notation sm := (rk_sum v7_zero v7_add v7_scale (N := N)).
Notation half := (n_lit 5 (-1)).

(** One step of the integrator on simulation states. *)
Theorem integrator_step_inv : forall (func : State N -> outcome (State N)) s h s',
  integrator_step func s h = Ret s' ->
  exists d0 d1 d2 d3 : State N,
    let y := to_primary_vec s in
    let t (c : N) := (st_time s + c * h, st_time_since_event s + c * h) in
    let k0 := v7_scale h (to_differentials_vector d0) in
    let k1 := v7_scale h (to_differentials_vector d1) in
    let k2 := v7_scale h (to_differentials_vector d2) in
    let k3 := v7_scale h (to_differentials_vector d3) in
    func (from_vec (t #0) (v7_add y (sm [#0; #0; #0; #0] [v7_zero; v7_zero; v7_zero; v7_zero]))) = Ret d0
    /\ func (from_vec (t half) (v7_add y (sm [half; #0; #0; #0] [k0; v7_zero; v7_zero; v7_zero]))) = Ret d1
    /\ func (from_vec (t half) (v7_add y (sm [#0; half; #0; #0] [k0; k1; v7_zero; v7_zero]))) = Ret d2
    /\ func (from_vec (t #1) (v7_add y (sm [#0; #0; #1; #0] [k0; k1; k2; v7_zero]))) = Ret d3
    /\ func (from_vec (st_time s + h, st_time_since_event s + h)
              (v7_add y (sm [#1 / #6; #1 / #3; #1 / #3; #1 / #6] [k0; k1; k2; k3]))) = Ret s'.
Proof.
  intros func s h s' H. unfold integrator_step in H.
  apply bind_Ret in H. destruct H as [[t y] [H1 H2]].
  apply rk4_step_inv in H1. destruct H1 as (f0 & f1 & f2 & f3 & F0 & F1 & F2 & F3 & E).
  apply bind_Ret in F0. destruct F0 as [d0 [F0 G0]]. injection G0 as <-.
  apply bind_Ret in F1. destruct F1 as [d1 [F1 G1]]. injection G1 as <-.
  apply bind_Ret in F2. destruct F2 as [d2 [F2 G2]]. injection G2 as <-.
  apply bind_Ret in F3. destruct F3 as [d3 [F3 G3]]. injection G3 as <-.
  injection E as -> ->.
  exists d0, d1, d2, d3. cbv zeta. unfold t_add_scalar in *. cbn [fst snd] in *.
  split; [exact F0|]. split; [exact F1|]. split; [exact F2|]. split; [exact F3|]. exact H2.
Qed.

Theorem integrator_step_intro : forall (func : State N -> outcome (State N)) s h d0 d1 d2 d3,
    let y := to_primary_vec s in
    let t (c : N) := (st_time s + c * h, st_time_since_event s + c * h) in
    let k0 := v7_scale h (to_differentials_vector d0) in
    let k1 := v7_scale h (to_differentials_vector d1) in
    let k2 := v7_scale h (to_differentials_vector d2) in
    let k3 := v7_scale h (to_differentials_vector d3) in
    func (from_vec (t #0) (v7_add y (sm [#0; #0; #0; #0] [v7_zero; v7_zero; v7_zero; v7_zero]))) = Ret d0 ->
    func (from_vec (t half) (v7_add y (sm [half; #0; #0; #0] [k0; v7_zero; v7_zero; v7_zero]))) = Ret d1 ->
    func (from_vec (t half) (v7_add y (sm [#0; half; #0; #0] [k0; k1; v7_zero; v7_zero]))) = Ret d2 ->
    func (from_vec (t #1) (v7_add y (sm [#0; #0; #1; #0] [k0; k1; k2; v7_zero]))) = Ret d3 ->
    integrator_step func s h
    = func (from_vec (st_time s + h, st_time_since_event s + h)
              (v7_add y (sm [#1 / #6; #1 / #3; #1 / #3; #1 / #6] [k0; k1; k2; k3]))).
Proof.
  cbv zeta. intros func s h d0 d1 d2 d3 F0 F1 F2 F3. unfold integrator_step.
  erewrite rk4_step_intro with (f0 := to_differentials_vector d0) (f1 := to_differentials_vector d1)
    (f2 := to_differentials_vector d2) (f3 := to_differentials_vector d3).
  - reflexivity.
  - unfold t_add_scalar. cbn [fst snd]. rewrite F0. reflexivity.
  - unfold t_add_scalar. cbn [fst snd]. rewrite F1. reflexivity.
  - unfold t_add_scalar. cbn [fst snd]. rewrite F2. reflexivity.
  - unfold t_add_scalar. cbn [fst snd]. rewrite F3. reflexivity.
Qed.
End Step.
