(** * Integration

    Models /repo/sim/src/integration/runge_kutta.rs (generic in the tableau and
    in the dimensions) and /repo/sim/src/integration/mod.rs. *)
From Coq Require Import ZArith List.
From Verif Require Import Num State Tables.
Import ListNotations.
Set Implicit Arguments.
Set Contextual Implicit.

(** runge_kutta.rs:15-19, [struct RungeKutta<R>]: the Butcher tableau, [a] as a
    list of rows. *)
Record RungeKutta (N : Num) := mkRK {
  rk_a : list (list N);
  rk_b : list N;
  rk_c : list N }.

Section Generic.
Context {N : Num}.
Local Open Scope num_scope.
(** [SVector<f64, D_X>] with [add_scalar]; [SVector<f64, D_Y>] with its vector
    operations. *)
Context {X Y : Type}.
Variable x_add_scalar : X -> N -> X.
Variable y_zero : Y.
Variable y_add : Y -> Y -> Y.
Variable y_scale : N -> Y -> Y.

(** [(0..R).map(|j| coef[j] * k.column(j)).sum()]: folds from zero over all
    columns (the ones not computed yet are zero). *)
Definition rk_sum (coef : list N) (k : list Y) : Y :=
  fold_left y_add (map (fun p => y_scale (fst p) (snd p)) (combine coef k)) y_zero.

(** [k.set_column(i, &ki)] *)
Definition set_column (k : list Y) (i : nat) (ki : Y) : list Y :=
  firstn i k ++ ki :: skipn (S i) k.

(** runge_kutta.rs:38-47, one iteration of the loop over the stages. *)
Definition rk_stage (self : RungeKutta N) (f : X -> Y -> outcome Y) (x_n : X) (y_n : Y)
    (h : N) (k : list Y) (i : nat) : outcome (list Y) :=
  let* ci := index (rk_c self) i in
  let* ai := index (rk_a self) i in
  let* fi := f (x_add_scalar x_n (ci * h)) (y_add y_n (rk_sum ai k)) in
  Ret (set_column k i (y_scale h fi)).

Fixpoint rk_loop (self : RungeKutta N) (f : X -> Y -> outcome Y) (x_n : X) (y_n : Y)
    (h : N) (k : list Y) (is : list nat) : outcome (list Y) :=
  match is with
  | [] => Ret k
  | i :: r =>
      let* k := rk_stage self f x_n y_n h k i in
      rk_loop self f x_n y_n h k r
  end.

(** runge_kutta.rs:29-57, [RungeKutta::step]; R is the number of rows. *)
Definition rk_step (self : RungeKutta N) (f : X -> Y -> outcome Y) (x_n : X) (y_n : Y)
    (h : N) : outcome (X * Y) :=
  let R := length (rk_b self) in
  let* k := rk_loop self f x_n y_n h (repeat y_zero R) (seq 0 R) in
  Ret (x_add_scalar x_n h, y_add y_n (rk_sum (rk_b self) k)).

End Generic.

Section WithNum.
Context {N : Num}.
Local Open Scope num_scope.

(** runge_kutta.rs:61-67, [RK4]. *)
Definition RK4 : RungeKutta N := {|
  rk_a := [[#0; #0; #0; #0]; [n_lit 5 (-1); #0; #0; #0];
           [#0; n_lit 5 (-1); #0; #0];
           [#0; #0; #1; #0]];
  rk_b := [#1 / #6; #1 / #3; #1 / #3; #1 / #6];
  rk_c := [#0; n_lit 5 (-1); n_lit 5 (-1); #1] |}.

(** [Vector2::add_scalar] on the pair (time, time_since_event). *)
Definition t_add_scalar (t : N * N) (k : N) : N * N := (fst t + k, snd t + k).

(** integration/mod.rs:32-57, [Integrator::step] (the only integrator is RK4). *)
Definition integrator_step (func : State N -> outcome (State N)) (state : State N)
    (stepsize : N) : outcome (State N) :=
  let converted_func (t : N * N) (s : vec7 N) :=
    let* st := func (from_vec t s) in Ret (to_differentials_vector st) in
  let* r := rk_step t_add_scalar v7_zero v7_add v7_scale RK4 converted_func
              (st_time state, st_time_since_event state) (to_primary_vec state) stepsize in
  let (time_vec, state_vec) := r : (N * N) * vec7 N in
  func (from_vec time_vec state_vec).

End WithNum.
