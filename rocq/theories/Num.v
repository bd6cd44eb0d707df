(** * Arithmetic interface and linear algebra

    The Rust code computes with [f64] and with small fixed-size nalgebra
    matrices.  The model of the code is written once, over an arbitrary record
    of operations [Num]; it is then instantiated with
    - [B64 lm] (file B64.v): IEEE-754 binary64, round to nearest even, with an
      arbitrary mathematical library [lm] for sin, cos, ...;
    - [XR rot] (file XR.v): exact extended reals (real numbers, the two
      infinities, NaN), i.e. the code without rounding and overflow.
    Theorems stated for an arbitrary [N : Num] hold for both. *)
From Coq Require Import ZArith List.
Import ListNotations.

Set Implicit Arguments.
Set Contextual Implicit.

(** nalgebra [Vector3<f64>]. *)
Record vec3 (T : Type) := V3 { vx : T; vy : T; vz : T }.
Arguments V3 {T} _ _ _.
(** nalgebra [Matrix3<f64>] / [Rotation3<f64>], as three rows. *)
Record mat3 (T : Type) := M3 { row0 : vec3 T; row1 : vec3 T; row2 : vec3 T }.
Arguments M3 {T} _ _ _.

(** The [f64] operations used by the code.  [n_ltb] is Rust's [<], [n_eqb]
    Rust's [==] (both false when an operand is NaN); [n_lit m e] is the decimal
    literal [m * 10^e]; [n_rot] is nalgebra's [Rotation3::from_matrix], an
    external iterative routine (see DESIGN.md, trusted base). *)
Record Num := {
  carrier :> Type;
  n_add : carrier -> carrier -> carrier;
  n_sub : carrier -> carrier -> carrier;
  n_mul : carrier -> carrier -> carrier;
  n_div : carrier -> carrier -> carrier;
  n_neg : carrier -> carrier;
  n_abs : carrier -> carrier;
  n_sqrt : carrier -> carrier;
  n_signum : carrier -> carrier;
  n_ltb : carrier -> carrier -> bool;
  n_eqb : carrier -> carrier -> bool;
  n_isnan : carrier -> bool;
  n_lit : Z -> Z -> carrier;
  n_nan : carrier;
  n_inf : carrier;
  n_pi : carrier;
  n_sin : carrier -> carrier;
  n_cos : carrier -> carrier;
  n_tan : carrier -> carrier;
  n_asin : carrier -> carrier;
  n_acos : carrier -> carrier;
  n_atan : carrier -> carrier;
  n_exp : carrier -> carrier;
  n_powf : carrier -> carrier -> carrier;
  n_rot : mat3 carrier -> mat3 carrier
}.
Arguments n_add {n} _ _.   Arguments n_sub {n} _ _.  Arguments n_mul {n} _ _.
Arguments n_div {n} _ _.   Arguments n_neg {n} _.    Arguments n_abs {n} _.
Arguments n_sqrt {n} _.    Arguments n_signum {n} _. Arguments n_ltb {n} _ _.
Arguments n_eqb {n} _ _.   Arguments n_isnan {n} _.  Arguments n_lit {n} _ _.
Arguments n_nan {n}.       Arguments n_inf {n}.      Arguments n_pi {n}.
Arguments n_sin {n} _.     Arguments n_cos {n} _.    Arguments n_tan {n} _.
Arguments n_asin {n} _.    Arguments n_acos {n} _.   Arguments n_atan {n} _.
Arguments n_exp {n} _.     Arguments n_powf {n} _ _. Arguments n_rot {n} _.

Declare Scope num_scope.
Delimit Scope num_scope with num.
Bind Scope num_scope with carrier.
Notation "x + y" := (n_add x y) : num_scope.
Notation "x - y" := (n_sub x y) : num_scope.
Notation "x * y" := (n_mul x y) : num_scope.
Notation "x / y" := (n_div x y) : num_scope.
Notation "- x" := (n_neg x) : num_scope.
Notation "x <? y" := (n_ltb x y) : num_scope.
Notation "x >? y" := (n_ltb y x) (at level 70, only parsing) : num_scope.
Notation "x =? y" := (n_eqb x y) : num_scope.
(** Integer-valued literals: [#k] is the Rust literal [k.] *)
Notation "# k" := (n_lit k%Z 0%Z) (at level 1, format "# k") : num_scope.

(** A Rust call either returns or panics. *)
Inductive panic :=
| PIndexOutOfBounds      (* slice index out of range *)
| PSubOverflow           (* usize subtraction underflow *)
| PMaxAcceleration       (* phase.rs:116 *)
| PPhaseEnded            (* phase.rs:168 *)
| PNoZeroCrossing        (* phase.rs:182 *)
| PNoInit.               (* phase.rs:286 *)
Inductive outcome (A : Type) := Ret (a : A) | Panic (p : panic).
Arguments Ret {A} _.
Arguments Panic {A} _.
Definition bind {A B} (o : outcome A) (f : A -> outcome B) : outcome B :=
  match o with Ret a => f a | Panic p => Panic p end.
Notation "'let*' x := e 'in' k" := (bind e (fun x => k))
  (at level 200, x pattern, e at level 200, k at level 200, right associativity).

Section Arith.
Context {N : Num}.
Local Open Scope num_scope.

(** [f64::powi] with a non-negative exponent: the square-and-multiply loop of
    compiler-rt's [__powidf2].  (Rust leaves the precision of [powi]
    unspecified; constant exponents 2, 3, 4 are the ones used.) *)
Fixpoint powi_loop (p : positive) (r a : N) : N :=
  match p with
  | xH => r * a
  | xO q => powi_loop q r (a * a)
  | xI q => powi_loop q (r * a) (a * a)
  end.
Definition powi (a : N) (n : nat) : N :=
  match n with O => #1 | S _ => powi_loop (Pos.of_nat n) #1 a end.

(** [f64::clamp] (std): two comparisons; NaN is returned unchanged. *)
Definition clamp (x lo hi : N) : N :=
  let x := if x <? lo then lo else x in
  if x >? hi then hi else x.

(** [f64::to_radians] and [f64::to_degrees] (std). *)
Definition to_radians (x : N) : N := x * (n_pi / #180).
Definition to_degrees (x : N) : N := x * (#180 / n_pi).

(** [Iterator::sum::<f64>()] folds from [0.]. *)
Definition sum (l : list N) : N := fold_left (fun acc x => acc + x) l #0.

(** nalgebra vector operations on [Vector3<f64>]. *)
Definition vzero : vec3 N := V3 #0 #0 #0.
Definition vadd (a b : vec3 N) : vec3 N := V3 (vx a + vx b) (vy a + vy b) (vz a + vz b).
Definition vsub (a b : vec3 N) : vec3 N := V3 (vx a - vx b) (vy a - vy b) (vz a - vz b).
Definition vneg (a : vec3 N) : vec3 N := V3 (- vx a) (- vy a) (- vz a).
(** [scalar * vector] and [vector * scalar] *)
Definition vscale (k : N) (a : vec3 N) : vec3 N := V3 (k * vx a) (k * vy a) (k * vz a).
Definition vscale_r (a : vec3 N) (k : N) : vec3 N := V3 (vx a * k) (vy a * k) (vz a * k).
Definition vdiv (a : vec3 N) (k : N) : vec3 N := V3 (vx a / k) (vy a / k) (vz a / k).
(** [Matrix::dot], the unrolled 3-row case: [a + b + c]. *)
Definition vdot (a b : vec3 N) : N := vx a * vx b + vy a * vy b + vz a * vz b.
(** [Matrix::norm_squared] accumulates the columns into [0.]. *)
Definition norm_squared (a : vec3 N) : N := #0 + vdot a a.
(** [Matrix::norm] *)
Definition norm (a : vec3 N) : N := n_sqrt (norm_squared a).
(** [Matrix::cross] *)
Definition vcross (a b : vec3 N) : vec3 N :=
  V3 (vy a * vz b - vz a * vy b) (vz a * vx b - vx a * vz b) (vx a * vy b - vy a * vx b).
(** [PartialEq] on vectors *)
Definition veqb (a b : vec3 N) : bool :=
  ((vx a =? vx b) && (vy a =? vy b) && (vz a =? vz b))%bool.
(** [Iterator::sum::<Vector3<f64>>()] folds from the zero vector. *)
Definition vsum (l : list (vec3 N)) : vec3 N := fold_left vadd l vzero.
(** [Matrix::angle]: 0 if one norm is zero, else acos of the clamped cosine. *)
Definition vangle (a b : vec3 N) : N :=
  let prod := vdot a b in
  let n1 := norm a in
  let n2 := norm b in
  if ((n1 =? #0) || (n2 =? #0))%bool then #0
  else n_acos (clamp (prod / (n1 * n2)) (- #1) #1).

(** [Matrix * Vector] (also [Rotation3::transform_vector]): columns are
    accumulated from left to right. *)
Definition mulv (m : mat3 N) (v : vec3 N) : vec3 N :=
  V3 (vdot (row0 m) v) (vdot (row1 m) v) (vdot (row2 m) v).
Definition transpose (m : mat3 N) : mat3 N :=
  M3 (V3 (vx (row0 m)) (vx (row1 m)) (vx (row2 m)))
     (V3 (vy (row0 m)) (vy (row1 m)) (vy (row2 m)))
     (V3 (vz (row0 m)) (vz (row1 m)) (vz (row2 m))).
(** [Matrix * Matrix] (also [Rotation3 * Rotation3]) *)
Definition mulm (a b : mat3 N) : mat3 N :=
  let bt := transpose b in
  let r (v : vec3 N) := V3 (vdot v (row0 bt)) (vdot v (row1 bt)) (vdot v (row2 bt)) in
  M3 (r (row0 a)) (r (row1 a)) (r (row2 a)).

End Arith.
