(** * Constants

    Models /repo/sim/src/utils/constants.rs (the constants not under
    [#[cfg(test)]]).  Rust evaluates [const] arithmetic in [f64] with the
    same rounding as at run time. *)
From Coq Require Import ZArith.
From Verif Require Import Num.
Set Implicit Arguments.
Set Contextual Implicit.

Section WithNum.
Context {N : Num}.
Local Open Scope num_scope.

(** constants.rs:8 *)
Definition NEARLY_ZERO : N := n_lit 1 (-6).
(** constants.rs:11 *)
Definition METER_PER_FOOT : N := n_lit 3048 (-4).
(** constants.rs:12 *)
Definition SQUARE_METER_PER_SQUARE_FOOT : N := METER_PER_FOOT * METER_PER_FOOT.
(** constants.rs:13 *)
Definition CUBIC_METER_PER_CUBIC_FOOT : N :=
  METER_PER_FOOT * METER_PER_FOOT * METER_PER_FOOT.
(** constants.rs:14 *)
Definition KELVIN_PER_RANKIN : N := #1 / n_lit 18 (-1).
(** constants.rs:15 *)
Definition KILOGRAM_PER_POUND : N := n_lit 4535924 (-7).
(** constants.rs:24 *)
Definition STD_GRAVITY : N := n_lit 980665 (-5).
(** constants.rs:16 *)
Definition PASCAL_PER_PSF : N :=
  KILOGRAM_PER_POUND * STD_GRAVITY / SQUARE_METER_PER_SQUARE_FOOT.
(** constants.rs:25 *)
Definition AIR_MOLECULAR_WEIGHT : N := n_lit 289644 (-4).
(** constants.rs:26 *)
Definition GAS_CONSTANT : N := n_lit 831432 (-2).
(** constants.rs:27 *)
Definition AIR_KAPPA : N := n_lit 14 (-1).
(** constants.rs:28 *)
Definition AIR_GAS_CONSTANT : N := GAS_CONSTANT / AIR_MOLECULAR_WEIGHT.

End WithNum.
