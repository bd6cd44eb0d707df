(** * The IEEE instance: binary64

    [B64 lm] interprets the model over IEEE-754 binary64 numbers with round to
    nearest, ties to even (Flocq's [BinarySingleNaN], in which all NaNs are
    identified; the code never inspects NaN payloads).  The mathematical library
    (sin, cos, ..., powf, and nalgebra's iterative [Rotation3::from_matrix]) is
    an arbitrary record [lm]: theorems about [B64 lm] hold for every
    implementation of it. *)
From Coq Require Import ZArith.
From Flocq Require Import Core BinarySingleNaN.
From Verif Require Import Num.
Set Implicit Arguments.
Set Contextual Implicit.

Definition b64 : Type := binary_float 53 1024.
Global Instance Hprec64 : FLX.Prec_gt_0 53 := eq_refl.
Global Instance Hmax64 : Prec_lt_emax 53 1024 := eq_refl.

(** The integer [m], correctly rounded. *)
Definition b64_of_Z (m : Z) : b64 := binary_normalize 53 1024 _ _ mode_NE m 0 false.
(** The decimal literal [m * 10^e]: exact operands and one correctly rounded
    operation, hence correctly rounded, when [|m| < 2^53] and [|e| <= 22], which
    all literals of the code satisfy. *)
Definition b64_lit (m e : Z) : b64 :=
  if (e =? 0)%Z then b64_of_Z m
  else if (0 <? e)%Z then Bmult mode_NE (b64_of_Z m) (b64_of_Z (10 ^ e))
  else Bdiv mode_NE (b64_of_Z m) (b64_of_Z (10 ^ (- e))).
(** [std::f64::consts::PI] *)
Definition b64_pi : b64 := binary_normalize 53 1024 _ _ mode_NE 884279719003555 (-48) false.
(** [f64::signum]: NaN for NaN, otherwise 1 with the sign of the operand. *)
Definition b64_signum (x : b64) : b64 :=
  match x with
  | B754_nan => B754_nan
  | _ => if Bsign x then b64_of_Z (-1) else b64_of_Z 1
  end.

Record libm := {
  lm_sin : b64 -> b64; lm_cos : b64 -> b64; lm_tan : b64 -> b64;
  lm_asin : b64 -> b64; lm_acos : b64 -> b64; lm_atan : b64 -> b64;
  lm_exp : b64 -> b64; lm_powf : b64 -> b64 -> b64;
  lm_rot : mat3 b64 -> mat3 b64 }.

Definition B64 (lm : libm) : Num := {|
  carrier := b64;
  n_add := Bplus mode_NE; n_sub := Bminus mode_NE; n_mul := Bmult mode_NE;
  n_div := Bdiv mode_NE; n_neg := Bopp; n_abs := Babs; n_sqrt := Bsqrt mode_NE;
  n_signum := b64_signum; n_ltb := Bltb; n_eqb := Beqb; n_isnan := is_nan;
  n_lit := b64_lit; n_nan := B754_nan; n_inf := B754_infinity false; n_pi := b64_pi;
  n_sin := lm_sin lm; n_cos := lm_cos lm; n_tan := lm_tan lm;
  n_asin := lm_asin lm; n_acos := lm_acos lm; n_atan := lm_atan lm;
  n_exp := lm_exp lm; n_powf := lm_powf lm; n_rot := lm_rot lm |}.
