(** * The exact instance: extended real numbers

    [XR rot] interprets the model over real numbers extended with the two
    infinities and NaN: the code without rounding, overflow and signed zeros.
    Operations outside their domain behave as in IEEE-754 (NaN or infinity) with
    zero counted as positive.  [rot] stands for nalgebra's
    [Rotation3::from_matrix]; theorems about frames assume its contract
    [rot_contract]: it returns a matrix that is a rotation already unchanged. *)
From Coq Require Import ZArith Reals Lra.
From Verif Require Import Num.
Set Implicit Arguments.
Set Contextual Implicit.
Local Open Scope R_scope.

Inductive xr := Fin (r : R) | PInf | NInf | NaN.

(** Decidable comparisons as booleans. *)
Definition Rltb (a b : R) : bool := if Rlt_dec a b then true else false.
Definition Reqb (a b : R) : bool := if Req_EM_T a b then true else false.

(** The infinity (or NaN) with the sign of [s]. *)
Definition inf_sign (s : R) : xr :=
  if Rltb 0 s then PInf else if Rltb s 0 then NInf else NaN.

Definition xadd (a b : xr) : xr :=
  match a, b with
  | NaN, _ | _, NaN => NaN
  | Fin x, Fin y => Fin (x + y)
  | PInf, NInf | NInf, PInf => NaN
  | PInf, _ | _, PInf => PInf
  | NInf, _ | _, NInf => NInf
  end.
Definition xneg (a : xr) : xr :=
  match a with Fin x => Fin (- x) | PInf => NInf | NInf => PInf | NaN => NaN end.
Definition xsub (a b : xr) : xr :=
  match a, b with
  | Fin x, Fin y => Fin (x - y)
  | _, _ => xadd a (xneg b)
  end.
Definition xmul (a b : xr) : xr :=
  match a, b with
  | NaN, _ | _, NaN => NaN
  | Fin x, Fin y => Fin (x * y)
  | PInf, PInf | NInf, NInf => PInf
  | PInf, NInf | NInf, PInf => NInf
  | Fin x, PInf | PInf, Fin x => inf_sign x
  | Fin x, NInf | NInf, Fin x => inf_sign (- x)
  end.
Definition xdiv (a b : xr) : xr :=
  match a, b with
  | NaN, _ | _, NaN => NaN
  | Fin x, Fin y => if Reqb y 0 then inf_sign x else Fin (x / y)
  | Fin _, _ => Fin 0
  | PInf, Fin y => if Rltb y 0 then NInf else PInf
  | NInf, Fin y => if Rltb y 0 then PInf else NInf
  | _, _ => NaN
  end.
Definition xabs (a : xr) : xr :=
  match a with Fin x => Fin (Rabs x) | NaN => NaN | _ => PInf end.
Definition xsqrt (a : xr) : xr :=
  match a with
  | Fin x => if Rltb x 0 then NaN else Fin (sqrt x)
  | PInf => PInf
  | _ => NaN
  end.
Definition xsignum (a : xr) : xr :=
  match a with
  | Fin x => if Rltb x 0 then Fin (-1) else Fin 1
  | PInf => Fin 1 | NInf => Fin (-1) | NaN => NaN
  end.
Definition xltb (a b : xr) : bool :=
  match a, b with
  | NaN, _ | _, NaN => false
  | Fin x, Fin y => Rltb x y
  | NInf, NInf => false
  | NInf, _ => true
  | Fin _, PInf => true
  | _, _ => false
  end.
Definition xeqb (a b : xr) : bool :=
  match a, b with
  | Fin x, Fin y => Reqb x y
  | PInf, PInf | NInf, NInf => true
  | _, _ => false
  end.
Definition xisnan (a : xr) : bool := match a with NaN => true | _ => false end.
(** [m * 10^e] *)
Definition xlit (m e : Z) : xr :=
  if (e =? 0)%Z then Fin (IZR m)
  else if (0 <? e)%Z then Fin (IZR (m * 10 ^ e))
  else Fin (IZR m / IZR (10 ^ (- e))).
(** A real function defined everywhere, NaN at infinity. *)
Definition xfun (f : R -> R) (a : xr) : xr := match a with Fin x => Fin (f x) | _ => NaN end.
Definition xtan (a : xr) : xr :=
  match a with Fin x => if Reqb (cos x) 0 then NaN else Fin (tan x) | _ => NaN end.
(** A real function on [-1, 1]. *)
Definition xfun1 (f : R -> R) (a : xr) : xr :=
  match a with
  | Fin x => if orb (Rltb x (-1)) (Rltb 1 x) then NaN else Fin (f x)
  | _ => NaN
  end.
Definition xatan (a : xr) : xr :=
  match a with
  | Fin x => Fin (atan x) | PInf => Fin (PI / 2) | NInf => Fin (- (PI / 2)) | NaN => NaN
  end.
Definition xexp (a : xr) : xr :=
  match a with Fin x => Fin (exp x) | PInf => PInf | NInf => Fin 0 | NaN => NaN end.
(** [f64::powf]; a simplification: NaN for a negative base or an infinite
    operand (no theorem is about these). *)
Definition xpowf (a b : xr) : xr :=
  match a, b with
  | Fin x, Fin y =>
      if Rltb 0 x then Fin (Rpower x y)
      else if Reqb x 0 then
        if Rltb 0 y then Fin 0 else if Reqb y 0 then Fin 1 else PInf
      else NaN
  | _, _ => NaN
  end.

Definition XR (rot : mat3 xr -> mat3 xr) : Num := {|
  carrier := xr;
  n_add := xadd; n_sub := xsub; n_mul := xmul; n_div := xdiv; n_neg := xneg; n_abs := xabs;
  n_sqrt := xsqrt; n_signum := xsignum; n_ltb := xltb; n_eqb := xeqb; n_isnan := xisnan;
  n_lit := xlit; n_nan := NaN; n_inf := PInf; n_pi := Fin PI;
  n_sin := xfun sin; n_cos := xfun cos; n_tan := xtan;
  n_asin := xfun1 asin; n_acos := xfun1 acos; n_atan := xatan;
  n_exp := xexp; n_powf := xpowf; n_rot := rot |}.

(** Real vectors and matrices, and their embedding. *)
Definition finv (v : vec3 R) : vec3 xr := V3 (Fin (vx v)) (Fin (vy v)) (Fin (vz v)).
Definition finm (m : mat3 R) : mat3 xr := M3 (finv (row0 m)) (finv (row1 m)) (finv (row2 m)).
