(** * The text written to standard output

    Models the formatting of the two [println!] of the program: /repo/sim/src/lib.rs:54 and
    /repo/sim/src/phase.rs:203-210, including nalgebra's [Display] of a vector.  A text is a list
    of Unicode code points. *)
From Coq Require Import NArith ZArith List String Ascii.
From Flocq Require Import Core BinarySingleNaN.
From Verif Require Import Num State Phase Simulation B64.
Import ListNotations.
Set Implicit Arguments.

Definition text : Type := list N.
(** An ASCII string literal of the source code. *)
Definition lit (s : string) : text := map N_of_ascii (list_ascii_of_string s).
Definition newline : text := [10%N].
Definition spaces (k : nat) : text := repeat 32%N k.

(** The decimal digits of a natural number (Rust's [Display] of integers, and of the integral part
    of floats). *)
Fixpoint digits (fuel : nat) (n : N) : text :=
  match fuel with
  | O => []
  | S fuel => if (n <? 10)%N then [n + 48]%N else digits fuel (n / 10) ++ [n mod 10 + 48]%N
  end.
Definition decimal (n : N) : text := digits (S (N.size_nat n)) n.

(** [format!("{:.0}", x)] for an f64: "NaN", "inf", "-inf", or the absolute value rounded to an
    integer, with a minus sign if the sign bit is set (also for negative zero).  [rnd] rounds the
    absolute value to the nearest integer; how it breaks ties is left open (it changed between
    versions of Rust). *)
Definition show_f64 (rnd : b64 -> N) (x : b64) : text :=
  match x with
  | B754_nan => lit "NaN"
  | B754_infinity s => (if s then lit "-" else []) ++ lit "inf"
  | _ => (if Bsign x then lit "-" else []) ++ decimal (rnd x)
  end.

Section WithNum.
Context {N0 : Num}.
(** How a number is formatted. *)
Variable show : N0 -> text.

(** nalgebra 0.32, src/base/matrix.rs, [impl_fmt!]: [Display] of a 3-vector with precision 0.  An empty
    line, a box with one number per line, right-aligned to the longest one, and an empty line. *)
Definition show_row (w : nat) (n : text) : text :=
  lit "  " ++ [9474%N] ++ lit " " ++ spaces (w - List.length n) ++ n ++ lit " " ++ [9474%N] ++ newline.
Definition show_box (a b c : text) : text :=
  let w := Nat.max (Nat.max (List.length a) (List.length b)) (List.length c) in
  newline ++
  lit "  " ++ [9484%N] ++ lit " " ++ spaces w ++ lit " " ++ [9488%N] ++ newline ++
  show_row w a ++ show_row w b ++ show_row w c ++
  lit "  " ++ [9492%N] ++ lit " " ++ spaces w ++ lit " " ++ [9496%N] ++ newline ++
  newline.
Definition show_vec (v : vec3 N0) : text := show_box (show (vx v)) (show (vy v)) (show (vz v)).

(** phase.rs:203-210. *)
Definition show_record (s : State N0) : text :=
  lit "Time: " ++ show (st_time s) ++ newline ++
  lit "Position: " ++ show_vec (st_position_planet s) ++ newline ++
  lit "Velocity: " ++ show_vec (st_velocity s) ++ newline ++
  lit "Altitude: " ++ show (st_altitude s) ++ newline ++
  lit "Prop mass: " ++ show (st_propellant_mass s) ++ newline ++ newline.
(** lib.rs:54. *)
Definition show_event (e : event N0) : text :=
  match e with
  | EPhase i => lit "Starting Phase " ++ decimal (N.of_nat i) ++ newline
  | ERecord s => show_record s
  end.
(** Everything the program writes. *)
Definition output (ev : list (event N0)) : text := flat_map show_event ev.
End WithNum.
