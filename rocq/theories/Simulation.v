(** * Simulation

    Models /repo/sim/src/lib.rs ([Simulation::run]) and the CLI's use of it
    (/repo/src/main.rs, which only runs the simulation). *)
From Coq Require Import ZArith List.
From Verif Require Import Num State Config Phase.
Import ListNotations.
Set Implicit Arguments.
Set Contextual Implicit.

(** What the program writes to standard output, in order: a header per phase
    (lib.rs:54) and a record per iteration (phase.rs:203-210).  A record event
    carries the state it is printed from; see [Text.show_record] for the text. *)
Inductive event (N : Num) := EPhase (i : nat) | ERecord (s : State N).
Arguments EPhase {N} _.
Arguments ERecord {N} _.

Section WithNum.
Context {N : Num}.

(** lib.rs:53-61, the loop over the phase configurations.  [fuel] bounds the
    iterations of each phase; [i] counts from 1 as printed.  The borrow
    [prev_phase = Some(&phase)] is a value here (Rust guarantees [phase] does not
    change under the borrow). *)
Fixpoint sim_loop (fuel : nat) (i : nat) (prev_phase : option (Phase N)) (phase : Phase N)
    (configs : list (PhaseConfig N)) : list (event N) * status (Phase N) :=
  match configs with
  | [] => ([], Finished phase)
  | config :: rest =>
      match phase_new prev_phase config with
      | Panic e => ([EPhase i], Aborted e)
      | Ret p =>
          let (h, st) := run fuel (reset p) in
          match st with
          | Finished p =>
              let (ev, st) := sim_loop fuel (S i) (Some p) p rest in
              (EPhase i :: map ERecord h ++ ev, st)
          | Aborted e => (EPhase i :: map ERecord h, Aborted e)
          | Running p => (EPhase i :: map ERecord h, Running p)
          end
      end
  end.

(** lib.rs:50-64, [Simulation::run]: returns the last phase (the Rust function
    returns its [state]). *)
Definition simulate (fuel : nat) (configs : list (PhaseConfig N))
    : list (event N) * status (Phase N) :=
  sim_loop fuel 1 None default_phase configs.

End WithNum.
