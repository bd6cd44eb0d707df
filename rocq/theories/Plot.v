(** * The reader of the output

    Models [parse_test_output] of /repo/utils/plot/plot.py:44-87 up to the construction of the data
    frames: the regular expressions and what [re.split] and [re.findall] return. *)
From Coq Require Import NArith List String Ascii Bool.
From Verif Require Import Text.
Import ListNotations.
Set Implicit Arguments.

(** [\d] and [\s]; other Unicode digits and spaces do not occur in the output. *)
Definition is_digit (c : N) : bool := (48 <=? c)%N && (c <=? 57)%N.
Definition is_space (c : N) : bool := (c =? 32)%N || ((9 <=? c)%N && (c <=? 13)%N).
(** The longest prefix whose characters satisfy [f], and what follows: a greedy repetition. *)
Fixpoint span (f : N -> bool) (t : text) : text * text :=
  match t with
  | [] => ([], [])
  | c :: t' => if f c then let (a, b) := span f t' in (c :: a, b) else ([], t)
  end.
(** A literal at the beginning of the text. *)
Fixpoint after (p t : text) : option text :=
  match p, t with
  | [], _ => Some t
  | a :: p', b :: t' => if (a =? b)%N then after p' t' else None
  | _ :: _, [] => None
  end.
(** A matcher returns the captured text and what follows the match. *)
Definition matcher (A : Type) : Type := text -> option (A * text).

(** plot.py:56-57, [Starting Phase (\d+)] and [Time: (\d+)]. *)
Definition m_number (prefix : text) : matcher text := fun t =>
  match after prefix t with
  | Some t1 => let (d, t2) := span is_digit t1 in match d with [] => None | _ => Some (d, t2) end
  | None => None
  end.
Definition m_phase : matcher text := m_number (lit "Starting Phase ").
Definition m_time : matcher text := m_number (lit "Time: ").

(** [\│\s+(-?\d+)] *)
Definition m_bar : matcher text := fun t =>
  match t with
  | [] => None
  | c :: t1 =>
      if (c =? 9474)%N then
        let (w, t2) := span is_space t1 in
        match w with
        | [] => None
        | _ =>
            let (sign, t3) := match t2 with
                              | c :: t3 => if (c =? 45)%N then ([c], t3) else ([], t2)
                              | [] => ([], [])
                              end in
            let (d, t4) := span is_digit t3 in
            match d with [] => None | _ => Some (sign ++ d, t4) end
        end
      else None
  end.
(** [[\S\s]*?] followed by that: the first place where it matches. *)
Fixpoint search (t : text) : option (text * text) :=
  match m_bar t with
  | Some r => Some r
  | None => match t with [] => None | _ :: t' => search t' end
  end.
(** plot.py:58-63: the keyword, then three times the above.  If a later part finds no match, then
    backtracking to a later match of an earlier part finds none either, so none is attempted here. *)
Definition m_vector (keyword : text) : matcher (text * text * text) := fun t =>
  match after keyword t with
  | Some t0 =>
      match search t0 with
      | Some (a, t1) =>
          match search t1 with
          | Some (b, t2) =>
              match search t2 with
              | Some (c, t3) => Some (a, b, c, t3)
              | None => None
              end
          | None => None
          end
      | None => None
      end
  | None => None
  end.
Definition m_position := m_vector (lit "Position:").
Definition m_velocity := m_vector (lit "Velocity:").

(** [re.findall]: from left to right, continuing after each match.  [skip] is the number of
    characters of the last match still to be passed. *)
Fixpoint scan {A : Type} (m : matcher A) (skip : nat) (t : text) : list A :=
  match t with
  | [] => []
  | _ :: t' =>
      match skip with
      | S k => scan m k t'
      | O =>
          match m t with
          | Some (a, rest) => a :: scan m (List.length t' - List.length rest) t'
          | None => scan m 0 t'
          end
      end
  end.
Definition findall {A : Type} (m : matcher A) (t : text) : list A := scan m 0 t.

(** [re.split] with one group, plot.py:66-68: the text before the first match is dropped; each match
    is returned with the text up to the next one. *)
Fixpoint sections {A : Type} (m : matcher A) (skip : nat) (t : text) : text * list (A * text) :=
  match t with
  | [] => ([], [])
  | c :: t' =>
      match skip with
      | S k => sections m k t'
      | O =>
          match m t with
          | Some (a, rest) =>
              let (body, l) := sections m (List.length t' - List.length rest) t' in ([], (a, body) :: l)
          | None => let (body, l) := sections m 0 t' in (c :: body, l)
          end
      end
  end.

(** plot.py:71-86: what is read from the text of each phase. *)
Record reading : Type := {
  rd_phase : text;
  rd_times : list text;
  rd_positions : list (text * text * text);
  rd_velocities : list (text * text * text) }.
Definition parse_output (t : text) : list reading :=
  map (fun s => {| rd_phase := fst s; rd_times := findall m_time (snd s);
                   rd_positions := findall m_position (snd s); rd_velocities := findall m_velocity (snd s) |})
    (snd (sections m_phase 0 t)).
