(** * Decoding of configuration files

    Models the [Deserialize] implementations of the configuration types: the
    code that [#[derive(Deserialize)]] generates for /repo/sim/src/config.rs,
    /repo/sim/src/vehicle.rs:201-213, /repo/sim/src/state.rs:112-231,
    /repo/sim/src/utils/tables/mod.rs and
    /repo/sim/src/utils/tables/deserialization.rs, run by serde_json on a parsed
    document.  The text parser of serde_json is not modelled: documents are
    abstract syntax trees in which objects keep the order and the multiplicity
    of their keys, and numbers are already [f64].  Error messages are not
    modelled ([None] = some error). *)
From Coq Require Import ZArith List String Bool.
From Verif Require Import Num State Tables Config.
Import ListNotations.
Set Implicit Arguments.
Set Contextual Implicit.

(** A JSON document. *)
Inductive json (N : Num) :=
| JNull
| JBool (b : bool)
| JNum (x : N)
| JStr (s : string)
| JArr (l : list (json N))
| JObj (l : list (string * json N)).
Arguments JNull {N}.
Arguments JBool {N} _.
Arguments JNum {N} _.
Arguments JStr {N} _.
Arguments JArr {N} _.
Arguments JObj {N} _.

Definition opt_bind {A B} (o : option A) (f : A -> option B) : option B :=
  match o with Some a => f a | None => None end.
Notation "'do' x <- e ; k" := (opt_bind e (fun x => k))
  (at level 200, x pattern, e at level 100, k at level 200, right associativity).

Fixpoint mapM {A B} (f : A -> option B) (l : list A) : option (list B) :=
  match l with
  | [] => Some []
  | a :: r => do b <- f a; do br <- mapM f r; Some (b :: br)
  end.

Section WithNum.
Context {N : Num}.
Notation json := (json N).

(** ** Primitive decoders (serde's impls for std types) *)

(** [f64] *)
Definition d_f64 (j : json) : option N :=
  match j with JNum x => Some x | _ => None end.
(** [bool] *)
Definition d_bool (j : json) : option bool :=
  match j with JBool b => Some b | _ => None end.
(** [Vec<T>], [Box<[T]>] *)
Definition d_list {A} (d : json -> option A) (j : json) : option (list A) :=
  match j with JArr l => mapM d l | _ => None end.
(** [(A, B)] *)
Definition d_pair {A B} (da : json -> option A) (db : json -> option B) (j : json)
    : option (A * B) :=
  match j with
  | JArr [x; y] => do a <- da x; do b <- db y; Some (a, b)
  | _ => None
  end.
(** [[f64; 2]] *)
Definition d_arr2 (j : json) : option (N * N) := d_pair d_f64 d_f64 j.
(** [[f64; 3]], and nalgebra's [Vector3<f64>] (a sequence of exactly 3). *)
Definition d_arr3 (j : json) : option (vec3 N) :=
  match j with
  | JArr [x; y; z] => do a <- d_f64 x; do b <- d_f64 y; do c <- d_f64 z; Some (V3 a b c)
  | _ => None
  end.
(** [[f64; 4]] *)
Definition d_arr4 (j : json) : option (N * N * N * N) :=
  match j with
  | JArr [x; y; z; w] =>
      do a <- d_f64 x; do b <- d_f64 y; do c <- d_f64 z; do d <- d_f64 w; Some (a, b, c, d)
  | _ => None
  end.
(** [Option<T>] *)
Definition d_option {A} (d : json -> option A) (j : json) : option (option A) :=
  match j with JNull => Some None | _ => option_map Some (d j) end.
(** An enum whose variants are all unit variants: the name, or an object with
    the single key [name] and value null. *)
Definition d_unit_enum {A} (of_name : string -> option A) (j : json) : option A :=
  match j with
  | JStr s => of_name s
  | JObj [(s, JNull)] => of_name s
  | _ => None
  end.

(** ** Derived struct decoders ([deny_unknown_fields])

    [fields_of names j] are the values of the fields [names] in this order:
    from an object, every key must be one of [names] and occur once; an absent
    field is [None].  From an array, elements are assigned positionally, and an
    absent trailing field is [None].  The boolean tells which form was used: an
    absent [Option] field is allowed only in an object. *)
Fixpoint lookup (k : string) (l : list (string * json)) : option json :=
  match l with
  | [] => None
  | (k', v) :: r => if String.eqb k k' then Some v else lookup k r
  end.
Definition mem (k : string) (l : list string) : bool := existsb (String.eqb k) l.
Fixpoint no_dup (l : list string) : bool :=
  match l with [] => true | k :: r => negb (mem k r) && no_dup r end.
Definition fields_of (names : list string) (j : json) : option (bool * list (option json)) :=
  match j with
  | JObj l =>
      let keys := map fst l in
      if forallb (fun k => mem k names) keys && no_dup keys
      then Some (true, map (fun n => lookup n l) names)
      else None
  | JArr l =>
      if Nat.leb (List.length l) (List.length names)
      then Some (false, map Some l ++ repeat None (List.length names - List.length l))
      else None
  | _ => None
  end.

(** A required field. *)
Definition req {A} (d : json -> option A) (v : option json) : option A :=
  match v with Some j => d j | None => None end.
(** An [Option] field: absent means [None] (in an object). *)
Definition opt {A} (is_object : bool) (d : json -> option A) (v : option json)
    : option (option A) :=
  match v with
  | Some j => d_option d j
  | None => if is_object then Some None else None
  end.
(** A field with [#[serde(default)]]. *)
Definition dflt {A} (default : A) (d : json -> option A) (v : option json) : option A :=
  match v with Some j => d j | None => Some default end.

(** state.rs:116-231, [StateVariable]. *)
Definition d_variable : json -> option StateVariable := d_unit_enum variable_of_name.

(** tables/mod.rs:116-122, [Interpolator]. *)
Definition d_interpolator : json -> option Interpolator :=
  d_unit_enum (fun s => if String.eqb s (snake_case "Linear") then Some Linear else None).

Definition result_ok {A E} (r : result A E) : option A :=
  match r with Ok a => Some a | Err _ => None end.

Definition d_axis : json -> option (StateVariable * list N) := d_pair d_variable (d_list d_f64).

(** tables/deserialization.rs:19-34, [Table1DUnchecked] and [TryFrom]. *)
Definition d_table1 (j : json) : option (Table1D N) :=
  do (o, fs) <- fields_of ["x"; "data"; "interpolator"]%string j;
  match fs with
  | [x; data; i] =>
      do x <- req d_axis x; do data <- req (d_list d_f64) data;
      do i <- dflt Linear d_interpolator i;
      result_ok (t1_try_new x data i)
  | _ => None
  end.
(** tables/deserialization.rs:36-57, [Table2DUnchecked] and [TryFrom]. *)
Definition d_table2 (j : json) : option (Table2D N) :=
  do (o, fs) <- fields_of ["x"; "y"; "data"; "interpolator"]%string j;
  match fs with
  | [x; y; data; i] =>
      do x <- req d_axis x; do y <- req d_axis y;
      do data <- req (d_list (d_list d_f64)) data;
      do i <- dflt Linear d_interpolator i;
      result_ok (t2_try_new x y data i)
  | _ => None
  end.
(** tables/deserialization.rs:59-83, [Table3DUnchecked] and [TryFrom]. *)
Definition d_table3 (j : json) : option (Table3D N) :=
  do (o, fs) <- fields_of ["x"; "y"; "z"; "data"; "interpolator"]%string j;
  match fs with
  | [x; y; z; data; i] =>
      do x <- req d_axis x; do y <- req d_axis y; do z <- req d_axis z;
      do data <- req (d_list (d_list (d_list d_f64))) data;
      do i <- dflt Linear d_interpolator i;
      result_ok (t3_try_new x y z data i)
  | _ => None
  end.
(** tables/mod.rs:20-29, [#[serde(untagged)] enum Table]: the first variant that
    decodes. *)
Definition d_table (j : json) : option (Table N) :=
  match d_table1 j with
  | Some t => Some (D1 t)
  | None =>
      match d_table2 j with
      | Some t => Some (D2 t)
      | None => option_map D3 (d_table3 j)
      end
  end.

(** vehicle.rs:201-213, [Engine]. *)
Definition d_engine (j : json) : option (Engine N) :=
  do (o, fs) <- fields_of ["incidence"; "thrust_vac"; "isp_vac"; "exit_area"]%string j;
  match fs with
  | [a; b; c; d] =>
      do a <- req d_arr2 a; do b <- req d_f64 b; do c <- req d_f64 c; do d <- req d_f64 d;
      Some (mkEngine a b c d)
  | _ => None
  end.

(** config.rs:34-39, the struct variant [PlanetConfig::Custom]. *)
Definition d_custom (j : json) : option (PlanetConfig N) :=
  do (o, fs) <- fields_of ["equatorial_radius"; "polar_radius"; "gravitational_parameters";
                           "rotation_rate"]%string j;
  match fs with
  | [a; b; c; d] =>
      do a <- req d_f64 a; do b <- req d_f64 b; do c <- req d_arr4 c; do d <- req d_f64 d;
      Some (Custom a b c d)
  | _ => None
  end.
(** The unit variants of [PlanetConfig]. *)
Definition planet_of_name (s : string) : option (PlanetConfig N) :=
  if String.eqb s (snake_case "Spherical") then Some Spherical
  else if String.eqb s (snake_case "Fisher1960") then Some Fisher1960
  else if String.eqb s (snake_case "Smithsonian") then Some Smithsonian
  else None.
(** config.rs:18-40, [PlanetConfig]. *)
Definition d_planet (j : json) : option (PlanetConfig N) :=
  match j with
  | JStr s => planet_of_name s
  | JObj [(s, v)] =>
      if String.eqb s (snake_case "Custom") then d_custom v
      else match v with JNull => planet_of_name s | _ => None end
  | _ => None
  end.

(** config.rs:45-52, [AtmosphereConfig]. *)
Definition d_atmosphere (j : json) : option (AtmosphereConfig N) :=
  do (o, fs) <- fields_of ["enabled"; "wind"]%string j;
  match fs with
  | [a; b] =>
      do a <- opt o d_bool a; do b <- opt o d_arr3 b; Some (mkAtmosphereConfig a b)
  | _ => None
  end.

(** config.rs:57-69, [InitConfig]. *)
Definition d_init (j : json) : option (InitConfig N) :=
  do (o, fs) <- fields_of ["latitude"; "longitude"; "azimuth"; "altitude"]%string j;
  match fs with
  | [a; b; c; d] =>
      do a <- req d_f64 a; do b <- req d_f64 b; do c <- req d_f64 c; do d <- req d_f64 d;
      Some (mkInitConfig a b c d)
  | _ => None
  end.

(** config.rs:74-93, [VehicleConfig]. *)
Definition d_vehicle (j : json) : option (VehicleConfig N) :=
  do (o, fs) <- fields_of ["structure_mass"; "propellant_mass"; "reference_area"; "drag_coeff";
                           "lift_coeff"; "side_force_coeff"; "engines"]%string j;
  match fs with
  | [a; b; c; d; e; f; g] =>
      do a <- opt o d_f64 a; do b <- opt o d_f64 b; do c <- opt o d_f64 c;
      do d <- opt o d_table d; do e <- opt o d_table e; do f <- opt o d_table f;
      do g <- opt o (d_list d_engine) g;
      Some (mkVehicleConfig a b c d e f g)
  | _ => None
  end.

(** config.rs:103-112, [SteeringConfig]. *)
Definition d_steering (j : json) : option (SteeringConfig N) :=
  do (o, fs) <- fields_of ["roll"; "yaw"; "pitch"]%string j;
  match fs with
  | [a; b; c] =>
      do a <- opt o (d_pair d_variable d_arr3) a; do b <- opt o (d_pair d_variable d_arr3) b;
      do c <- opt o (d_pair d_variable d_arr3) c;
      Some (mkSteeringConfig a b c)
  | _ => None
  end.

(** config.rs:117-136, [PhaseConfig]. *)
Definition d_phase (j : json) : option (PhaseConfig N) :=
  do (o, fs) <- fields_of ["init"; "vehicle"; "steering"; "planet_model"; "atmosphere";
                           "max_acceleration"; "stepsize"; "end_criterion"]%string j;
  match fs with
  | [a; b; c; d; e; f; g; h] =>
      do a <- opt o d_init a; do b <- opt o d_vehicle b; do c <- opt o d_steering c;
      do d <- opt o d_planet d; do e <- opt o d_atmosphere e; do f <- opt o d_f64 f;
      do g <- opt o d_f64 g; do h <- opt o (d_pair d_variable d_f64) h;
      Some (mkPhaseConfig a b c d e f g h)
  | _ => None
  end.

(** lib.rs:38-45, [Simulation::from_file] (the document itself is the
    [Vec<PhaseConfig>]). *)
Definition d_simulation : json -> option (list (PhaseConfig N)) := d_list d_phase.

End WithNum.
