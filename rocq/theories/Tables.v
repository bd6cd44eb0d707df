(** * Tables and linear interpolation

    Models /repo/sim/src/utils/tables/mod.rs and
    /repo/sim/src/utils/tables/linear_interpolation.rs. *)
From Coq Require Import ZArith List Arith.
From Verif Require Import Num State.
Import ListNotations.
Set Implicit Arguments.
Set Contextual Implicit.

(** tables/mod.rs:118-122, [enum Interpolator]. *)
Inductive Interpolator := Linear.

(** tables/mod.rs:195-202, [enum TableInitError]. *)
Inductive TableInitError := NotSortedError | InvalidLengthError.

(** Rust [Result]. *)
Inductive result (A E : Type) := Ok (a : A) | Err (e : E).
Arguments Ok {A E} _.
Arguments Err {A E} _.
Definition result_bind {A B E} (r : result A E) (f : A -> result B E) : result B E :=
  match r with Ok a => f a | Err e => Err e end.

(** Slice indexing [a[i]]: panics when out of range. *)
Definition index {A} (l : list A) (i : nat) : outcome A :=
  match nth_error l i with Some a => Ret a | None => Panic PIndexOutOfBounds end.
(** [usize] subtraction: panics on underflow (debug profile; in the release
    profile it wraps and the following slice access panics instead). *)
Definition usize_sub (a b : nat) : outcome nat :=
  if b <=? a then Ret (a - b) else Panic PSubOverflow.

(** tables/mod.rs:57-64, [struct Table1D]. *)
Record Table1D (N : Num) := mkT1 {
  t1_x : StateVariable * list N;
  t1_data : list N;
  t1_interp : Interpolator }.
(** tables/mod.rs:74-85, [struct Table2D]. *)
Record Table2D (N : Num) := mkT2 {
  t2_x : StateVariable * list N;
  t2_y : StateVariable * list N;
  t2_data : list (list N);
  t2_interp : Interpolator }.
(** tables/mod.rs:95-110, [struct Table3D]. *)
Record Table3D (N : Num) := mkT3 {
  t3_x : StateVariable * list N;
  t3_y : StateVariable * list N;
  t3_z : StateVariable * list N;
  t3_data : list (list (list N));
  t3_interp : Interpolator }.
(** tables/mod.rs:22-29, [enum Table]. *)
Inductive Table (N : Num) :=
| D1 (t : Table1D N)
| D2 (t : Table2D N)
| D3 (t : Table3D N).
Arguments D1 {N} _.
Arguments D2 {N} _.
Arguments D3 {N} _.

Section WithNum.
Context {N : Num}.
Local Open Scope num_scope.

(** tables/mod.rs:31-36 and :55; [StateVariable]'s default is [Time]
    (state.rs:118-119). *)
Definition default_table : Table N := D1 (mkT1 (Time, []) [] Linear).

(** std [slice::partition_point(|i| i < &val)], i.e. [binary_search_by] with the
    comparator [Less]/[Greater]: a binary search on [[left, right)].  [fuel]
    only makes the loop structurally recursive: the loop halves the range, so
    [length l] iterations suffice (proved in TablesFacts.v, where the result is
    characterised).  The unchecked access in std is in bounds whenever
    [left <= right <= length], which is an invariant. *)
Fixpoint partition_loop (fuel left right : nat) (l : list N) (val : N) : nat :=
  match fuel with
  | O => left
  | S fuel =>
      if (left <? right)%nat then
        let mid := (left + (right - left) / 2)%nat in
        match nth_error l mid with
        | Some a =>
            if n_ltb a val then partition_loop fuel (S mid) right l val
            else partition_loop fuel left mid l val
        | None => left
        end
      else left
  end.
Definition partition_point (l : list N) (val : N) : nat :=
  partition_loop (length l) 0 (length l) l val.

(** linear_interpolation.rs:14-29, [get_idx]. *)
Definition get_idx (val_arr : list N) (val : N) : outcome (nat * nat) :=
  let idx1 := partition_point val_arr val in
  let* idx1 :=
    if Nat.eqb idx1 (length val_arr) then usize_sub idx1 1
    else if Nat.eqb idx1 0 then Ret 1%nat
    else Ret idx1 in
  let* idx0 := usize_sub idx1 1 in
  Ret (idx0, idx1).

(** linear_interpolation.rs:119-141, [linear_interpolate]. *)
Definition linear_interpolate (x_arr : list N) (x : N) (data : list N) : outcome N :=
  if Nat.eqb (length data) 0 then Ret n_nan
  else if Nat.eqb (length data) 1 then index data 0
  else
    let* p := get_idx x_arr x in
    let (idx0, idx1) := p : nat * nat in
    let* x0 := index x_arr idx0 in
    let* x1 := index x_arr idx1 in
    let* y0 := index data idx0 in
    let* y1 := index data idx1 in
    Ret (y0 + (x - x0) * (y1 - y0) / (x1 - x0)).

(** linear_interpolation.rs:83-111, [bilinear_interpolate]. *)
Definition bilinear_interpolate (x_arr : list N) (x : N) (y_arr : list N) (y : N)
    (data : list (list N)) : outcome N :=
  if Nat.eqb (length data) 0 then Ret n_nan
  else if Nat.eqb (length data) 1 then
    let* d := index data 0 in linear_interpolate y_arr y d
  else
    let* p := get_idx x_arr x in
    let (idx0, idx1) := p : nat * nat in
    let* x0 := index x_arr idx0 in
    let* x1 := index x_arr idx1 in
    let* d0 := index data idx0 in
    let* y0 := linear_interpolate y_arr y d0 in
    let* d1 := index data idx1 in
    let* y1 := linear_interpolate y_arr y d1 in
    Ret (y0 + (x - x0) * (y1 - y0) / (x1 - x0)).

(** linear_interpolation.rs:41-71, [trilinear_interpolate]. *)
Definition trilinear_interpolate (x_arr : list N) (x : N) (y_arr : list N) (y : N)
    (z_arr : list N) (z : N) (data : list (list (list N))) : outcome N :=
  if Nat.eqb (length data) 0 then Ret n_nan
  else if Nat.eqb (length data) 1 then
    let* d := index data 0 in bilinear_interpolate y_arr y z_arr z d
  else
    let* p := get_idx x_arr x in
    let (idx0, idx1) := p : nat * nat in
    let* x0 := index x_arr idx0 in
    let* x1 := index x_arr idx1 in
    let* d0 := index data idx0 in
    let* y0 := bilinear_interpolate y_arr y z_arr z d0 in
    let* d1 := index data idx1 in
    let* y1 := bilinear_interpolate y_arr y z_arr z d1 in
    Ret (y0 + (x - x0) * (y1 - y0) / (x1 - x0)).

(** tables/mod.rs:136-143, [Table1D::at_state]. *)
Definition t1_at_state (t : Table1D N) (s : State N) : outcome N :=
  match t1_interp t with
  | Linear =>
      let x := get_value (fst (t1_x t)) s in
      linear_interpolate (snd (t1_x t)) x (t1_data t)
  end.
(** tables/mod.rs:151-161, [Table2D::at_state]. *)
Definition t2_at_state (t : Table2D N) (s : State N) : outcome N :=
  match t2_interp t with
  | Linear =>
      let x := get_value (fst (t2_x t)) s in
      let y := get_value (fst (t2_y t)) s in
      bilinear_interpolate (snd (t2_x t)) x (snd (t2_y t)) y (t2_data t)
  end.
(** tables/mod.rs:169-180, [Table3D::at_state]. *)
Definition t3_at_state (t : Table3D N) (s : State N) : outcome N :=
  match t3_interp t with
  | Linear =>
      let x := get_value (fst (t3_x t)) s in
      let y := get_value (fst (t3_y t)) s in
      let z := get_value (fst (t3_z t)) s in
      trilinear_interpolate (snd (t3_x t)) x (snd (t3_y t)) y (snd (t3_z t)) z (t3_data t)
  end.
(** tables/mod.rs:41-47, [Table::at_state]. *)
Definition at_state (t : Table N) (s : State N) : outcome N :=
  match t with
  | D1 t => t1_at_state t s
  | D2 t => t2_at_state t s
  | D3 t => t3_at_state t s
  end.

(** std [slice::windows(2).all(|w| w[0] < w[1])]. *)
Fixpoint windows2_all_lt (l : list N) : bool :=
  match l with
  | a :: ((b :: _) as r) => if n_ltb a b then windows2_all_lt r else false
  | _ => true
  end.

(** tables/mod.rs:222-230, [validate]. *)
Definition validate {T : Type} (idx_arr : list N) (data_arr : list T)
    : result unit TableInitError :=
  if negb (windows2_all_lt idx_arr) then Err NotSortedError
  else if negb (Nat.eqb (length idx_arr) (length data_arr)) then Err InvalidLengthError
  else Ok tt.

(** A [for] loop with [?] in its body. *)
Fixpoint for_each {A E} (f : A -> result unit E) (l : list A) : result unit E :=
  match l with
  | [] => Ok tt
  | a :: r => result_bind (f a) (fun _ => for_each f r)
  end.

(** tables/mod.rs:236-248, [Table1D::try_new]. *)
Definition t1_try_new (x : StateVariable * list N) (data : list N) (i : Interpolator)
    : result (Table1D N) TableInitError :=
  result_bind (validate (snd x) data) (fun _ => Ok (mkT1 (fst x, snd x) data i)).

(** tables/mod.rs:255-273, [Table2D::try_new]. *)
Definition t2_try_new (x y : StateVariable * list N) (data : list (list N))
    (i : Interpolator) : result (Table2D N) TableInitError :=
  result_bind (validate (snd x) data) (fun _ =>
  result_bind (for_each (fun y_data => validate (snd y) y_data) data) (fun _ =>
  Ok (mkT2 (fst x, snd x) (fst y, snd y) data i))).

(** tables/mod.rs:280-304, [Table3D::try_new]. *)
Definition t3_try_new (x y z : StateVariable * list N) (data : list (list (list N)))
    (i : Interpolator) : result (Table3D N) TableInitError :=
  result_bind (validate (snd x) data) (fun _ =>
  result_bind (for_each (fun y_data =>
    result_bind (validate (snd y) y_data) (fun _ =>
    for_each (fun z_data => validate (snd z) z_data) y_data)) data) (fun _ =>
  Ok (mkT3 (fst x, snd x) (fst y, snd y) (fst z, snd z) data i))).

End WithNum.
