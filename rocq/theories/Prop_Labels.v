(** * C53: which printed number is which

    Reading the output line by line: the lines that start with "Time: ", "Altitude: " and "Prop mass: "
    give, record by record, the time, the altitude and the propellant mass of the records.  (The position
    and velocity boxes are read by plot.py: C54.) *)
From Coq Require Import NArith ZArith List String Ascii Bool Lia Reals Lra.
From Flocq Require Import Core BinarySingleNaN.
From Verif Require Import Num State Config Phase Simulation B64 B64Facts Text Plot Prop_Text Prop_Output.
Import ListNotations.
Open Scope list_scope.

(** ** Specification: a reader of lines *)
Fixpoint lines (cur : text) (t : text) : list text :=
  match t with
  | [] => [cur]
  | c :: t => if (c =? 10)%N then cur :: lines [] t else lines (cur ++ [c]) t
  end.
Fixpoint strip (label line : text) : option text :=
  match label, line with
  | [], _ => Some line
  | a :: label, b :: line => if (a =? b)%N then strip label line else None
  | _ :: _, [] => None
  end.
(** What follows the label in the lines that begin with it. *)
Definition labelled (label : string) (t : text) : list text :=
  flat_map (fun l => match strip (lit label) l with Some r => [r] | None => [] end) (lines [] t).
Definition written_records {N0 : Num} (ev : list (event N0)) : list (State N0) :=
  flat_map (fun e => match e with ERecord s => [s] | EPhase _ => [] end) ev.

(** ** Proof *)
Definition one_line (l : text) : Prop := forallb (fun c => negb (c =? 10)%N) l = true.
Lemma lines_app : forall l cur t, one_line l -> lines cur (l ++ 10%N :: t) = (cur ++ l) :: lines [] t.
Proof.
  induction l as [|c l IH]; intros cur t H; cbn [app lines].
  - rewrite app_nil_r. reflexivity.
  - unfold one_line in H. cbn [forallb] in H. apply andb_prop in H. destruct H as [C H].
    apply negb_true_iff in C. rewrite C, IH by exact H. rewrite <- app_assoc. reflexivity.
Qed.
Definition unlines (ls : list text) : text := flat_map (fun l => l ++ [10%N]) ls.
Lemma labelled_lines : forall label ls t, Forall one_line ls ->
  labelled label (unlines ls ++ t) =
  flat_map (fun l => match strip (lit label) l with Some r => [r] | None => [] end) ls ++ labelled label t.
Proof.
  intros label ls t H. induction H as [|l ls H _ IH]; [reflexivity|].
  unfold labelled, unlines in *. cbn [flat_map]. rewrite <- !app_assoc. cbn [app].
  rewrite lines_app by exact H. cbn [flat_map app]. rewrite IH, app_assoc. reflexivity.
Qed.
Lemma strip_self : forall a b, strip a (a ++ b) = Some b.
Proof. induction a as [|c a IH]; intros b; [reflexivity|]. cbn [app strip]. now rewrite N.eqb_refl. Qed.
Lemma one_line_app : forall a b, one_line a -> one_line b -> one_line (a ++ b).
Proof. intros a b A B. unfold one_line in *. rewrite forallb_app, A, B. reflexivity. Qed.
Lemma one_line_spaces : forall n, one_line (spaces n).
Proof. induction n as [|n IH]; [reflexivity|exact IH]. Qed.
Lemma one_line_plain : forall n, plain n -> one_line n.
Proof. intros n H. now apply without_plain. Qed.

Section Labels.
Context {N0 : Num}.
Variable show : N0 -> text.
Hypothesis show_one_line : forall x, plain (show x).

Definition row (w : nat) (n : text) : text := lit "  " ++ [9474%N] ++ lit " " ++ spaces (w - List.length n) ++ n ++ lit " " ++ [9474%N].
Definition box_lines (a b c : text) : list text :=
  let w := Nat.max (Nat.max (List.length a) (List.length b)) (List.length c) in
  [lit "  " ++ [9484%N] ++ lit " " ++ spaces w ++ lit " " ++ [9488%N]; row w a; row w b; row w c;
   lit "  " ++ [9492%N] ++ lit " " ++ spaces w ++ lit " " ++ [9496%N]; []; []].
Definition vec_lines (v : vec3 N0) : list text := box_lines (show (vx v)) (show (vy v)) (show (vz v)).
Lemma box_unlines : forall a b c, show_box a b c ++ newline = newline ++ unlines (box_lines a b c).
Proof.
  intros a b c. unfold show_box, unlines, box_lines, show_row, row. cbv zeta. cbn [flat_map].
  set (w := Nat.max _ _). rewrite <- !app_assoc. reflexivity.
Qed.
Lemma box_one_line : forall a b c, plain a -> plain b -> plain c -> Forall one_line (box_lines a b c).
Proof.
  intros a b c A B C. apply one_line_plain in A, B, C. unfold box_lines, row. cbv zeta. set (w := Nat.max _ _).
  repeat constructor; repeat apply one_line_app; try reflexivity; try apply one_line_spaces; assumption.
Qed.
Definition record_lines (s : State N0) : list text :=
  (lit "Time: " ++ show (st_time s)) :: lit "Position: " :: vec_lines (st_position_planet s) ++
  lit "Velocity: " :: vec_lines (st_velocity s) ++
  [lit "Altitude: " ++ show (st_altitude s); lit "Prop mass: " ++ show (st_propellant_mass s); []].
Lemma record_unlines : forall s, show_record show s = unlines (record_lines s).
Proof.
  intros s. unfold record_lines, unlines. cbn [flat_map]. rewrite flat_map_app. cbn [flat_map]. rewrite flat_map_app.
  fold (unlines (vec_lines (st_position_planet s))). fold (unlines (vec_lines (st_velocity s))).
  unfold show_record, show_vec, vec_lines.
  set (P := show_box _ _ _). set (V := show_box (show (vx (st_velocity s))) _ _).
  replace (P ++ newline ++ lit "Velocity: " ++ V ++ newline ++ lit "Altitude: " ++ show (st_altitude s) ++ newline ++
    lit "Prop mass: " ++ show (st_propellant_mass s) ++ newline ++ newline)
    with ((P ++ newline) ++ lit "Velocity: " ++ (V ++ newline) ++ lit "Altitude: " ++ show (st_altitude s) ++ newline ++
    lit "Prop mass: " ++ show (st_propellant_mass s) ++ newline ++ newline) by (rewrite <- !app_assoc; reflexivity).
  unfold P, V. rewrite !box_unlines. cbn [flat_map]. rewrite ?app_nil_r, <- !app_assoc. reflexivity.
Qed.
Lemma record_one_line : forall s, Forall one_line (record_lines s).
Proof.
  intros s. unfold record_lines, vec_lines.
  constructor; [apply one_line_app; [reflexivity|now apply one_line_plain]|].
  constructor; [reflexivity|]. apply Forall_app. split; [now apply box_one_line|].
  constructor; [reflexivity|]. apply Forall_app. split; [now apply box_one_line|].
  repeat constructor; apply one_line_app; try reflexivity; now apply one_line_plain.
Qed.

(** Scalars. *)
Definition scalar (label : string) (get : State N0 -> N0) : Prop :=
  (label = "Time: "%string /\ get = @st_time N0) \/ (label = "Altitude: "%string /\ get = @st_altitude N0) \/
  (label = "Prop mass: "%string /\ get = @st_propellant_mass N0).
Lemma strip_box : forall label a b c, In label ["Time: "; "Altitude: "; "Prop mass: "]%string ->
  flat_map (fun l => match strip (lit label) l with Some r => [r] | None => [] end) (box_lines a b c) = [].
Proof.
  intros label a b c H. unfold box_lines, row. cbv zeta. set (w := Nat.max _ _).
  destruct H as [<-|[<-|[<-|[]]]]; reflexivity.
Qed.
Lemma labelled_record : forall label get s t, scalar label get ->
  labelled label (show_record show s ++ t) = show (get s) :: labelled label t.
Proof.
  intros label get s t H. rewrite record_unlines, labelled_lines by apply record_one_line.
  assert (I : In label ["Time: "; "Altitude: "; "Prop mass: "]%string).
  { destruct H as [[-> _]|[[-> _]|[-> _]]]; cbn; auto. }
  unfold record_lines, vec_lines. cbn [flat_map]. rewrite flat_map_app, strip_box by exact I.
  cbn [flat_map]. rewrite flat_map_app, strip_box by exact I. cbn [app flat_map].
  destruct H as [[-> ->]|[[-> ->]|[-> ->]]]; reflexivity.
Qed.
Lemma labelled_phase : forall label get i t, scalar label get ->
  labelled label (show_event show (EPhase i) ++ t) = labelled label t.
Proof.
  intros label get i t H. cbn [show_event].
  replace ((lit "Starting Phase " ++ decimal (N.of_nat i) ++ newline) ++ t)
    with (unlines [lit "Starting Phase " ++ decimal (N.of_nat i)] ++ t)
    by (unfold unlines; cbn [flat_map]; rewrite app_nil_r, <- !app_assoc; reflexivity).
  rewrite labelled_lines.
  - destruct H as [[-> _]|[[-> _]|[-> _]]]; reflexivity.
  - constructor; [|constructor]. apply one_line_app; [reflexivity|]. apply one_line_plain, number_plain.
    exact (decimal_number false (N.of_nat i)).
Qed.
Lemma labelled_output : forall label get (ev : list (event N0)), scalar label get ->
  labelled label (output show ev) = map (fun s => show (get s)) (written_records ev).
Proof.
  intros label get ev H. unfold output. induction ev as [|e ev IH].
  - destruct H as [[-> _]|[[-> _]|[-> _]]]; reflexivity.
  - cbn [flat_map]. destruct e as [i|s].
    + rewrite (labelled_phase label get) by exact H. exact IH.
    + cbn [show_event]. rewrite (labelled_record label get) by exact H. rewrite IH. reflexivity.
Qed.
End Labels.

Section IEEE.
Variable lm : libm.
Notation F := (B64 lm).
Variable rnd : b64 -> N.
Notation show := (show_f64 rnd : F -> text).

(** The times, altitudes and propellant masses of the records, in order, are the numbers after these
    labels, to the nearest integer. *)
Theorem C53_labels : nearest rnd -> forall (ev : list (event F)) label get,
  (label = "Time: "%string /\ get = @st_time F) \/ (label = "Altitude: "%string /\ get = @st_altitude F) \/
  (label = "Prop mass: "%string /\ get = @st_propellant_mass F) ->
  Forall2 (fun (s : State F) (t : text) =>
      (is_finite (get s : b64) = true -> close t (get s)) /\
      (is_nan (get s : b64) = true -> t = lit "NaN") /\
      (get s = (B754_infinity false : b64) -> t = lit "inf") /\ (get s = (B754_infinity true : b64) -> t = lit "-inf"))
    (written_records ev) (labelled label (output show ev)).
Proof.
  intros R ev label get H. rewrite (labelled_output show (show_plain rnd) label get ev H).
  induction (written_records ev) as [|s l IH]; [constructor|]. cbn [map]. constructor; [|exact IH].
  split; [now apply C53_accuracy|]. generalize (get s). intros x. unfold F in x. cbn [carrier B64] in x.
  split; [|split].
  - intros N. destruct x; try discriminate. reflexivity.
  - intros ->. reflexivity.
  - intros ->. reflexivity.
Qed.
End IEEE.
