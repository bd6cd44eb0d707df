(** * C54: the plotting script reads what the program printed *)
From Coq Require Import NArith ZArith List String Ascii Bool Lia Reals Lra SpecFloat.
From Flocq Require Import Core BinarySingleNaN.
From Verif Require Import Num State Config Phase Simulation B64 B64Facts Refute Text Plot Prop_Text Prop_Output.
Import ListNotations.
Open Scope R_scope.

(** A report written as one list of records per phase, numbered from [i]. *)
Fixpoint events_of {N0 : Num} (i : nat) (phases : list (list (State N0))) : list (event N0) :=
  match phases with
  | [] => []
  | rs :: l => EPhase i :: map ERecord rs ++ events_of (S i) l
  end.
Lemma sim_groups : forall {N0 : Num} fuel cs i (pv : option (Phase N0)) ph ev st, sim_loop fuel i pv ph cs = (ev, st) ->
  exists phases, ev = events_of i phases.
Proof.
  intros N0 fuel. induction cs as [|c cs IH]; intros i pv ph ev st E; cbn [sim_loop] in E.
  - injection E as <- _. now exists [].
  - destruct (phase_new pv c) as [p|e].
    2: { injection E as <- _. now exists [[]]. }
    destruct (run fuel (reset p)) as [h [q|e|q]].
    + destruct (sim_loop fuel (S i) (Some q) q cs) as [ev' st'] eqn:E'. injection E as <- _.
      destruct (IH _ _ _ _ _ E') as [l ->]. now exists (h :: l).
    + injection E as <- _. exists [h]. cbn [events_of]. now rewrite app_nil_r.
    + injection E as <- _. exists [h]. cbn [events_of]. now rewrite app_nil_r.
Qed.

Section Plot.
Variable lm : libm.
Notation F := (B64 lm).
Variable rnd : b64 -> N.
Notation show := (show_f64 rnd : F -> text).

(** ** Specification *)
Definition finite_vec (v : vec3 F) : Prop :=
  is_finite (vx v : b64) = true /\ is_finite (vy v : b64) = true /\ is_finite (vz v : b64) = true.
(** The time is finite and has no minus sign; position and velocity are finite. *)
Definition readable (s : State F) : Prop :=
  is_finite (st_time s : b64) = true /\ Bsign (st_time s : b64) = false /\
  finite_vec (st_position_planet s) /\ finite_vec (st_velocity s).
Definition close_vec (t : text * text * text) (v : vec3 F) : Prop :=
  let '(a, b, c) := t in close a (vx v) /\ close b (vy v) /\ close c (vz v).
(** What is read for a phase: its number, and for each record, in order, the integers next to the
    time, the planet-relative position and the inertial velocity. *)
Definition faithful (i : nat) (rs : list (State F)) (r : reading) : Prop :=
  numeral (rd_phase r) = Z.of_nat i /\
  Forall2 (fun (s : State F) t => close t (st_time s)) rs (rd_times r) /\
  Forall2 (fun (s : State F) t => close_vec t (st_position_planet s)) rs (rd_positions r) /\
  Forall2 (fun (s : State F) t => close_vec t (st_velocity s)) rs (rd_velocities r).

Lemma finite_vec_number : forall v : vec3 F, finite_vec v -> vec_number show v.
Proof. intros v (A & B & C). split; [|split]; now apply show_number. Qed.
Lemma finite_vec_close : forall v : vec3 F, nearest rnd -> finite_vec v -> close_vec (read_vec show v) v.
Proof. intros v R (A & B & C). split; [|split]; now apply C53_accuracy. Qed.

Definition section_of (i : nat) (rs : list (State F)) : reading :=
  {| rd_phase := decimal (N.of_nat i); rd_times := map (fun s => show (st_time s)) rs;
     rd_positions := map (fun s => read_vec show (st_position_planet s)) rs;
     rd_velocities := map (fun s => read_vec show (st_velocity s)) rs |}.
Fixpoint sections_of (i : nat) (phases : list (list (State F))) : list reading :=
  match phases with
  | [] => []
  | rs :: l => section_of i rs :: sections_of (S i) l
  end.
Lemma output_records : forall rs : list (State F), output show (map ERecord rs) = records show rs.
Proof. induction rs as [|s rs IH]; [reflexivity|]. unfold output, records in *. cbn [map flat_map show_event]. now rewrite IH. Qed.
Lemma sections_events : forall phases i,
  fst (sections m_phase 0 (output show (events_of i phases))) = [] /\
  snd (sections m_phase 0 (output show (events_of i phases))) =
    map (fun k => (decimal (N.of_nat (fst k)), newline ++ records show (snd k)))
      (combine (seq i (List.length phases)) phases).
Proof.
  induction phases as [|rs l IH]; intros i; [split; reflexivity|].
  cbn [events_of List.length seq combine map fst snd].
  assert (E : output show (EPhase i :: map ERecord rs ++ events_of (S i) l) =
    lit "Starting Phase " ++ decimal (N.of_nat i) ++ newline ++ records show rs ++ output show (events_of (S i) l)).
  { unfold output. cbn [flat_map show_event]. rewrite flat_map_app, <- !app_assoc. do 3 f_equal. now rewrite <- output_records. }
  rewrite E. clear E. set (rest := output show (events_of (S i) l)) in *.
  assert (M : m_phase (lit "Starting Phase " ++ decimal (N.of_nat i) ++ newline ++ records show rs ++ rest) =
    Some (decimal (N.of_nat i), newline ++ records show rs ++ rest)).
  { destruct (decimal_spec (N.of_nat i)) as (A & B & _). unfold m_phase. change (newline ++ ?r) with (10%N :: r).
    now apply m_number_app. }
  change (lit "Starting Phase " ++ ?r) with (83%N :: lit "tarting Phase " ++ r) in *. rewrite app_assoc in *.
  rewrite (sections_match m_phase _ _ _ _ M). cbn [fst snd]. split; [reflexivity|].
  assert (P : passes m_phase newline (records show rs ++ rest)).
  { apply (passes_without _ 83); [apply starts_number|reflexivity]. }
  rewrite (sections_pass m_phase newline _ P), sections_records by (intros; apply show_plain).
  destruct (IH (S i)) as [IH1 IH2]. cbn [fst snd]. fold rest in IH1, IH2. rewrite IH1, IH2, app_nil_r. reflexivity.
Qed.
Lemma read_section : forall rs : list (State F), (forall s, In s rs -> readable s) ->
  findall m_time (newline ++ records show rs) = map (fun s => show (st_time s)) rs /\
  findall m_position (newline ++ records show rs) = map (fun s => read_vec show (st_position_planet s)) rs /\
  findall m_velocity (newline ++ records show rs) = map (fun s => read_vec show (st_velocity s)) rs.
Proof.
  intros rs H. unfold findall.
  rewrite (scan_pass m_time) by (apply (passes_without _ 84); [apply starts_number|reflexivity]).
  rewrite (scan_pass m_position) by (apply (passes_without _ 80); [apply starts_vector|reflexivity]).
  rewrite (scan_pass m_velocity) by (apply (passes_without _ 86); [apply starts_vector|reflexivity]).
  split; [|split].
  - apply times_records; [intros; apply show_plain|]. intros s Hs. destruct (H s Hs) as (A & B & _).
    change (show (st_time s)) with (show_f64 rnd (st_time s)). rewrite show_finite, B by exact A. cbn [app].
    destruct (decimal_spec (rnd (st_time s))) as (C & D & _). now split.
  - apply positions_records; [intros; apply show_plain|]. intros s Hs. apply finite_vec_number, (H s Hs).
  - apply velocities_records; [intros; apply show_plain|]. intros s Hs. apply finite_vec_number, (H s Hs).
Qed.
Lemma parse_events : forall phases i, (forall s, In (ERecord s) (events_of i phases) -> readable s) ->
  parse_output (output show (events_of i phases)) = sections_of i phases.
Proof.
  intros phases i H. unfold parse_output. destruct (sections_events phases i) as [_ E]. rewrite E. clear E. rewrite map_map.
  revert i H. induction phases as [|rs l IH]; intros i H; [reflexivity|].
  cbn [List.length seq combine map fst snd sections_of events_of] in *. f_equal.
  - unfold section_of. destruct (read_section rs) as (A & B & C).
    { intros s Hs. apply H. right. apply in_or_app. left. now apply in_map. }
    now rewrite A, B, C.
  - apply IH. intros s Hs. apply H. right. apply in_or_app. now right.
Qed.
Lemma Forall2_map_r : forall A B (P : A -> B -> Prop) (f : A -> B) l, (forall x, In x l -> P x (f x)) -> Forall2 P l (map f l).
Proof.
  intros A B P f l. induction l as [|x l IH]; intros H; constructor; [apply H; now left|]. apply IH. intros y Hy. apply H. now right.
Qed.
(** C54, as far as it holds: for every simulation whose records have finite positions and velocities
    and finite times without minus sign, the script finds every phase and every record of it, in order,
    and each number it reads is within 1/2 of the value of the record. *)
Theorem C54_plot_partial : nearest rnd -> forall fuel (cs : list (PhaseConfig F)) ev st,
  simulate fuel cs = (ev, st) -> (forall s, In (ERecord s) ev -> readable s) ->
  exists phases, ev = events_of 1 phases /\
    List.length (parse_output (output show ev)) = List.length phases /\
    forall k rs r, nth_error phases k = Some rs -> nth_error (parse_output (output show ev)) k = Some r -> faithful (S k) rs r.
Proof.
  intros R fuel cs ev st E H. destruct (sim_groups _ _ _ _ _ _ _ E) as [l ->]. exists l. split; [reflexivity|].
  rewrite parse_events by exact H.
  assert (G : forall l i, (forall s, In (ERecord s) (events_of i l) -> readable s) ->
    List.length (sections_of i l) = List.length l /\
    forall k rs r, nth_error l k = Some rs -> nth_error (sections_of i l) k = Some r -> faithful (i + k) rs r).
  { clear - R. induction l as [|rs l IH]; intros i H; [split; [reflexivity|intros [|k] rs r A; discriminate]|].
    cbn [events_of sections_of List.length] in *.
    destruct (IH (S i)) as [A B]. { intros s Hs. apply H. right. apply in_or_app. now right. }
    split; [now rewrite A|]. intros [|k] rs' r E1 E2; cbn [nth_error] in E1, E2.
    - injection E1 as <-. injection E2 as <-. rewrite Nat.add_0_r.
      assert (Q : forall s, In s rs -> readable s) by (intros s Hs; apply H; right; apply in_or_app; left; now apply in_map).
      unfold faithful, section_of. cbn [rd_phase rd_times rd_positions rd_velocities]. split; [|split; [|split]].
      + assert (X := numeral_decimal false (N.of_nat i)). cbn [app] in X. now rewrite X, nat_N_Z.
      + apply Forall2_map_r. intros s Hs. destruct (Q s Hs) as (F1 & _). now apply C53_accuracy.
      + apply Forall2_map_r. intros s Hs. destruct (Q s Hs) as (_ & _ & F1 & _). now apply finite_vec_close.
      + apply Forall2_map_r. intros s Hs. destruct (Q s Hs) as (_ & _ & _ & F1). now apply finite_vec_close.
    - replace (i + S k)%nat with (S i + k)%nat by lia. now apply B. }
  exact (G l 1%nat H).
Qed.

(** *** Where it fails *)
Lemma unreadable_time : forall (s : State F) t, Bsign (st_time s : b64) = true -> is_finite (st_time s : b64) = true ->
  scan m_time 0 (show_record show s ++ t) = scan m_time 0 t.
Proof.
  intros s t B A.
  assert (E : exists u, show_record show s = 84%N :: lit "ime: " ++ 45%N :: u /\ forallb (fun c => negb (c =? 84)%N) u = true).
  { unfold show_record at 1. change (show (st_time s)) with (show_f64 rnd (st_time s)). rewrite show_finite, B by exact A.
    eexists. split; [reflexivity|].
    assert (P := fun n => without_plain 84 _ (number_plain _ (decimal_number false n)) eq_refl). cbn [app] in P.
    assert (Q := fun x => without_plain 84 _ (show_plain rnd x) eq_refl).
    assert (V := fun v : vec3 F => without_vec show (show_plain rnd) 84 v eq_refl eq_refl eq_refl eq_refl eq_refl eq_refl eq_refl eq_refl).
    rewrite !forallb_app, P, !V, !Q. reflexivity. }
  destruct E as (u & -> & U).
  change ((84%N :: lit "ime: " ++ 45%N :: u) ++ t) with ([84%N] ++ (lit "ime: " ++ 45%N :: u) ++ t).
  rewrite scan_pass by (apply passes_cons2; reflexivity).
  apply scan_pass, (passes_without _ 84); [apply starts_number|]. rewrite forallb_app. cbn [forallb]. rewrite U. reflexivity.
Qed.
End Plot.

(** The script assigns the times found to the positions found, which fails if their numbers differ.
    A launch whose end criterion is the time -5: one time is found for two records. *)
Section Back.
Variable lm : libm.
Local Notation L := b64_lit.
Definition finite_check (v : vec3 (B64 (zlm lm))) : bool :=
  is_finite (vx v : b64) && is_finite (vy v : b64) && is_finite (vz v : b64).
Definition back_read_check : bool :=
  two_records (simulate 10 [back_config lm]) (fun s1 s2 =>
    (is_finite (st_time s1 : b64) && negb (Bsign (st_time s1 : b64)) && finite_check (st_position_planet s1) && finite_check (st_velocity s1)) &&
    (is_finite (st_time s2 : b64) && Bsign (st_time s2 : b64) && finite_check (st_position_planet s2) && finite_check (st_velocity s2))).
Lemma back_read_checked : back_read_check = true.
Proof. vm_compute. reflexivity. Qed.
Definition good_read_check : bool :=
  two_records (simulate 10 [stepsize_config lm]) (fun s1 s2 =>
    (is_finite (st_time s1 : b64) && negb (Bsign (st_time s1 : b64)) && finite_check (st_position_planet s1) && finite_check (st_velocity s1)) &&
    (is_finite (st_time s2 : b64) && negb (Bsign (st_time s2 : b64)) && finite_check (st_position_planet s2) && finite_check (st_velocity s2))).
Lemma good_read_checked : good_read_check = true.
Proof. vm_compute. reflexivity. Qed.
End Back.

Lemma finite_checked : forall lm (v : vec3 (B64 (zlm lm))), finite_check lm v = true -> finite_vec (zlm lm) v.
Proof. intros lm v H. unfold finite_check in H. apply andb_prop in H. destruct H as [H C]. apply andb_prop in H. destruct H as [A B]. now split. Qed.

Theorem C54_refuted : forall lm rnd, standard_at_zero lm ->
  exists (c : PhaseConfig (B64 lm)) ev q r, simulate 10 [c] = (ev, Finished q) /\
    parse_output (output (show_f64 rnd : B64 lm -> text) ev) = [r] /\
    List.length (rd_times r) = 1%nat /\ List.length (rd_positions r) = 2%nat /\ List.length (rd_velocities r) = 2%nat.
Proof.
  intros lm rnd H. rewrite <- (zlm_eq lm H). clear H.
  destruct (two_records_inv _ _ _ (back_read_checked lm)) as (i & s1 & s2 & q & E & G).
  exists (back_config lm), [EPhase i; ERecord s1; ERecord s2], q.
  apply andb_prop in G. destruct G as [G1 G2].
  apply andb_prop in G1. destruct G1 as [G1 V1]. apply andb_prop in G1. destruct G1 as [G1 P1]. apply andb_prop in G1. destruct G1 as [F1 N1].
  apply andb_prop in G2. destruct G2 as [G2 V2]. apply andb_prop in G2. destruct G2 as [G2 P2]. apply andb_prop in G2. destruct G2 as [F2 N2].
  apply negb_true_iff in N1. apply finite_checked in V1, V2, P1, P2.
  unfold parse_output. change [EPhase i; ERecord s1; ERecord s2] with (events_of (N0 := B64 (zlm lm)) i [[s1; s2]]) at 2.
  destruct (sections_events (zlm lm) rnd [[s1; s2]] i) as [_ X]. rewrite X. clear X.
  eexists. split; [exact E|]. split; [reflexivity|]. cbn [fst snd rd_times rd_positions rd_velocities].
  unfold findall.
  rewrite (scan_pass m_time) by (apply (passes_without _ 84); [apply starts_number|reflexivity]).
  rewrite (scan_pass m_position) by (apply (passes_without _ 80); [apply starts_vector|reflexivity]).
  rewrite (scan_pass m_velocity) by (apply (passes_without _ 86); [apply starts_vector|reflexivity]).
  split; [|split].
  - unfold records. cbn [flat_map]. rewrite scan_time; [|intros; apply show_plain|..].
    + rewrite unreadable_time by assumption. reflexivity.
    + rewrite show_finite, N1 by exact F1. apply decimal_spec.
    + rewrite show_finite, N1 by exact F1. apply decimal_spec.
  - rewrite positions_records; [reflexivity|intros; apply show_plain|].
    intros s [<-|[<-|[]]]; now apply finite_vec_number.
  - rewrite velocities_records; [reflexivity|intros; apply show_plain|].
    intros s [<-|[<-|[]]]; now apply finite_vec_number.
Qed.
(** A run of two records that meets the hypotheses of C54_plot_partial. *)
Example C54_nonvacuous : forall lm, standard_at_zero lm ->
  exists (c : PhaseConfig (B64 lm)) i s1 s2 q,
    simulate 10 [c] = ([EPhase i; ERecord s1; ERecord s2], Finished q) /\ readable lm s1 /\ readable lm s2.
Proof.
  intros lm H. rewrite <- (zlm_eq lm H). clear H.
  destruct (two_records_inv _ _ _ (good_read_checked lm)) as (i & s1 & s2 & q & E & G).
  exists (stepsize_config lm), i, s1, s2, q. split; [exact E|].
  apply andb_prop in G. destruct G as [G1 G2].
  apply andb_prop in G1. destruct G1 as [G1 V1]. apply andb_prop in G1. destruct G1 as [G1 P1]. apply andb_prop in G1. destruct G1 as [F1 N1].
  apply andb_prop in G2. destruct G2 as [G2 V2]. apply andb_prop in G2. destruct G2 as [G2 P2]. apply andb_prop in G2. destruct G2 as [F2 N2].
  apply negb_true_iff in N1, N2. apply finite_checked in V1, V2, P1, P2. unfold readable. tauto.
Qed.
(** Different values are told apart: 3 and 5 are not confusable. *)
Example C53_nonvacuous : ~ confusable (b64_lit 3 0) (b64_lit 5 0) /\ nearest nearest_even.
Proof.
  split; [|exact nearest_even_nearest].
  intros [[A _]|[(s & A & _)|(_ & _ & _ & A)]]; [vm_compute in A; discriminate|apply (f_equal B2SF) in A; vm_compute in A; discriminate|].
  rewrite <- !SF2R_B2SF in A.
  assert (X : B2SF (b64_lit 3 0) = S754_finite false 6755399441055744 (-51)) by (vm_compute; reflexivity).
  assert (Y : B2SF (b64_lit 5 0) = S754_finite false 5629499534213120 (-50)) by (vm_compute; reflexivity).
  rewrite X, Y in A. unfold SF2R, F2R, cond_Zopp in A. cbn [Fnum Fexp] in A.
  change (bpow radix2 (-51)) with (/ IZR (Z.pow_pos 2 51)) in A. change (bpow radix2 (-50)) with (/ IZR (Z.pow_pos 2 50)) in A.
  cbn in A. apply Rabs_le_inv in A. lra.
Qed.
