(** * C53, C54: what can be told from the printed text, by eye and by the plotting script *)
From Coq Require Import NArith ZArith List String Ascii Bool Lia Reals Lra.
From Flocq Require Import Core BinarySingleNaN.
From Verif Require Import Num State Config Phase Simulation B64 B64Facts Refute Text Plot Prop_Text.
Import ListNotations.
Open Scope R_scope.

(** ** Specification *)
(** The contract of rounding to an integer: the nearest one, ties either way. *)
Definition nearest (rnd : b64 -> N) : Prop :=
  forall x : b64, is_finite x = true -> Rabs (IZR (Z.of_N (rnd x)) - Rabs (B2R x)) <= 1 / 2.
(** A text reads as an integer within 1/2 of the number. *)
Definition close (t : text) (x : b64) : Prop := Rabs (IZR (numeral t) - B2R x) <= 1 / 2.
(** Two numbers that a reader of the text may confuse: both NaN, the same infinity, or finite with the
    same sign and not more than 1 apart. *)
Definition confusable (x y : b64) : Prop :=
  (is_nan x = true /\ is_nan y = true) \/
  (exists s, x = B754_infinity s /\ y = B754_infinity s) \/
  (is_finite x = true /\ is_finite y = true /\ Bsign x = Bsign y /\ Rabs (B2R x - B2R y) <= 1).

(** There is such a rounding. *)
Definition nearest_even (x : b64) : N := Z.to_N (ZnearestE (Rabs (B2R x))).
Lemma nearest_even_nearest : nearest nearest_even.
Proof.
  intros x _. unfold nearest_even.
  assert (P : (0 <= ZnearestE (Rabs (B2R x)))%Z).
  { rewrite <- (Znearest_imp (fun z => negb (Z.even z)) 0 0).
    - apply (valid_rnd_N _). apply Rabs_pos.
    - rewrite Rminus_0_r, Rabs_R0. lra. }
  rewrite Z2N.id by exact P. rewrite Rabs_minus_sym.
  assert (Z := Znearest_half (fun z => negb (Z.even z)) (Rabs (B2R x))). lra.
Qed.

(** ** Numbers as text *)
Lemma decimal_number : forall b n, number ((if b : bool then lit "-" else []) ++ decimal n).
Proof.
  intros b n. destruct (decimal_spec n) as (A & B & _). exists (if b then lit "-" else []), (decimal n).
  split; [reflexivity|]. split; [destruct b; [right|left]; reflexivity|]. now split.
Qed.
Lemma show_finite : forall rnd (x : b64), is_finite x = true ->
  show_f64 rnd x = (if Bsign x then lit "-" else []) ++ decimal (rnd x).
Proof. intros rnd [s|s| |s m e H] F; try discriminate; reflexivity. Qed.
Lemma show_plain : forall rnd x, plain (show_f64 rnd x).
Proof.
  intros rnd x. destruct x as [s|s| |s m e H].
  - apply number_plain. exact (decimal_number s (rnd (B754_zero s))).
  - destruct s; reflexivity.
  - reflexivity.
  - apply number_plain. exact (decimal_number s (rnd (B754_finite s m e H))).
Qed.
Lemma show_number : forall rnd x, is_finite x = true -> number (show_f64 rnd x).
Proof. intros rnd x F. rewrite show_finite by exact F. apply decimal_number. Qed.
Lemma first_digit : forall n, exists c d, decimal n = c :: d /\ digit c.
Proof.
  intros n. destruct (decimal_spec n) as (A & B & _). destruct (decimal n) as [|c d]; [contradiction|].
  inversion A; subst. now exists c, d.
Qed.
Lemma numeral_decimal : forall b n, numeral ((if b : bool then lit "-" else []) ++ decimal n) =
  if b then (- Z.of_N n)%Z else Z.of_N n.
Proof.
  intros b n. destruct (decimal_spec n) as (_ & _ & V). destruct b.
  - cbn [app]. change (numeral (lit "-" ++ decimal n)) with (- value (decimal n))%Z. now rewrite V.
  - cbn [app]. destruct (first_digit n) as (c & d & E & D). unfold numeral. rewrite E. unfold digit in D.
    replace (c =? 45)%N with false by (symmetry; apply N.eqb_neq; lia). now rewrite <- E.
Qed.

Lemma sign_abs : forall x : b64, is_finite x = true -> B2R x = if Bsign x then - Rabs (B2R x) else Rabs (B2R x).
Proof.
  intros [s|s| |s m e H] F; try discriminate; cbn [Bsign B2R].
  - rewrite Rabs_R0. destruct s; lra.
  - rewrite <- F2R_Zabs, abs_cond_Zopp. destruct s; cbn [cond_Zopp Z.abs]; [|reflexivity].
    rewrite <- F2R_Zopp. reflexivity.
Qed.

(** C53, accuracy: a finite number is shown as an integer within 1/2. *)
Theorem C53_accuracy : forall rnd, nearest rnd -> forall x : b64, is_finite x = true -> close (show_f64 rnd x) x.
Proof.
  intros rnd H x F. unfold close. rewrite show_finite, numeral_decimal by exact F. specialize (H x F).
  assert (S := sign_abs x F). destruct (Bsign x); rewrite S; [|exact H].
  rewrite opp_IZR. replace (- IZR (Z.of_N (rnd x)) - - Rabs (B2R x)) with (- (IZR (Z.of_N (rnd x)) - Rabs (B2R x))) by ring.
  now rewrite Rabs_Ropp.
Qed.

(** ** The text determines the values *)
Lemma decimal_inj : forall a b, decimal a = decimal b -> a = b.
Proof.
  intros a b E. destruct (decimal_spec a) as (_ & _ & V). destruct (decimal_spec b) as (_ & _ & W). rewrite E in V. lia.
Qed.
Lemma show_nonempty : forall rnd x, exists c t, show_f64 rnd x = c :: t /\ (c =? 32)%N = false.
Proof.
  assert (Q : forall s n, exists c t, (if s : bool then lit "-" else []) ++ decimal n = c :: t /\ (c =? 32)%N = false).
  { intros s n. destruct (first_digit n) as (c & d & E & D). destruct s.
    - exists 45%N, (decimal n). now split.
    - exists c, d. split; [exact E|]. apply N.eqb_neq. unfold digit in D. lia. }
  intros rnd [s|s| |s m e H].
  - apply (Q s).
  - destruct s; [exists 45%N, (lit "inf")|exists 105%N, (lit "nf")]; now split.
  - exists 78%N, (lit "aN"). now split.
  - apply (Q s).
Qed.
Lemma show_confusable : forall rnd, nearest rnd -> forall x y, show_f64 rnd x = show_f64 rnd y -> confusable x y.
Proof.
  intros rnd H x y E.
  assert (FN : forall z : b64, is_finite z = true -> show_f64 rnd z <> lit "NaN" /\ show_f64 rnd z <> lit "inf" /\ show_f64 rnd z <> lit "-inf").
  { intros z F. rewrite show_finite by exact F. destruct (first_digit (rnd z)) as (c & d & Ec & Hc). rewrite Ec. unfold digit in Hc.
    destruct (Bsign z); cbn; (split; [|split]); intros X; injection X; intros; lia || discriminate. }
  destruct (is_finite x) eqn:Fx, (is_finite y) eqn:Fy.
  - right. right. split; [exact Fx|]. split; [exact Fy|].
    assert (Es := E). rewrite !show_finite in Es by assumption.
    assert (S : Bsign x = Bsign y /\ rnd x = rnd y).
    { destruct (first_digit (rnd x)) as (c & d & Ec & Hc). destruct (first_digit (rnd y)) as (c' & d' & Ec' & Hc').
      unfold digit in *. destruct (Bsign x), (Bsign y).
      - split; [reflexivity|]. apply decimal_inj. injection Es as Es. exact Es.
      - rewrite Ec' in Es. injection Es as Es _. lia.
      - rewrite Ec in Es. injection Es as Es _. lia.
      - split; [reflexivity|]. apply decimal_inj. exact Es. }
    destruct S as [S1 S2]. split; [exact S1|].
    assert (A := C53_accuracy rnd H x Fx). assert (B := C53_accuracy rnd H y Fy). unfold close in *. rewrite E in A.
    replace (B2R x - B2R y) with ((IZR (numeral (show_f64 rnd y)) - B2R y) - (IZR (numeral (show_f64 rnd y)) - B2R x)) by ring.
    eapply Rle_trans; [apply Rabs_triang|]. rewrite Rabs_Ropp. lra.
  - destruct (FN x Fx) as (A & B & C). destruct y as [s|s| |s m e G]; try discriminate; [destruct s|]; cbn in E; contradiction.
  - destruct (FN y Fy) as (A & B & C). destruct x as [s|s| |s m e G]; try discriminate; [destruct s|]; cbn in E; symmetry in E; contradiction.
  - destruct x as [s|s| |s m e G]; try discriminate; destruct y as [s'|s'| |s' m' e' G']; try discriminate.
    + destruct s, s'; try discriminate; right; left; [exists true|exists false]; now split.
    + destruct s; discriminate.
    + destruct s'; discriminate.
    + left. now split.
Qed.

(** Cutting the text at the end of a number. *)
Lemma plain_cut : forall n n' c c' r r', plain n -> plain n' -> allowed c = false -> allowed c' = false ->
  n ++ c :: r = n' ++ c' :: r' -> n = n' /\ c = c' /\ r = r'.
Proof.
  induction n as [|a n IH]; intros [|a' n'] c c' r r' P P' C C' E; cbn [app] in E.
  - injection E as -> ->. auto.
  - injection E as -> ->. unfold plain in P'. cbn [forallb] in P'. rewrite C in P'. discriminate.
  - injection E as <- <-. unfold plain in P. cbn [forallb] in P. rewrite C' in P. discriminate.
  - injection E as -> E. unfold plain in *. cbn [forallb] in P, P'. apply andb_prop in P, P'. destruct P as [_ P], P' as [_ P'].
    destruct (IH n' c c' r r' P P' C C' E) as (-> & -> & ->). auto.
Qed.
Lemma spaces_cut : forall k k' c c' r r', (c =? 32)%N = false -> (c' =? 32)%N = false ->
  spaces k ++ c :: r = spaces k' ++ c' :: r' -> k = k' /\ c :: r = c' :: r'.
Proof.
  induction k as [|k IH]; intros [|k'] c c' r r' C C' E; unfold spaces in *; cbn [repeat app] in E.
  - auto.
  - injection E as -> _. discriminate.
  - injection E as <- _. discriminate.
  - injection E as E. destruct (IH k' c c' r r' C C' E) as [-> ->]. auto.
Qed.
Definition word (n : text) : Prop := plain n /\ exists c t, n = c :: t /\ (c =? 32)%N = false.
Lemma show_word : forall rnd x, word (show_f64 rnd x).
Proof. intros rnd x. split; [apply show_plain|apply show_nonempty]. Qed.
Lemma row_cut : forall w n n' t t', word n -> word n' -> show_row w n ++ t = show_row w n' ++ t' -> n = n' /\ t = t'.
Proof.
  intros w n n' t t' (P & c & u & En & C) (P' & c' & u' & En' & C') E. unfold show_row in E. rewrite <- !app_assoc in E.
  apply app_inv_head in E. apply app_inv_head in E. apply app_inv_head in E.
  assert (A : n ++ lit " " ++ [9474%N] ++ newline ++ t = n' ++ lit " " ++ [9474%N] ++ newline ++ t').
  { revert E. generalize (w - List.length n)%nat, (w - List.length n')%nat. intros k k' E. rewrite En, En' in *. cbn [app] in E |- *.
    apply (spaces_cut k k') in E; [apply E|exact C|exact C']. }
  change (lit " " ++ ?x) with (32%N :: x) in A. apply plain_cut in A; try assumption; try reflexivity.
  destruct A as (A & _ & B). split; [exact A|]. apply app_inv_head in B. now apply app_inv_head in B.
Qed.
Lemma box_cut : forall a b c a' b' c' t t', word a -> word b -> word c -> word a' -> word b' -> word c' ->
  show_box a b c ++ t = show_box a' b' c' ++ t' -> a = a' /\ b = b' /\ c = c' /\ t = t'.
Proof.
  intros a b c a' b' c' t t' Wa Wb Wc Wa' Wb' Wc' E. unfold show_box in E. cbv zeta in E.
  set (w := Nat.max _ _) in E. set (w' := Nat.max (Nat.max (List.length a') _) _) in E. rewrite <- !app_assoc in E.
  do 4 apply app_inv_head in E.
  assert (S : forall k r, spaces k ++ lit " " ++ [9488%N] ++ r = spaces (S k) ++ 9488%N :: r).
  { intros k r. unfold spaces. change (lit " " ++ [9488%N] ++ r) with (repeat 32%N 1 ++ 9488%N :: r).
    rewrite app_assoc, <- repeat_app, Nat.add_1_r. reflexivity. }
  rewrite !S in E. apply spaces_cut in E; [|reflexivity|reflexivity]. destruct E as [W E]. injection W as W. rewrite <- W in E.
  apply (f_equal (@tl N)) in E. cbn [tl] in E. apply app_inv_head in E.
  apply row_cut in E; [|assumption..]. destruct E as [-> E]. apply row_cut in E; [|assumption..]. destruct E as [-> E].
  apply row_cut in E; [|assumption..]. destruct E as [-> E]. do 8 apply app_inv_head in E. auto.
Qed.

Section Output.
Variable lm : libm.
Notation F := (B64 lm).
Variable rnd : b64 -> N.
Notation show := (show_f64 rnd : F -> text).

(** Two reports that a reader of the text may confuse. *)
Definition confusable_vec (u v : vec3 F) : Prop :=
  confusable (vx u) (vx v) /\ confusable (vy u) (vy v) /\ confusable (vz u) (vz v).
Definition confusable_event (e e' : event F) : Prop :=
  match e, e' with
  | EPhase i, EPhase j => i = j
  | ERecord s, ERecord s' =>
      confusable (st_time s) (st_time s') /\ confusable_vec (st_position_planet s) (st_position_planet s') /\
      confusable_vec (st_velocity s) (st_velocity s') /\ confusable (st_altitude s) (st_altitude s') /\
      confusable (st_propellant_mass s) (st_propellant_mass s')
  | _, _ => False
  end.
Lemma vec_cut : forall (u v : vec3 F) t t', nearest rnd -> show_vec show u ++ t = show_vec show v ++ t' -> confusable_vec u v /\ t = t'.
Proof.
  intros u v t t' R E. unfold show_vec in E. apply box_cut in E; [|apply show_word..]. destruct E as (A & B & C & D).
  split; [|exact D]. split; [|split]; now apply (show_confusable rnd R).
Qed.
Lemma number_cut : forall (x y : b64) t t', nearest rnd -> show_f64 rnd x ++ newline ++ t = show_f64 rnd y ++ newline ++ t' ->
  confusable x y /\ t = t'.
Proof.
  intros x y t t' R E. change (newline ++ ?z) with (10%N :: z) in E. apply plain_cut in E; try apply show_plain; try reflexivity.
  destruct E as (A & _ & B). split; [now apply (show_confusable rnd R)|exact B].
Qed.
Lemma record_cut : forall (s s' : State F) t t', nearest rnd -> show_record show s ++ t = show_record show s' ++ t' ->
  confusable_event (ERecord s) (ERecord s') /\ t = t'.
Proof.
  intros s s' t t' R E. unfold show_record in E. rewrite <- !app_assoc in E.
  apply app_inv_head in E. apply number_cut in E; [|exact R]. destruct E as [E1 E].
  apply app_inv_head in E. apply vec_cut in E; [|exact R]. destruct E as [E2 E]. apply app_inv_head in E.
  apply app_inv_head in E. apply vec_cut in E; [|exact R]. destruct E as [E3 E]. apply app_inv_head in E.
  apply app_inv_head in E. apply number_cut in E; [|exact R]. destruct E as [E4 E].
  apply app_inv_head in E. apply number_cut in E; [|exact R]. destruct E as [E5 E]. apply app_inv_head in E.
  split; [|exact E]. cbn [confusable_event]. split; [exact E1|]. split; [exact E2|]. split; [exact E3|]. split; [exact E4|exact E5].
Qed.
(** C53: equal texts come from reports of the same phases with as many records, whose corresponding
    printed values are confusable. *)
Theorem C53_unambiguous : nearest rnd -> forall ev ev' : list (event F),
  output show ev = output show ev' -> Forall2 confusable_event ev ev'.
Proof.
  intros R. induction ev as [|e ev IH]; intros [|e' ev'] E.
  - constructor.
  - destruct e'; discriminate.
  - destruct e; discriminate.
  - unfold output in *. cbn [flat_map] in E. destruct e as [i|s], e' as [j|s'].
    + cbn [show_event] in E. rewrite <- !app_assoc in E. apply app_inv_head in E.
      change (newline ++ ?z) with (10%N :: z) in E.
      assert (P : forall n, plain (decimal n)) by (intros n; apply number_plain; exact (decimal_number false n)).
      apply plain_cut in E; try apply P; try reflexivity. destruct E as (A & _ & B).
      apply decimal_inj, Nat2N.inj in A. constructor; [exact A|now apply IH].
    + discriminate.
    + discriminate.
    + cbn [show_event] in E. apply record_cut in E; [|exact R]. destruct E as [A B]. constructor; [exact A|now apply IH].
Qed.
End Output.
