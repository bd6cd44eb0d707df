(** * C53, C54: the printed text and its reader *)
From Coq Require Import NArith ZArith List String Ascii Bool Lia Reals Lra.
From Flocq Require Import Core BinarySingleNaN.
From Verif Require Import Num State Phase Simulation B64 B64Facts Text Plot.
Import ListNotations.

(** ** Specification: what a numeral means *)
Definition value (d : text) : Z := fold_left (fun a c => (10 * a + (Z.of_N c - 48))%Z) d 0%Z.
Definition numeral (t : text) : Z :=
  match t with
  | [] => 0%Z
  | c :: d => if (c =? 45)%N then (- value d)%Z else value t
  end.
Definition digit (c : N) : Prop := (48 <= c <= 57)%N.

Lemma digits_S : forall fuel n, digits (S fuel) n = if (n <? 10)%N then [n + 48]%N else digits fuel (n / 10) ++ [n mod 10 + 48]%N.
Proof. reflexivity. Qed.
Lemma digits_spec : forall fuel n, (n < 2 ^ N.of_nat fuel)%N ->
  Forall digit (digits (S fuel) n) /\ digits (S fuel) n <> [] /\ value (digits (S fuel) n) = Z.of_N n.
Proof.
  induction fuel as [|fuel IH]; intros n H.
  - assert (n = 0%N) by (cbn in H; lia). subst n. cbn. split; [repeat constructor; unfold digit; lia|]. split; [discriminate|reflexivity].
  - rewrite (digits_S (S fuel)). destruct (N.ltb_spec n 10) as [L|L].
    + split; [repeat constructor; unfold digit; lia|]. split; [discriminate|]. unfold value. cbn [fold_left]. lia.
    + assert (E := N.div_mod n 10 ltac:(discriminate)). assert (M := N.mod_lt n 10 ltac:(discriminate)).
      destruct (IH (n / 10)%N) as (A & B & C).
      { rewrite Nat2N.inj_succ, N.pow_succ_r' in H. generalize dependent (2 ^ N.of_nat fuel)%N. intros q _ H.
        generalize dependent (n / 10)%N. generalize dependent (n mod 10)%N. intros. lia. }
      split; [apply Forall_app; split; [exact A|constructor; [clear - M; unfold digit; revert M; generalize (n mod 10)%N; intros; lia|constructor]]|].
      split; [intros X; apply app_eq_nil in X; destruct X; discriminate|].
      unfold value in *. rewrite fold_left_app, C. cbn [fold_left]. clear - E. revert E. generalize (n mod 10)%N, (n / 10)%N. intros. lia.
Qed.
Lemma size_bound : forall n, (n < 2 ^ N.of_nat (N.size_nat n))%N.
Proof.
  intros [|p]; [reflexivity|]. cbn [N.size_nat].
  induction p as [p IH|p IH|]; cbn [Pos.size_nat]; rewrite ?Nat2N.inj_succ, ?N.pow_succ_r'; lia.
Qed.
Lemma decimal_spec : forall n, Forall digit (decimal n) /\ decimal n <> [] /\ value (decimal n) = Z.of_N n.
Proof. intros n. apply digits_spec, size_bound. Qed.

(** ** Scanning *)
Lemma span_app : forall f a c r, forallb f a = true -> f c = false -> span f (a ++ c :: r) = (a, c :: r).
Proof.
  intros f a c r. induction a as [|x a IH]; intros H Hc; cbn [app span]; [now rewrite Hc|].
  cbn [forallb] in H. apply andb_prop in H. destruct H as [-> H]. now rewrite IH.
Qed.
Lemma after_app : forall p t, after p (p ++ t) = Some t.
Proof. induction p as [|a p IH]; intros t; [reflexivity|]. cbn [app after]. now rewrite N.eqb_refl. Qed.
Lemma scan_skip : forall {A} (m : matcher A) u t, scan m (List.length u) (u ++ t) = scan m 0 t.
Proof. intros A m u t. induction u as [|c u IH]; [reflexivity|]. cbn [List.length app scan]. exact IH. Qed.
Lemma scan_match : forall {A} (m : matcher A) c u rest a, m (c :: u ++ rest) = Some (a, rest) ->
  scan m 0 (c :: u ++ rest) = a :: scan m 0 rest.
Proof.
  intros A m c u rest a H. cbn [scan]. rewrite H. f_equal. rewrite app_length, Nat.add_sub. apply scan_skip.
Qed.
(** No match begins within [u] when [t] follows. *)
Definition passes {A} (m : matcher A) (u t : text) : Prop :=
  forall u1 c u2, u = u1 ++ c :: u2 -> m (c :: u2 ++ t) = None.
Lemma passes_app : forall {A} (m : matcher A) u v t, passes m u (v ++ t) -> passes m v t -> passes m (u ++ v) t.
Proof.
  intros A m u v t Hu Hv u1 c u2 E. revert u Hu E. induction u1 as [|x u1 IH]; intros u Hu E.
  - destruct u as [|y u]; cbn [app] in E.
    + apply (Hv [] c u2 E).
    + injection E as -> <-. rewrite <- app_assoc. apply (Hu [] c u). reflexivity.
  - destruct u as [|y u]; cbn [app] in E.
    + apply (Hv (x :: u1) c u2 E).
    + injection E as -> E. apply (IH u); [|exact E]. intros w1 d w2 Ew. apply (Hu (x :: w1) d w2). cbn [app]. now rewrite Ew.
Qed.
Lemma scan_pass : forall {A} (m : matcher A) u t, passes m u t -> scan m 0 (u ++ t) = scan m 0 t.
Proof.
  intros A m u t. induction u as [|c u IH]; intros H; [reflexivity|]. cbn [app scan].
  rewrite (H [] c u eq_refl). apply IH. intros u1 d u2 E. apply (H (c :: u1) d u2). cbn [app]. now rewrite E.
Qed.
Lemma sections_skip : forall {A} (m : matcher A) u t, sections m (List.length u) (u ++ t) = sections m 0 t.
Proof. intros A m u t. induction u as [|c u IH]; [reflexivity|]. cbn [List.length app sections]. exact IH. Qed.
Lemma sections_match : forall {A} (m : matcher A) c u rest a, m (c :: u ++ rest) = Some (a, rest) ->
  sections m 0 (c :: u ++ rest) = ([], (a, fst (sections m 0 rest)) :: snd (sections m 0 rest)).
Proof.
  intros A m c u rest a H. cbn [sections]. rewrite H, app_length, Nat.add_sub, sections_skip.
  now destruct (sections m 0 rest).
Qed.
Lemma sections_pass : forall {A} (m : matcher A) u t, passes m u t ->
  sections m 0 (u ++ t) = (u ++ fst (sections m 0 t), snd (sections m 0 t)).
Proof.
  intros A m u t. induction u as [|c u IH]; intros H; [cbn [app]; now destruct (sections m 0 t) as [x y]|]. cbn [app sections].
  rewrite (H [] c u eq_refl), IH; [reflexivity|].
  intros u1 d u2 E. apply (H (c :: u1) d u2). cbn [app]. now rewrite E.
Qed.
(** A pattern that begins with the character [k] does not match where [k] does not occur. *)
Definition starts_with {A} (m : matcher A) (k : N) : Prop := forall c t, (c =? k)%N = false -> m (c :: t) = None.
Lemma passes_without : forall {A} (m : matcher A) k u t, starts_with m k -> forallb (fun c => negb (c =? k)%N) u = true ->
  passes m u t.
Proof.
  intros A m k u t K H u1 c u2 ->. apply K. rewrite forallb_app in H. apply andb_prop in H. destruct H as [_ H].
  cbn [forallb] in H. apply andb_prop in H. destruct H as [H _]. now apply negb_true_iff in H.
Qed.
Lemma starts_number : forall k p, starts_with (m_number (k :: p)) k.
Proof. intros k p c t H. unfold m_number, after. now rewrite N.eqb_sym, H. Qed.
Lemma starts_vector : forall k p, starts_with (m_vector (k :: p)) k.
Proof. intros k p c t H. unfold m_vector, after. now rewrite N.eqb_sym, H. Qed.

(** ** Numbers *)
(** A run of digits with or without sign. *)
Definition number (n : text) : Prop := exists sgn d, n = sgn ++ d /\ (sgn = [] \/ sgn = [45%N]) /\ d <> [] /\ Forall digit d.
Lemma digit_is_digit : forall d, Forall digit d -> forallb is_digit d = true.
Proof.
  intros d H. apply forallb_forall. intros c Hc. rewrite Forall_forall in H. specialize (H c Hc). unfold digit in H.
  unfold is_digit. apply andb_true_intro. split; apply N.leb_le; lia.
Qed.
Lemma m_number_app : forall p d c r, Forall digit d -> d <> [] -> is_digit c = false ->
  m_number p (p ++ d ++ c :: r) = Some (d, c :: r).
Proof.
  intros p d c r Hd Nd Hc. unfold m_number. rewrite after_app, span_app by auto using digit_is_digit.
  destruct d; [contradiction|reflexivity].
Qed.
Lemma m_bar_number : forall k n r, number n -> m_bar (9474%N :: spaces (S k) ++ n ++ 32%N :: r) = Some (n, 32%N :: r).
Proof.
  intros k n r (sgn & d & -> & Hs & Nd & Hd). unfold m_bar. rewrite N.eqb_refl.
  assert (F : forallb is_digit d = true) by now apply digit_is_digit.
  assert (D : exists c d', d = c :: d' /\ is_space c = false /\ (c =? 45)%N = false).
  { destruct d as [|c d']; [contradiction|]. exists c, d'. inversion Hd as [|? ? Hc _]; subst. unfold digit in Hc.
    split; [reflexivity|]. unfold is_space. split; [|apply N.eqb_neq; lia].
    apply orb_false_intro; [apply N.eqb_neq; lia|]. apply andb_false_iff. right. apply N.leb_gt. lia. }
  destruct D as (c & d' & Ed & Sc & Mc).
  assert (W : forallb is_space (spaces (S k)) = true).
  { unfold spaces. apply forallb_forall. intros x Hx. apply repeat_spec in Hx. now subst x. }
  destruct Hs as [-> | ->].
  - cbn [app]. rewrite Ed. cbn [app]. rewrite (span_app is_space) by assumption. unfold spaces at 1. cbn [repeat].
    rewrite Mc. rewrite app_comm_cons, <- Ed, (span_app is_digit) by (assumption || reflexivity).
    rewrite Ed. reflexivity.
  - cbn [app]. rewrite (span_app is_space) by (assumption || reflexivity). unfold spaces at 1. cbn [repeat].
    rewrite N.eqb_refl. rewrite (span_app is_digit) by (assumption || reflexivity).
    rewrite Ed. reflexivity.
Qed.
Lemma search_pass : forall u t, forallb (fun c => negb (c =? 9474)%N) u = true -> search (u ++ t) = search t.
Proof.
  induction u as [|c u IH]; intros t H; [reflexivity|]. cbn [forallb] in H. apply andb_prop in H. destruct H as [Hc H].
  apply negb_true_iff in Hc. cbn [app search m_bar]. rewrite Hc. now apply IH.
Qed.
Lemma search_bar : forall t r, m_bar t = Some r -> search t = Some r.
Proof. intros t r H. destruct t; cbn [search]; now rewrite H. Qed.
(** The bar at the end of a row is passed. *)
Lemma search_close : forall t, search (lit " " ++ [9474%N] ++ newline ++ lit "  " ++ 9474%N :: t) = search (9474%N :: t).
Proof. intros t. reflexivity. Qed.

(** ** Characters that numbers do not contain *)
Definition allowed (c : N) : bool :=
  is_digit c || (c =? 45)%N || (c =? 78)%N || (c =? 97)%N || (c =? 105)%N || (c =? 110)%N || (c =? 102)%N.
Definition plain (n : text) : Prop := forallb allowed n = true.
Lemma without_plain : forall k n, plain n -> allowed k = false -> forallb (fun c => negb (c =? k)%N) n = true.
Proof.
  intros k n H K. apply forallb_forall. intros c Hc. unfold plain in H. rewrite forallb_forall in H. specialize (H c Hc).
  apply negb_true_iff, N.eqb_neq. intros ->. congruence.
Qed.
Lemma without_spaces : forall k w, (32 =? k)%N = false -> forallb (fun c => negb (c =? k)%N) (spaces w) = true.
Proof.
  intros k w K. apply forallb_forall. intros c Hc. apply repeat_spec in Hc. subst c. now rewrite K.
Qed.
Lemma number_plain : forall n, number n -> plain n.
Proof.
  intros n (sgn & d & -> & Hs & _ & Hd). unfold plain. rewrite forallb_app. apply andb_true_intro. split.
  - destruct Hs as [-> | ->]; reflexivity.
  - apply digit_is_digit in Hd. apply forallb_forall. intros c Hc. rewrite forallb_forall in Hd.
    unfold allowed. now rewrite (Hd c Hc).
Qed.
Lemma without_app : forall k u v, forallb (fun c => negb (c =? k)%N) u = true -> forallb (fun c => negb (c =? k)%N) v = true ->
  forallb (fun c => negb (c =? k)%N) (u ++ v) = true.
Proof. intros k u v A B. now rewrite forallb_app, A, B. Qed.
Ltac without := repeat first [reflexivity | apply without_plain; [assumption|reflexivity]
  | apply without_spaces; reflexivity | apply without_app].
Lemma without_row : forall k w n, plain n -> allowed k = false -> (32 =? k)%N = false -> (10 =? k)%N = false -> (9474 =? k)%N = false ->
  forallb (fun c => negb (c =? k)%N) (show_row w n) = true.
Proof.
  intros k w n P A B C D.
  assert (L1 : forallb (fun c => negb (c =? k)%N) (lit " ") = true) by (change (lit " ") with [32%N]; cbn [forallb]; now rewrite B).
  assert (L2 : forallb (fun c => negb (c =? k)%N) (lit "  ") = true) by (change (lit "  ") with [32%N; 32%N]; cbn [forallb]; now rewrite B).
  assert (L3 : forallb (fun c => negb (c =? k)%N) newline = true) by (unfold newline; cbn [forallb]; now rewrite C).
  assert (L4 : forallb (fun c => negb (c =? k)%N) [9474%N] = true) by (cbn [forallb]; now rewrite D).
  assert (L5 := without_plain k n P A). assert (L6 := without_spaces k (w - List.length n) B).
  unfold show_row. rewrite !forallb_app, L1, L2, L3, L4, L5, L6. reflexivity.
Qed.
Lemma without_box : forall k a b c, plain a -> plain b -> plain c -> allowed k = false -> (32 =? k)%N = false -> (10 =? k)%N = false ->
  (9474 =? k)%N = false -> (9484 =? k)%N = false -> (9488 =? k)%N = false -> (9492 =? k)%N = false -> (9496 =? k)%N = false ->
  forallb (fun c => negb (c =? k)%N) (show_box a b c) = true.
Proof.
  intros k a b c Pa Pb Pc A B C D E F G H. unfold show_box. cbv zeta.
  set (w := Nat.max _ _).
  assert (L1 : forallb (fun c => negb (c =? k)%N) (lit " ") = true) by (change (lit " ") with [32%N]; cbn [forallb]; now rewrite B).
  assert (L2 : forallb (fun c => negb (c =? k)%N) (lit "  ") = true) by (change (lit "  ") with [32%N; 32%N]; cbn [forallb]; now rewrite B).
  assert (L3 : forallb (fun c => negb (c =? k)%N) newline = true) by (unfold newline; cbn [forallb]; now rewrite C).
  assert (L5 := fun n (P : plain n) => without_row k w n P A B C D). assert (L6 := without_spaces k w B).
  assert (L7 : forall x, (x =? k)%N = false -> forallb (fun c => negb (c =? k)%N) [x] = true) by (intros x X; cbn [forallb]; now rewrite X).
  rewrite !forallb_app, L1, L2, L3, L6, !L5, !L7 by assumption. reflexivity.
Qed.

(** ** Reading a vector *)
Definition box_end (w : nat) : text :=
  lit " " ++ [9474%N] ++ newline ++ lit "  " ++ [9492%N] ++ lit " " ++ spaces w ++ lit " " ++ [9496%N] ++ newline ++ newline.
Lemma search_row : forall k n r, number n ->
  search (9474%N :: lit " " ++ spaces k ++ n ++ lit " " ++ r) = Some (n, lit " " ++ r).
Proof. intros k n r H. apply search_bar. exact (m_bar_number k n r H). Qed.
Lemma m_vector_box : forall kw a b c t, number a -> number b -> number c ->
  exists u w, show_box a b c = u ++ box_end w /\
    m_vector kw (kw ++ lit " " ++ show_box a b c ++ t) = Some (a, b, c, box_end w ++ t).
Proof.
  intros kw a b c t Ha Hb Hc. set (w := Nat.max (Nat.max (List.length a) (List.length b)) (List.length c)).
  pose (h := newline ++ lit "  " ++ [9484%N] ++ lit " " ++ spaces w ++ lit " " ++ [9488%N] ++ newline ++ lit "  ").
  pose (row := fun n => 9474%N :: lit " " ++ spaces (w - List.length n) ++ n).
  pose (e := lit " " ++ [9474%N] ++ newline ++ lit "  ").
  assert (E : show_box a b c = h ++ row a ++ e ++ row b ++ e ++ row c ++ box_end w).
  { unfold show_box, show_row, h, row, e, box_end. fold w. rewrite <- ?app_assoc. cbn [app]. rewrite <- ?app_assoc. cbn [app].
    reflexivity. }
  exists (h ++ row a ++ e ++ row b ++ e ++ row c), w. split; [rewrite E, <- !app_assoc; reflexivity|].
  rewrite E. unfold m_vector. rewrite after_app. rewrite <- !app_assoc.
  assert (S1 : forall n r, number n -> search (row n ++ lit " " ++ r) = Some (n, lit " " ++ r)).
  { intros n r Hn. unfold row. cbn [app]. rewrite <- !app_assoc. now apply search_row. }
  rewrite (app_assoc (lit " ") h).
  rewrite search_pass by (unfold h, newline; without).
  replace (row a ++ e ++ row b ++ e ++ row c ++ box_end w ++ t)
    with (row a ++ lit " " ++ ([9474%N] ++ newline ++ lit "  ") ++ row b ++ e ++ row c ++ box_end w ++ t) by reflexivity.
  rewrite S1 by exact Ha.
  replace (lit " " ++ ([9474%N] ++ newline ++ lit "  ") ++ row b ++ e ++ row c ++ box_end w ++ t)
    with (lit " " ++ [9474%N] ++ newline ++ lit "  " ++ row b ++ e ++ row c ++ box_end w ++ t) by reflexivity.
  change (row b ++ e ++ row c ++ box_end w ++ t) with (9474%N :: (lit " " ++ spaces (w - List.length b) ++ b) ++ e ++ row c ++ box_end w ++ t).
  rewrite search_close.
  change (9474%N :: (lit " " ++ spaces (w - List.length b) ++ b) ++ e ++ row c ++ box_end w ++ t)
    with (row b ++ lit " " ++ ([9474%N] ++ newline ++ lit "  ") ++ row c ++ box_end w ++ t).
  rewrite S1 by exact Hb.
  replace (lit " " ++ ([9474%N] ++ newline ++ lit "  ") ++ row c ++ box_end w ++ t)
    with (lit " " ++ [9474%N] ++ newline ++ lit "  " ++ 9474%N :: (lit " " ++ spaces (w - List.length c) ++ c) ++ box_end w ++ t) by reflexivity.
  rewrite search_close.
  change (9474%N :: (lit " " ++ spaces (w - List.length c) ++ c) ++ box_end w ++ t)
    with (row c ++ lit " " ++ ([9474%N] ++ newline ++ lit "  " ++ [9492%N] ++ lit " " ++ spaces w ++ lit " " ++ [9496%N] ++ newline ++ newline) ++ t).
  rewrite S1 by exact Hc. reflexivity.
Qed.

(** ** Reading a record *)
Lemma scan_through : forall {A} (m : matcher A) p u rest a, p <> [] ->
  m (p ++ u ++ rest) = Some (a, rest) -> scan m 0 (p ++ u ++ rest) = a :: scan m 0 rest.
Proof.
  intros A m p u rest a Np H. destruct p as [|c p]; [contradiction|]. cbn [app] in *. rewrite app_assoc in *.
  now apply scan_match.
Qed.
Section Reading.
Context {N0 : Num}.
Variable show : N0 -> text.
Hypothesis show_plain : forall x, plain (show x).

Definition read_vec (v : vec3 N0) : text * text * text := (show (vx v), show (vy v), show (vz v)).
Definition vec_number (v : vec3 N0) : Prop := number (show (vx v)) /\ number (show (vy v)) /\ number (show (vz v)).

Lemma without_vec : forall k (v : vec3 N0), allowed k = false -> (32 =? k)%N = false -> (10 =? k)%N = false ->
  (9474 =? k)%N = false -> (9484 =? k)%N = false -> (9488 =? k)%N = false -> (9492 =? k)%N = false -> (9496 =? k)%N = false ->
  forallb (fun c => negb (c =? k)%N) (show_vec show v) = true.
Proof. intros. unfold show_vec. apply without_box; auto. Qed.
Ltac without' := repeat lazymatch goal with
  | |- forallb _ (_ ++ _) = true => apply without_app
  | |- forallb _ (show_vec _ _) = true => apply without_vec; reflexivity
  | |- forallb _ (show _) = true => apply without_plain; [apply show_plain|reflexivity]
  | |- forallb _ _ = true => reflexivity
  end.

Lemma scan_time : forall (s : State N0) t, Forall digit (show (st_time s)) -> show (st_time s) <> [] ->
  scan m_time 0 (show_record show s ++ t) = show (st_time s) :: scan m_time 0 t.
Proof.
  intros s t Hd Nd. unfold show_record. rewrite <- !app_assoc.
  rewrite (scan_through m_time (lit "Time: ") (show (st_time s)) _ (show (st_time s))).
  2: discriminate.
  2: { unfold m_time. change (newline ++ ?r) with (10%N :: r). now apply m_number_app. }
  f_equal. rewrite !app_assoc. apply scan_pass, (passes_without m_time 84).
  - apply starts_number.
  - without'.
Qed.
Lemma scan_vector : forall kw pre (v : vec3 N0) post t k,
  kw <> [] -> vec_number v -> starts_with (m_vector kw) k ->
  allowed k = false -> (32 =? k)%N = false -> (10 =? k)%N = false ->
  (9474 =? k)%N = false -> (9484 =? k)%N = false -> (9488 =? k)%N = false -> (9492 =? k)%N = false -> (9496 =? k)%N = false ->
  forallb (fun c => negb (c =? k)%N) pre = true -> passes (m_vector kw) post t ->
  scan (m_vector kw) 0 (pre ++ kw ++ lit " " ++ show_vec show v ++ post ++ t) = read_vec v :: scan (m_vector kw) 0 t.
Proof.
  intros kw pre v post t k Nk (Ha & Hb & Hc) K A B C D E F G H Hpre Hpost.
  rewrite scan_pass by now apply (passes_without _ k).
  destruct (m_vector_box kw _ _ _ (post ++ t) Ha Hb Hc) as (u & w & Eu & Em).
  assert (P := without_vec k v A B C D E F G H).
  unfold show_vec in *. rewrite Eu in *. rewrite forallb_app in P. apply andb_prop in P. destruct P as [_ P].
  rewrite <- app_assoc in Em. rewrite <- app_assoc. rewrite (app_assoc (lit " ") u) in *.
  rewrite (scan_through _ _ _ _ _ Nk Em). unfold read_vec. f_equal.
  rewrite scan_pass by (now apply (passes_without _ k)). now apply scan_pass.
Qed.
Lemma passes_cons2 : forall {A} (m : matcher A) c t, m (c :: t) = None -> passes m [c] t.
Proof.
  intros A m c t H u1 d u2 E. destruct u1 as [|x u1]; cbn [app] in E.
  - injection E as -> <-. exact H.
  - injection E as _ E. destruct u1; discriminate.
Qed.
Lemma scan_position : forall (s : State N0) t, vec_number (st_position_planet s) ->
  scan m_position 0 (show_record show s ++ t) = read_vec (st_position_planet s) :: scan m_position 0 t.
Proof.
  intros s t Hv. unfold show_record, m_position.
  change (lit "Position: ") with (lit "Position:" ++ lit " ").
  set (post := newline ++ lit "Velocity: " ++ show_vec show (st_velocity s) ++ newline ++ lit "Altitude: " ++
    show (st_altitude s) ++ newline ++ lit "Prop mass: " ++ show (st_propellant_mass s) ++ newline ++ newline).
  assert (E : (lit "Time: " ++ show (st_time s) ++ newline ++ (lit "Position:" ++ lit " ") ++ show_vec show (st_position_planet s) ++ post) ++ t
    = (lit "Time: " ++ show (st_time s) ++ newline) ++ lit "Position:" ++ lit " " ++ show_vec show (st_position_planet s) ++ post ++ t).
  { now rewrite <- !app_assoc. }
  rewrite E. apply (scan_vector _ _ _ _ _ 80%N); try reflexivity; try assumption.
  - discriminate.
  - apply starts_vector.
  - without'.
  - unfold post. change (lit "Prop mass: ") with ([80%N] ++ lit "rop mass: "). rewrite <- (app_assoc [80%N]).
    rewrite !(app_assoc _ _ ([80%N] ++ _)). 
    repeat lazymatch goal with |- passes _ (_ ++ _) _ => apply passes_app end;
      try (apply (passes_without _ 80); [apply starts_vector|without'; fail]).
    apply passes_cons2. reflexivity.
Qed.
Lemma scan_velocity : forall (s : State N0) t, vec_number (st_velocity s) ->
  scan m_velocity 0 (show_record show s ++ t) = read_vec (st_velocity s) :: scan m_velocity 0 t.
Proof.
  intros s t Hv. unfold show_record, m_velocity.
  change (lit "Velocity: ") with (lit "Velocity:" ++ lit " ").
  set (post := newline ++ lit "Altitude: " ++
    show (st_altitude s) ++ newline ++ lit "Prop mass: " ++ show (st_propellant_mass s) ++ newline ++ newline).
  set (pre := lit "Time: " ++ show (st_time s) ++ newline ++ lit "Position: " ++ show_vec show (st_position_planet s) ++ newline).
  assert (E : (lit "Time: " ++ show (st_time s) ++ newline ++ lit "Position: " ++ show_vec show (st_position_planet s) ++ newline ++
       (lit "Velocity:" ++ lit " ") ++ show_vec show (st_velocity s) ++ post) ++ t
    = pre ++ lit "Velocity:" ++ lit " " ++ show_vec show (st_velocity s) ++ post ++ t).
  { unfold pre. now rewrite <- !app_assoc. }
  rewrite E. apply (scan_vector _ _ _ _ _ 86%N); try reflexivity; try assumption.
  - discriminate.
  - apply starts_vector.
  - unfold pre. without'.
  - apply (passes_without _ 86); [apply starts_vector|]. unfold post. without'.
Qed.
Lemma record_passes_phase : forall (s : State N0) t, passes m_phase (show_record show s) t.
Proof.
  intros s t. apply (passes_without _ 83); [apply starts_number|]. unfold show_record. without'.
Qed.

(** *** The records of one phase, and of all *)
Definition records (rs : list (State N0)) : text := flat_map (show_record show) rs.
Lemma sections_records : forall rs t,
  sections m_phase 0 (records rs ++ t) = (records rs ++ fst (sections m_phase 0 t), snd (sections m_phase 0 t)).
Proof.
  induction rs as [|s rs IH]; intros t; [cbn [records flat_map app]; now destruct (sections m_phase 0 t)|].
  unfold records in *. cbn [flat_map]. rewrite <- !app_assoc, sections_pass by apply record_passes_phase. rewrite IH. reflexivity.
Qed.
Lemma times_records : forall rs, (forall s, In s rs -> Forall digit (show (st_time s)) /\ show (st_time s) <> []) ->
  scan m_time 0 (records rs) = map (fun s => show (st_time s)) rs.
Proof.
  induction rs as [|s rs IH]; intros H; [reflexivity|]. unfold records in *. cbn [flat_map map].
  destruct (H s (or_introl eq_refl)) as [A B]. rewrite scan_time by assumption. f_equal. apply IH. intros x Hx. apply H. now right.
Qed.
Lemma positions_records : forall rs, (forall s, In s rs -> vec_number (st_position_planet s)) ->
  scan m_position 0 (records rs) = map (fun s => read_vec (st_position_planet s)) rs.
Proof.
  induction rs as [|s rs IH]; intros H; [reflexivity|]. unfold records in *. cbn [flat_map map].
  rewrite scan_position by (apply H; now left). f_equal. apply IH. intros x Hx. apply H. now right.
Qed.
Lemma velocities_records : forall rs, (forall s, In s rs -> vec_number (st_velocity s)) ->
  scan m_velocity 0 (records rs) = map (fun s => read_vec (st_velocity s)) rs.
Proof.
  induction rs as [|s rs IH]; intros H; [reflexivity|]. unfold records in *. cbn [flat_map map].
  rewrite scan_velocity by (apply H; now left). f_equal. apply IH. intros x Hx. apply H. now right.
Qed.
End Reading.
