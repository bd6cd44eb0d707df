(** * C17, C18: acceptance of tables, totality of interpolation *)
From Coq Require Import ZArith List Arith Lia Bool.
From Flocq Require Import BinarySingleNaN.
From Verif Require Import Num State Tables TablesFacts B64.
Import ListNotations.
Set Implicit Arguments.

(** ** Specification *)
Section Spec.
Context {N : Num}.

(** Each base is smaller than the next one (Rust's [<]). *)
Definition increasing (l : list N) : Prop :=
  forall i a b, nth_error l i = Some a -> nth_error l (S i) = Some b -> n_ltb a b = true.

(** Well-formedness of the three kinds of tables. *)
Definition well_formed1 (x data : list N) : Prop :=
  increasing x /\ length data = length x.
Definition well_formed2 (x y : list N) (data : list (list N)) : Prop :=
  increasing x /\ length data = length x /\
  forall row, In row data -> well_formed1 y row.
Definition well_formed3 (x y z : list N) (data : list (list (list N))) : Prop :=
  increasing x /\ length data = length x /\
  forall m, In m data -> well_formed2 y z m.

(** A table that [try_new] can return. *)
Definition accepted (t : Table N) : Prop :=
  match t with
  | D1 t => exists x data i, t1_try_new x data i = Ok t
  | D2 t => exists x y data i, t2_try_new x y data i = Ok t
  | D3 t => exists x y z data i, t3_try_new x y z data i = Ok t
  end.
End Spec.

(** ** Proofs *)
Section Proofs.
Context {N : Num}.

Lemma windows2_increasing : forall l : list N, windows2_all_lt l = true <-> increasing l.
Proof.
  induction l as [|a [|b r] IH].
  - cbn. split; auto. intros _ i a b H. destruct i; discriminate.
  - cbn. split; auto. intros _ i x y H1 H2. destruct i as [|[|i]]; discriminate.
  - cbn [windows2_all_lt]. split.
    + destruct (n_ltb a b) eqn:E; [|discriminate]. intros H i x y H1 H2.
      destruct i as [|i]; cbn in H1, H2.
      * injection H1 as <-. injection H2 as <-. exact E.
      * rewrite IH in H. exact (H i x y H1 H2).
    + intros H. rewrite (H 0 a b eq_refl eq_refl).
      apply IH. intros i x y H1 H2. exact (H (S i) x y H1 H2).
Qed.

Lemma windows2_not : forall l : list N, windows2_all_lt l = false <-> ~ increasing l.
Proof.
  intros l. rewrite <- windows2_increasing. destruct (windows2_all_lt l); split; intros; congruence.
Qed.

Lemma validate_ok : forall T (x : list N) (data : list T),
  validate x data = Ok tt <-> increasing x /\ length data = length x.
Proof.
  intros T x data. unfold validate.
  destruct (windows2_all_lt x) eqn:E; cbn.
  - apply windows2_increasing in E.
    destruct (Nat.eqb (length x) (length data)) eqn:E2; cbn.
    + apply Nat.eqb_eq in E2. split; auto.
    + apply Nat.eqb_neq in E2. split; [discriminate|]. intros [_ H]. congruence.
  - apply windows2_not in E. split; [discriminate|]. tauto.
Qed.
Lemma validate_unsorted : forall T (x : list N) (data : list T),
  validate x data = Err NotSortedError <-> ~ increasing x.
Proof.
  intros T x data. unfold validate.
  destruct (windows2_all_lt x) eqn:E; cbn.
  - apply windows2_increasing in E.
    destruct (Nat.eqb (length x) (length data)); cbn; split; try discriminate; tauto.
  - apply windows2_not in E. tauto.
Qed.
Lemma validate_length : forall T (x : list N) (data : list T),
  validate x data = Err InvalidLengthError <-> increasing x /\ length data <> length x.
Proof.
  intros T x data. unfold validate.
  destruct (windows2_all_lt x) eqn:E; cbn.
  - apply windows2_increasing in E.
    destruct (Nat.eqb (length x) (length data)) eqn:E2; cbn.
    + apply Nat.eqb_eq in E2. split; [discriminate|]. intros [_ H]. congruence.
    + apply Nat.eqb_neq in E2. split; auto.
  - apply windows2_not in E. split; [discriminate|tauto].
Qed.

Lemma for_each_ok : forall A (f : A -> result unit TableInitError) l,
  for_each f l = Ok tt <-> forall a, In a l -> f a = Ok tt.
Proof.
  intros A f l. induction l as [|a r IH]; cbn.
  - split; auto. tauto.
  - destruct (f a) as [[]|e] eqn:E; cbn.
    + rewrite IH. split.
      * intros H b [<-|Hb]; auto.
      * auto.
    + split; [discriminate|]. intros H. rewrite (H a) in E by auto. discriminate.
Qed.

(** C17, 1D: accepted exactly when well formed; the table stores the inputs. *)
Theorem C17_table1_accepted : forall (x : StateVariable * list N) data i t,
  t1_try_new x data i = Ok t <->
  well_formed1 (snd x) data /\ t = mkT1 x data i.
Proof.
  intros [v xs] data i t. unfold t1_try_new, well_formed1. cbn [fst snd].
  destruct (validate xs data) as [[]|e] eqn:E; cbn.
  - apply validate_ok in E. split; [intros [= <-]; auto|]. intros [_ ->]. reflexivity.
  - split; [discriminate|]. intros [H _]. apply validate_ok in H. congruence.
Qed.

(** C17, 2D. *)
Theorem C17_table2_accepted : forall (x y : StateVariable * list N) data i t,
  t2_try_new x y data i = Ok t <->
  well_formed2 (snd x) (snd y) data /\ t = mkT2 x y data i.
Proof.
  intros [v xs] [w ys] data i t. unfold t2_try_new, well_formed2. cbn [fst snd].
  destruct (validate xs data) as [[]|e] eqn:E; cbn.
  - apply validate_ok in E.
    destruct (for_each (fun row => validate ys row) data) as [[]|e] eqn:E2; cbn.
    + rewrite for_each_ok in E2. split.
      * intros [= <-]. split; auto. split; [tauto|]. split; [tauto|].
        intros row Hr. apply validate_ok. auto.
      * intros [_ ->]. reflexivity.
    + split; [discriminate|]. intros [[_ [_ H]] _].
      assert (for_each (fun row => validate ys row) data = Ok tt); [|congruence].
      apply for_each_ok. intros row Hr. apply validate_ok. apply H. exact Hr.
  - split; [discriminate|]. intros [[H1 [H2 _]] _].
    assert (validate xs data = Ok tt) by (apply validate_ok; auto). congruence.
Qed.

(** C17, 3D. *)
Theorem C17_table3_accepted : forall (x y z : StateVariable * list N) data i t,
  t3_try_new x y z data i = Ok t <->
  well_formed3 (snd x) (snd y) (snd z) data /\ t = mkT3 x y z data i.
Proof.
  intros [v xs] [w ys] [u zs] data i t. unfold t3_try_new, well_formed3. cbn [fst snd].
  assert (Hm : forall m, result_bind (validate ys m) (fun _ =>
                  for_each (fun z_data => validate zs z_data) m) = Ok tt <-> well_formed2 ys zs m).
  { intros m. unfold well_formed2. destruct (validate ys m) as [[]|e] eqn:E; cbn.
    - apply validate_ok in E. rewrite for_each_ok. split.
      + intros H. split; [tauto|]. split; [tauto|]. intros row Hr. apply validate_ok. auto.
      + intros [_ [_ H]] row Hr. apply validate_ok. apply H. exact Hr.
    - split; [discriminate|]. intros [H1 [H2 _]].
      assert (validate ys m = Ok tt) by (apply validate_ok; auto). congruence. }
  destruct (validate xs data) as [[]|e] eqn:E; cbn.
  - apply validate_ok in E.
    destruct (for_each _ data) as [[]|e] eqn:E2; cbn.
    + rewrite for_each_ok in E2. split.
      * intros [= <-]. split; auto. split; [tauto|]. split; [tauto|].
        intros m Hin. apply Hm. apply E2. exact Hin.
      * intros [_ ->]. reflexivity.
    + split; [discriminate|]. intros [[_ [_ H]] _].
      exfalso. revert E2. assert (Hok : forall a, In a data -> well_formed2 ys zs a) by exact H.
      intros E2.
      match type of E2 with ?l = _ => assert (l = Ok tt) end; [|congruence].
      apply for_each_ok. intros m Hin. apply Hm. auto.
  - split; [discriminate|]. intros [[H1 [H2 _]] _].
    assert (validate xs data = Ok tt) by (apply validate_ok; auto). congruence.
Qed.

(** C17, error kinds.  An array of bases is checked before the length that goes
    with it; x before y before z. *)
Theorem C17_table1_errors : forall (x : StateVariable * list N) data i,
  (t1_try_new x data i = Err NotSortedError <-> ~ increasing (snd x)) /\
  (t1_try_new x data i = Err InvalidLengthError <->
     increasing (snd x) /\ length data <> length (snd x)).
Proof.
  intros x data i. rewrite <- (validate_unsorted (snd x) data), <- validate_length.
  unfold t1_try_new.
  destruct (validate (snd x) data) as [[]|[]]; cbn; repeat split; congruence.
Qed.

Theorem C17_table2_errors : forall (x y : StateVariable * list N) data i,
  (t2_try_new x y data i = Err NotSortedError <->
     ~ increasing (snd x) \/
     increasing (snd x) /\ length data = length (snd x) /\ data <> [] /\ ~ increasing (snd y)) /\
  (t2_try_new x y data i = Err InvalidLengthError <->
     increasing (snd x) /\
     (length data <> length (snd x) \/
      length data = length (snd x) /\ increasing (snd y) /\
      exists row, In row data /\ length row <> length (snd y))).
Proof.
  intros [v xs] [w ys] data i. cbn [snd]. unfold t2_try_new. cbn [fst snd].
  destruct (validate xs data) as [[]|[]] eqn:E; cbn.
  - apply validate_ok in E. destruct E as [Ex El].
    destruct (windows2_all_lt ys) eqn:Ey.
    + apply windows2_increasing in Ey.
      assert (Hf : (for_each (fun row => validate ys row) data = Ok tt /\
                      forall row, In row data -> length row = length ys) \/
                   (for_each (fun row => validate ys row) data = Err InvalidLengthError /\
                      exists row, In row data /\ length row <> length ys)).
      { clear El. induction data as [|r data IH]; cbn.
        - left. split; auto. tauto.
        - destruct (Nat.eq_dec (length r) (length ys)) as [El|El].
          + rewrite (proj2 (validate_ok ys r)) by auto. cbn.
            destruct IH as [[IH1 IH2]|[IH1 [row [IH2 IH3]]]].
            * left. split; auto. intros row [<-|Hr]; auto.
            * right. split; auto. eauto.
          + rewrite (proj2 (validate_length ys r)) by auto. cbn. right. split; eauto. }
      destruct Hf as [[-> Hf]|[-> Hf]]; cbn; split; split; try discriminate; try tauto.
      intros [_ [H|[_ [_ [row [H1 H2]]]]]]; [congruence|]. rewrite Hf in H2; congruence.
    + apply windows2_not in Ey.
      destruct data as [|r data]; cbn.
      * split; split; try discriminate; tauto.
      * rewrite (proj2 (validate_unsorted ys r)) by auto. cbn.
        split; split; try discriminate; auto; try tauto.
        intros _. right. repeat split; auto. discriminate.
  - apply validate_unsorted in E. split; split; try discriminate; tauto.
  - apply validate_length in E. split; split; try discriminate; try tauto.
Qed.

(** C17: the same for 3D tables: after x, the matrices are checked in order, each
    like the 2D table (y, z, matrix), and the first failure is reported. *)
Theorem C17_table3_errors : forall (x y z : StateVariable * list N) data i e,
  t3_try_new x y z data i = Err e <->
  ~ increasing (snd x) /\ e = NotSortedError \/
  increasing (snd x) /\ length data <> length (snd x) /\ e = InvalidLengthError \/
  increasing (snd x) /\ length data = length (snd x) /\
    exists pre m post, data = pre ++ m :: post /\
      (forall m', In m' pre -> exists t, t2_try_new y z m' i = Ok t) /\
      t2_try_new y z m i = Err e.
Proof.
  intros [v xs] [w ys] [u zs] data i e. cbn [snd]. unfold t3_try_new. cbn [fst snd].
  destruct (validate xs data) as [[]|[]] eqn:E; cbn [result_bind].
  - apply validate_ok in E. destruct E as [Ex El].
    transitivity (exists pre m post, data = pre ++ m :: post /\
      (forall m', In m' pre -> exists t, t2_try_new (w, ys) (u, zs) m' i = Ok t) /\
      t2_try_new (w, ys) (u, zs) m i = Err e); [|tauto].
    match goal with |- context [for_each ?g data] => set (f := g) end.
    transitivity (for_each f data = Err e).
    { destruct (for_each f data) as [[]|e']; cbn; split; congruence. }
    clear Ex El.
    assert (Hf : forall m, (f m = Ok tt <-> exists t, t2_try_new (w, ys) (u, zs) m i = Ok t) /\
                 forall e, f m = Err e <-> t2_try_new (w, ys) (u, zs) m i = Err e).
    { intros m. unfold f, t2_try_new. cbn [fst snd].
      destruct (validate ys m) as [[]|e']; cbn [result_bind].
      - destruct (for_each (fun z_data => validate zs z_data) m) as [[]|e']; cbn;
          repeat split; eauto; try congruence; intros [t Ht]; congruence.
      - repeat split; try congruence. intros [t Ht]; congruence. }
    induction data as [|m data IH]; cbn [for_each result_bind].
    + split; [discriminate|]. intros (pre & m & post & H & _). destruct pre; discriminate.
    + destruct (f m) as [[]|e'] eqn:Em; cbn [result_bind].
      * rewrite IH. split.
        -- intros (pre & m' & post & -> & H1 & H2).
           exists (m :: pre), m', post. split; [reflexivity|]. split; [|exact H2].
           intros m'' [<-|Hin]; [|auto]. apply Hf. exact Em.
        -- intros (pre & m' & post & Hd & H1 & H2).
           destruct pre as [|m0 pre]; cbn in Hd; injection Hd as -> Hd.
           ++ apply Hf in H2. congruence.
           ++ subst data. exists pre, m', post. split; [reflexivity|]. split; [|exact H2].
              intros m'' Hin. apply H1. right. exact Hin.
      * split.
        -- intros [= <-]. exists [], m, data. split; [reflexivity|]. split; [cbn; tauto|].
           apply Hf. exact Em.
        -- intros (pre & m' & post & Hd & H1 & H2).
           destruct pre as [|m0 pre]; cbn in Hd; injection Hd as -> Hd.
           ++ apply Hf in H2. congruence.
           ++ destruct (H1 m0 (or_introl eq_refl)) as [t Ht].
              assert (f m0 = Ok tt) by (apply Hf; eauto). congruence.
  - apply validate_unsorted in E. split.
    + intros [= <-]. auto.
    + intros [[_ ->]|[[H _]|[H _]]]; tauto.
  - apply validate_length in E. split.
    + intros [= <-]. tauto.
    + intros [[H ->]|[[_ [_ ->]]|[_ [H _]]]]; tauto.
Qed.

(** C18: every accepted table can be evaluated in every state. *)
Theorem C18_interpolation_total : forall (t : Table N) (s : State N),
  accepted t -> exists v, at_state t s = Ret v.
Proof.
  intros [t|t|t] s; cbn [accepted at_state].
  - intros (x & data & i & H). apply C17_table1_accepted in H. destruct H as [[_ H] ->].
    unfold t1_at_state. destruct i; cbn. now apply linear_interpolate_total.
  - intros (x & y & data & i & H). apply C17_table2_accepted in H. destruct H as [[_ [H1 H2]] ->].
    unfold t2_at_state. destruct i; cbn. apply bilinear_interpolate_total; [auto|].
    intros row Hr. apply H2. exact Hr.
  - intros (x & y & z & data & i & H). apply C17_table3_accepted in H.
    destruct H as [[_ [H1 H2]] ->].
    unfold t3_at_state. destruct i; cbn. apply trilinear_interpolate_total; [auto|].
    intros m Hm. destruct (H2 m Hm) as [_ [H3 H4]]. split; [auto|].
    intros row Hr. apply H4. exact Hr.
Qed.

(** The default (empty) table is accepted, too. *)
Theorem C18_default_table_accepted : accepted (@default_table N).
Proof. exists (Time, []), [], Linear. reflexivity. Qed.

End Proofs.

(** C17: bases of an accepted table with at least two entries contain no NaN,
    in IEEE arithmetic. *)
Theorem C17_bases_not_nan : forall lm (x data : list (B64 lm)),
  well_formed1 x data -> (2 <= length x)%nat -> forall a, In a x -> is_nan a = false.
Proof.
  intros lm x data [Hi _] Hlen a Hin.
  apply In_nth_error in Hin. destruct Hin as [i Hi'].
  assert (Hlt : (i < length x)%nat) by (apply nth_error_Some; congruence).
  assert (Hnn : forall u v : b64, Bltb u v = true -> is_nan u = false /\ is_nan v = false).
  { intros u v H. unfold Bltb, SpecFloat.SFltb in H.
    destruct u, v; cbn in *; auto; discriminate. }
  destruct (Nat.eq_dec (S i) (length x)) as [E|E].
  - destruct i as [|i]; [lia|].
    destruct (nth_error x i) as [b|] eqn:Eb; [|apply nth_error_None in Eb; lia].
    specialize (Hi i b a Eb Hi'). now apply Hnn in Hi.
  - destruct (nth_error x (S i)) as [b|] eqn:Eb; [|apply nth_error_None in Eb; lia].
    specialize (Hi i a b Hi' Eb). now apply Hnn in Hi.
Qed.

(** ** Concrete cases meeting the hypotheses *)
Section Examples.
Variable lm : libm.
Notation F k := (b64_of_Z k).
Definition ex_x : StateVariable * list (B64 lm) := (MachNumber, [F 0; F 1; F 3]).
Definition ex_t1 : Table1D (B64 lm) := mkT1 ex_x [F 10; F 20; F (-5)] Linear.

(** Bases given by integers in increasing order. *)
Lemma ints_increasing : forall l : list Z,
  windows2_all_lt (N := B64 lm) (map (fun k => F k) l) = true ->
  increasing (N := B64 lm) (map (fun k => F k) l).
Proof. intros l H. now apply windows2_increasing. Qed.

Example ex_t1_accepted : accepted (D1 ex_t1).
Proof.
  exists ex_x, [F 10; F 20; F (-5)], Linear.
  apply C17_table1_accepted. split; [|reflexivity]. split; [|reflexivity].
  apply (ints_increasing [0; 1; 3]%Z). vm_compute. reflexivity.
Qed.

(** Evaluated far outside, at infinity and at NaN. *)
Example ex_t1_total : forall s, exists v, at_state (D1 ex_t1) s = Ret v.
Proof. intros s. apply C18_interpolation_total. apply ex_t1_accepted. Qed.

Example ex_t3_accepted :
  t3_try_new (N := B64 lm) (Time, [F 0; F 1]) (Mass, [F 0]) (Altitude, [F 5; F 6])
    [[[F 1; F 2]]; [[F 3; F 4]]] Linear
  = Ok (mkT3 (N := B64 lm) (Time, [F 0; F 1]) (Mass, [F 0]) (Altitude, [F 5; F 6])
          [[[F 1; F 2]]; [[F 3; F 4]]] Linear).
Proof.
  apply C17_table3_accepted. split; [|reflexivity]. cbn [snd].
  assert (H1 := ints_increasing [0; 1]%Z ltac:(vm_compute; reflexivity)).
  assert (H2 := ints_increasing [0]%Z ltac:(vm_compute; reflexivity)).
  assert (H3 := ints_increasing [5; 6]%Z ltac:(vm_compute; reflexivity)).
  split; [exact H1|]. split; [reflexivity|].
  intros m [<-|[<-|[]]]; (split; [exact H2|]; split; [reflexivity|]);
    intros row [<-|[]]; (split; [exact H3|reflexivity]).
Qed.

(** Equal bases are rejected. *)
Example ex_t2_unsorted :
  t2_try_new (N := B64 lm) (Time, [F 0; F 1]) (Mass, [F 1; F 1]) [[F 1; F 2]; [F 3; F 4]] Linear
  = Err NotSortedError.
Proof.
  apply C17_table2_errors. right. cbn [snd].
  split; [apply (ints_increasing [0; 1]%Z ltac:(vm_compute; reflexivity))|].
  split; [reflexivity|]. split; [discriminate|].
  apply windows2_not. vm_compute. reflexivity.
Qed.
End Examples.
