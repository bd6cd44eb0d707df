(** * Facts about binary search and interpolation, for every arithmetic *)
From Coq Require Import ZArith List Arith Lia Bool.
From Verif Require Import Num State Tables.
Import ListNotations.
Set Implicit Arguments.

Lemma index_Ret : forall A (l : list A) i, (i < length l)%nat ->
  exists a, index l i = Ret a /\ nth_error l i = Some a.
Proof.
  intros A l i H. unfold index.
  destruct (nth_error l i) eqn:E; eauto.
  apply nth_error_None in E. lia.
Qed.

Lemma index_nth : forall A (l : list A) i a, nth_error l i = Some a -> index l i = Ret a.
Proof. intros A l i a H. unfold index. now rewrite H. Qed.

Section WithNum.
Context {N : Num}.

(** The loop keeps its range and the fact that the elements just outside the
    range are on the correct side. *)
Lemma partition_loop_spec : forall (l : list N) val fuel left right,
  left <= right <= length l -> right - left <= fuel ->
  (left = 0 \/ exists a, nth_error l (left - 1) = Some a /\ n_ltb a val = true) ->
  (right = length l \/ exists a, nth_error l right = Some a /\ n_ltb a val = false) ->
  let p := partition_loop fuel left right l val in
  p <= length l /\
  (p = 0 \/ exists a, nth_error l (p - 1) = Some a /\ n_ltb a val = true) /\
  (p = length l \/ exists a, nth_error l p = Some a /\ n_ltb a val = false).
Proof.
  intros l val fuel. induction fuel as [|fuel IH]; intros left right Hr Hf Hl Hu; cbn [partition_loop]; cbv zeta.
  - assert (left = right) by lia. subst. auto with arith. 
    repeat split; try lia; auto.
  - destruct (left <? right) eqn:E.
    + apply Nat.ltb_lt in E.
      set (mid := left + (right - left) / 2).
      assert (Hmid : left <= mid < right).
      { unfold mid. assert ((right - left) / 2 < right - left) by (apply Nat.div_lt; lia). lia. }
      fold mid.
      destruct (nth_error l mid) as [a|] eqn:Ea.
      * destruct (n_ltb a val) eqn:Ea'.
        -- apply IH; try lia; auto. right. exists a. 
           replace (S mid - 1) with mid by lia. auto.
        -- apply IH; try lia; auto. right. exists a. auto.
      * apply nth_error_None in Ea. lia.
    + apply Nat.ltb_ge in E. assert (left = right) by lia. subst.
      repeat split; try lia; auto.
Qed.

Lemma partition_point_spec : forall (l : list N) val,
  let p := partition_point l val in
  p <= length l /\
  (p = 0 \/ exists a, nth_error l (p - 1) = Some a /\ n_ltb a val = true) /\
  (p = length l \/ exists a, nth_error l p = Some a /\ n_ltb a val = false).
Proof.
  intros l val. apply partition_loop_spec; auto; lia.
Qed.

(** [get_idx] returns two adjacent indices in range. *)
Lemma get_idx_ok : forall (l : list N) val, 2 <= length l ->
  exists i, get_idx l val = Ret (i, S i) /\ S i < length l /\
    let p := partition_point l val in
    (p = 0 /\ i = 0 \/ p = length l /\ S i = length l - 1 \/
     0 < p < length l /\ S i = p).
Proof.
  intros l val Hlen. unfold get_idx.
  destruct (partition_point_spec l val) as [Hp _].
  set (p := partition_point l val) in *.
  destruct (Nat.eqb p (length l)) eqn:E1.
  - apply Nat.eqb_eq in E1. exists (p - 2).
    unfold usize_sub. replace (1 <=? p) with true by (symmetry; apply Nat.leb_le; lia). cbn [bind].
    replace (1 <=? p - 1) with true by (symmetry; apply Nat.leb_le; lia). cbn [bind].
    replace (S (p - 2)) with (p - 1) by lia.
    replace (p - 1 - 1) with (p - 2) by lia.
    repeat split; try lia.
  - apply Nat.eqb_neq in E1. destruct (Nat.eqb p 0) eqn:E2.
    + apply Nat.eqb_eq in E2. exists 0. cbn. repeat split; try lia.
    + apply Nat.eqb_neq in E2. exists (p - 1). cbn [bind]. unfold usize_sub.
      replace (1 <=? p) with true by (symmetry; apply Nat.leb_le; lia). cbn [bind].
      replace (S (p - 1)) with p by lia.
      repeat split; try lia.
Qed.

(** Shape of well-formed data. *)
Definition wf2 (y_arr : list N) (data : list (list N)) : Prop :=
  forall d, In d data -> length d = length y_arr.
Definition wf3 (y_arr z_arr : list N) (data : list (list (list N))) : Prop :=
  forall d, In d data -> length d = length y_arr /\ wf2 z_arr d.

Lemma linear_interpolate_total : forall (x_arr : list N) x data,
  length x_arr = length data -> exists v, linear_interpolate x_arr x data = Ret v.
Proof.
  intros x_arr x data H. unfold linear_interpolate.
  destruct (Nat.eqb (length data) 0) eqn:E0; [eauto|].
  apply Nat.eqb_neq in E0.
  destruct (Nat.eqb (length data) 1) eqn:E1.
  - apply Nat.eqb_eq in E1. destruct (@index_Ret _ data 0) as [a [-> _]]; [lia|eauto].
  - apply Nat.eqb_neq in E1.
    destruct (@get_idx_ok x_arr x) as [i [-> [Hi _]]]; [lia|]. cbn [bind].
    destruct (@index_Ret _ x_arr i) as [a0 [-> _]]; [lia|].
    destruct (@index_Ret _ x_arr (S i)) as [a1 [-> _]]; [lia|].
    destruct (@index_Ret _ data i) as [b0 [-> _]]; [lia|].
    destruct (@index_Ret _ data (S i)) as [b1 [-> _]]; [lia|].
    cbn [bind]. eauto.
Qed.

Lemma bilinear_interpolate_total : forall (x_arr : list N) x y_arr y data,
  length x_arr = length data -> wf2 y_arr data ->
  exists v, bilinear_interpolate x_arr x y_arr y data = Ret v.
Proof.
  intros x_arr x y_arr y data H Hwf. unfold bilinear_interpolate.
  assert (Hrow : forall i d, nth_error data i = Some d ->
            exists v, linear_interpolate y_arr y d = Ret v).
  { intros i d E. apply linear_interpolate_total. symmetry.
    apply Hwf. eapply nth_error_In; eauto. }
  destruct (Nat.eqb (length data) 0) eqn:E0; [eauto|].
  apply Nat.eqb_neq in E0.
  destruct (Nat.eqb (length data) 1) eqn:E1.
  - apply Nat.eqb_eq in E1. destruct (@index_Ret _ data 0) as [a [-> Ha]]; [lia|].
    cbn [bind]. eauto.
  - apply Nat.eqb_neq in E1.
    destruct (@get_idx_ok x_arr x) as [i [-> [Hi _]]]; [lia|]. cbn [bind].
    destruct (@index_Ret _ x_arr i) as [a0 [-> _]]; [lia|].
    destruct (@index_Ret _ x_arr (S i)) as [a1 [-> _]]; [lia|].
    destruct (@index_Ret _ data i) as [b0 [-> Hb0]]; [lia|].
    destruct (@index_Ret _ data (S i)) as [b1 [-> Hb1]]; [lia|].
    cbn [bind]. 
    destruct (Hrow _ _ Hb0) as [v0 ->]. destruct (Hrow _ _ Hb1) as [v1 ->].
    cbn [bind]. eauto.
Qed.

Lemma trilinear_interpolate_total : forall (x_arr : list N) x y_arr y z_arr z data,
  length x_arr = length data -> wf3 y_arr z_arr data ->
  exists v, trilinear_interpolate x_arr x y_arr y z_arr z data = Ret v.
Proof.
  intros x_arr x y_arr y z_arr z data H Hwf. unfold trilinear_interpolate.
  assert (Hrow : forall i d, nth_error data i = Some d ->
            exists v, bilinear_interpolate y_arr y z_arr z d = Ret v).
  { intros i d E. apply nth_error_In in E. destruct (Hwf _ E).
    apply bilinear_interpolate_total; auto. }
  destruct (Nat.eqb (length data) 0) eqn:E0; [eauto|].
  apply Nat.eqb_neq in E0.
  destruct (Nat.eqb (length data) 1) eqn:E1.
  - apply Nat.eqb_eq in E1. destruct (@index_Ret _ data 0) as [a [-> Ha]]; [lia|].
    cbn [bind]. eauto.
  - apply Nat.eqb_neq in E1.
    destruct (@get_idx_ok x_arr x) as [i [-> [Hi _]]]; [lia|]. cbn [bind].
    destruct (@index_Ret _ x_arr i) as [a0 [-> _]]; [lia|].
    destruct (@index_Ret _ x_arr (S i)) as [a1 [-> _]]; [lia|].
    destruct (@index_Ret _ data i) as [b0 [-> Hb0]]; [lia|].
    destruct (@index_Ret _ data (S i)) as [b1 [-> Hb1]]; [lia|].
    cbn [bind]. 
    destruct (Hrow _ _ Hb0) as [v0 ->]. destruct (Hrow _ _ Hb1) as [v1 ->].
    cbn [bind]. eauto.
Qed.

End WithNum.
