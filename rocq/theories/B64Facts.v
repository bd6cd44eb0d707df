(** * Facts about IEEE binary64 arithmetic *)
From Coq Require Import ZArith List Reals Lra Lia Bool.
From Flocq Require Import Core BinarySingleNaN.
From Verif Require Import Num B64.
Import ListNotations.
Local Open Scope R_scope.

Notation fexp64 := (SpecFloat.fexp 53 1024).
Notation rnd := (round radix2 fexp64 ZnearestE).
Global Instance fexp64_valid : Valid_exp fexp64.
Proof. apply (fexp_correct 53 1024). exact eq_refl. Qed.

(** The value of a float known through its bits. *)
Lemma lit_0 : b64_lit 0 0 = B754_zero false.
Proof. reflexivity. Qed.
Lemma B2R_lit : forall m e s k x, B2SF (b64_lit m e) = SpecFloat.S754_finite s k x ->
  B2R (b64_lit m e) = F2R (Float radix2 (cond_Zopp s (Zpos k)) x) /\ is_finite (b64_lit m e) = true
  /\ Bsign (b64_lit m e) = s.
Proof.
  intros m e s k x H. destruct (b64_lit m e); cbn in H; try discriminate.
  injection H as -> -> ->. auto.
Qed.
Lemma lit_1 : B2R (b64_lit 1 0) = 1 /\ is_finite (b64_lit 1 0) = true /\ Bsign (b64_lit 1 0) = false.
Proof.
  destruct (B2R_lit 1 0 false 4503599627370496 (-52)) as [A B]; [reflexivity|].
  split; [|exact B]. rewrite A. unfold F2R. cbn. lra.
Qed.

(** Sign classes: NaN belongs to both, zeros of either sign to both. *)
Definition npos (x : b64) : Prop :=
  match x with B754_infinity s | B754_finite s _ _ _ => s = true | _ => True end.
Definition nneg (x : b64) : Prop :=
  match x with B754_infinity s | B754_finite s _ _ _ => s = false | _ => True end.

Lemma sign_npos : forall x, Bsign x = true -> npos x.
Proof. intros [s|s| |s m e H]; cbn; auto. Qed.
Lemma sign_nneg : forall x, is_nan x = true \/ Bsign x = false -> nneg x.
Proof. intros [s|s| |s m e H]; cbn; auto; intros [E|E]; congruence. Qed.
Lemma npos_sign : forall x, npos x -> Bsign x = true \/ is_nan x = true \/ exists s, x = B754_zero s.
Proof. intros [s|s| |s m e H]; cbn; eauto. Qed.
Lemma nneg_sign : forall x, nneg x -> Bsign x = false \/ exists s, x = B754_zero s.
Proof. intros [s|s| |s m e H]; cbn; eauto. Qed.
Lemma npos_B2R : forall x, npos x -> B2R x <= 0.
Proof.
  intros [s|s| |s m e H]; cbn; try lra. intros ->. apply Rlt_le.
  apply F2R_lt_0. reflexivity.
Qed.
Lemma nneg_B2R : forall x, nneg x -> 0 <= B2R x.
Proof.
  intros [s|s| |s m e H]; cbn; try lra. intros ->. apply Rlt_le.
  apply F2R_gt_0. reflexivity.
Qed.
Lemma finite_zero : forall x : b64, is_finite x = true -> B2R x = 0 -> exists s, x = B754_zero s.
Proof.
  intros [s|s| |s m e H] F E; try discriminate; eauto.
  exfalso. cbn in E. destruct s.
  - assert (H0 := F2R_lt_0 radix2 (Float radix2 (Zneg m) e) eq_refl). cbn in *. lra.
  - assert (H0 := F2R_gt_0 radix2 (Float radix2 (Zpos m) e) eq_refl). cbn in *. lra.
Qed.
Lemma overflow_npos : forall x : b64, B2SF x = binary_overflow 53 1024 mode_NE true -> npos x.
Proof. intros [s|s| |s m e H]; cbn; try discriminate; auto. intros E; congruence. Qed.
Lemma overflow_nneg : forall x : b64, B2SF x = binary_overflow 53 1024 mode_NE false -> nneg x.
Proof. intros [s|s| |s m e H]; cbn; try discriminate; auto. intros E; congruence. Qed.
Lemma nneg_npos : forall x, nneg x <-> npos (Bopp x).
Proof.
  intros [s|s| |s m e H]; cbn; try tauto; destruct s; cbn; split; congruence.
Qed.
Lemma npos_nneg : forall x, npos x <-> nneg (Bopp x).
Proof.
  intros [s|s| |s m e H]; cbn; try tauto; destruct s; cbn; split; congruence.
Qed.

Lemma npos_mult : forall x y, nneg x -> npos y -> npos (Bmult mode_NE x y).
Proof.
  intros x y Hx Hy.
  destruct x as [sx|sx| |sx mx ex Ex]; destruct y as [sy|sy| |sy my ey Ey]; cbn in Hx, Hy; subst;
    try exact I; try reflexivity.
  set (x := B754_finite false mx ex Ex : b64). set (y := B754_finite true my ey Ey : b64).
  assert (H := Bmult_correct 53 1024 _ _ mode_NE x y).
  destruct (Rlt_bool _ _).
  - destruct H as [_ [F H]]. apply sign_npos. apply H.
    destruct (Bmult mode_NE x y); auto; discriminate.
  - now apply overflow_npos.
Qed.
Lemma npos_div : forall x y, npos x -> nneg y -> (exists s, y = B754_zero s) \/ npos (Bdiv mode_NE x y).
Proof.
  intros x y Hx Hy.
  destruct x as [sx|sx| |sx mx ex Ex]; destruct y as [sy|sy| |sy my ey Ey]; cbn in Hx, Hy; subst;
    eauto; try (right; exact I); try (right; reflexivity).
  right.
  set (x := B754_finite true mx ex Ex : b64). set (y := B754_finite false my ey Ey : b64).
  assert (H := Bdiv_correct 53 1024 _ _ mode_NE x y).
  assert (NZ : B2R y <> 0).
  { cbn. apply Rgt_not_eq. apply F2R_gt_0. reflexivity. }
  specialize (H NZ). destruct (Rlt_bool _ _).
  - destruct H as [_ [F H]]. apply sign_npos. apply H.
    destruct (Bdiv mode_NE x y); auto; discriminate.
  - now apply overflow_npos.
Qed.
Lemma npos_plus : forall x y, npos x -> npos y -> npos (Bplus mode_NE x y).
Proof.
  intros x y Hx Hy.
  destruct (is_finite x) eqn:Fx; [destruct (is_finite y) eqn:Fy|].
  - assert (H := Bplus_correct 53 1024 _ _ mode_NE x y Fx Fy).
    assert (Sx := npos_B2R x Hx). assert (Sy := npos_B2R y Hy).
    destruct (Rlt_bool_spec (Rabs (round radix2 fexp64 (round_mode mode_NE) (B2R x + B2R y))) (bpow radix2 1024)) as [G|G].
    + destruct H as [E [F S]]. destruct (Rcompare_spec (B2R x + B2R y) 0) as [C|C|C].
      * now apply sign_npos.
      * rewrite C, round_0 in E; auto with typeclass_instances.
        destruct (finite_zero _ F E) as [s ->]. exact I.
      * lra.
    + destruct H as [O SS]. destruct (npos_sign x Hx) as [E|[E|[s E]]].
      * rewrite E in O. now apply overflow_npos.
      * destruct x; discriminate.
      * subst x. destruct (npos_sign y Hy) as [E|[E|[s' E]]].
        -- rewrite E in SS. cbn in SS. subst s. now apply overflow_npos.
        -- destruct y; discriminate.
        -- subst y. cbn in G. rewrite Rplus_0_l, round_0, Rabs_R0 in G; auto with typeclass_instances.
           assert (K := bpow_gt_0 radix2 1024). cbn in K, G. lra.
  - destruct x as [sx|sx| |sx mx ex Ex]; destruct y as [sy|sy| |sy my ey Ey]; cbn in Hx, Hy; subst;
      try discriminate; try exact I; try reflexivity.
  - destruct x as [sx|sx| |sx mx ex Ex]; destruct y as [sy|sy| |sy my ey Ey]; cbn in Hx, Hy; subst;
      try discriminate; try exact I; try reflexivity.
Qed.

Lemma Bltb_nan_l : forall y : b64, Bltb (B754_nan) y = false.
Proof. intros [s|s| |s m e H]; reflexivity. Qed.
Lemma Bltb_nan_r : forall x : b64, Bltb x B754_nan = false.
Proof. intros [s|[]| |[] m e H]; reflexivity. Qed.

(** Adding something not positive does not increase. *)
Lemma plus_npos_le : forall x y, npos y -> Bltb x (Bplus mode_NE x y) = false.
Proof.
  intros x y Hy.
  destruct (is_finite x) eqn:Fx; [destruct (is_finite y) eqn:Fy|].
  - assert (H := Bplus_correct 53 1024 _ _ mode_NE x y Fx Fy).
    assert (Sy := npos_B2R y Hy).
    assert (Rx : rnd (B2R x) = B2R x).
    { apply round_generic; auto with typeclass_instances. apply generic_format_B2R. }
    assert (Le : rnd (B2R x + B2R y) <= B2R x).
    { rewrite <- Rx at 2. apply round_le; auto with typeclass_instances. lra. }
    destruct (Rlt_bool_spec (Rabs (round radix2 fexp64 (round_mode mode_NE) (B2R x + B2R y))) (bpow radix2 1024)) as [G|G].
    + destruct H as [E [F _]]. rewrite Bltb_correct by assumption.
      apply Rlt_bool_false. rewrite E. exact Le.
    + destruct H as [O SS]. destruct (npos_sign y Hy) as [E|[E|[s E]]].
      * rewrite SS, E in O. destruct (Bplus mode_NE x y) as [s|s| |s m e B]; cbn in O; try discriminate.
        injection O as ->. destruct x as [[]|[]| |[] ? ? ?]; reflexivity.
      * destruct y; discriminate.
      * subst y. cbn [B2R round_mode] in G. rewrite Rplus_0_r in G.
        change (round radix2 fexp64 ZnearestE (B2R x)) with (rnd (B2R x)) in G. rewrite Rx in G.
        assert (K := abs_B2R_lt_emax 53 1024 x). exfalso. exact (Rlt_irrefl _ (Rle_lt_trans _ _ _ G K)).
  - destruct y as [sy|sy| |sy my ey Ey]; cbn in Hy; subst; try discriminate.
    + destruct x as [[]|[]| |[] ? ? ?]; try discriminate; reflexivity.
    + destruct x as [[]|[]| |[] ? ? ?]; try discriminate; reflexivity.
  - destruct x as [s|s| |s m e B]; try discriminate;
      destruct y as [sy|sy| |sy my ey Ey]; cbn in Hy; subst; try reflexivity;
      try (destruct s; reflexivity).
Qed.
Lemma not_lt_le : forall x y : b64, is_finite x = true -> is_finite y = true ->
  Bltb x y = false -> B2R y <= B2R x.
Proof.
  intros x y Fx Fy H. rewrite Bltb_correct in H by assumption.
  destruct (Rlt_bool_spec (B2R x) (B2R y)); [discriminate|assumption].
Qed.
