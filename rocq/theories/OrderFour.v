(** * The classical Runge-Kutta scheme has local error O(h^5): real analysis

    Nothing in this file refers to the model.  Vectors of dimension [n] are functions
    [nat -> R] of which the first [n] components matter. *)
From Coq Require Import Reals Lra Lia List FunctionalExtensionality.
From Coquelicot Require Import Coquelicot.
From Coq Require Import List.
Local Open Scope R_scope.

(** ** Equality up to a power of h *)
Definition eqO (m : nat) (u v : R -> R) : Prop :=
  exists M d, 0 < d /\ forall h, Rabs h <= d -> Rabs (u h - v h) <= M * Rabs h ^ m.

Lemma eqO_ext : forall m u v, (forall h, u h = v h) -> eqO m u v.
Proof.
  intros m u v E. exists 0, 1. split; [lra|]. intros h _. rewrite E, Rminus_eq_0, Rabs_R0. lra.
Qed.
Lemma eqO_refl : forall m u, eqO m u u.
Proof. intros m u. apply eqO_ext. reflexivity. Qed.
Lemma eqO_sym : forall m u v, eqO m u v -> eqO m v u.
Proof.
  intros m u v (M & d & Hd & H). exists M, d. split; [exact Hd|]. intros h Hh.
  rewrite Rabs_minus_sym. now apply H.
Qed.
Lemma eqO_bound : forall m u v, eqO m u v ->
  exists M d, 0 < M /\ 0 < d <= 1 /\ forall h, Rabs h <= d -> Rabs (u h - v h) <= M * Rabs h ^ m.
Proof.
  intros m u v (M & d & Hd & H). exists (Rabs M + 1), (Rmin d 1).
  assert (A := Rabs_pos M). split; [lra|]. split; [unfold Rmin; destruct (Rle_dec d 1); lra|].
  intros h Hh. assert (Rabs h <= d) by (eapply Rle_trans; [exact Hh|apply Rmin_l]).
  eapply Rle_trans; [apply H; assumption|]. apply Rmult_le_compat_r; [apply pow_le, Rabs_pos|].
  assert (B := Rle_abs M). lra.
Qed.
Tactic Notation "ob" hyp(H) simple_intropattern(M) simple_intropattern(d) simple_intropattern(Hd) := apply eqO_bound in H; destruct H as (M & d & ? & Hd & H).

Lemma eqO_trans : forall m u v w, eqO m u v -> eqO m v w -> eqO m u w.
Proof.
  intros m u v w H1 H2. ob H1 M1 d1 D1. ob H2 M2 d2 D2.
  exists (M1 + M2), (Rmin d1 d2). split; [apply Rmin_pos; lra|]. intros h Hh.
  assert (A1 := H1 h (Rle_trans _ _ _ Hh (Rmin_l _ _))). assert (A2 := H2 h (Rle_trans _ _ _ Hh (Rmin_r _ _))).
  replace (u h - w h) with ((u h - v h) + (v h - w h)) by ring.
  eapply Rle_trans; [apply Rabs_triang|]. lra.
Qed.
Lemma eqO_add : forall m u u' v v', eqO m u u' -> eqO m v v' -> eqO m (fun h => u h + v h) (fun h => u' h + v' h).
Proof.
  intros m u u' v v' H1 H2. ob H1 M1 d1 D1. ob H2 M2 d2 D2.
  exists (M1 + M2), (Rmin d1 d2). split; [apply Rmin_pos; lra|]. intros h Hh.
  assert (A1 := H1 h (Rle_trans _ _ _ Hh (Rmin_l _ _))). assert (A2 := H2 h (Rle_trans _ _ _ Hh (Rmin_r _ _))).
  replace (u h + v h - (u' h + v' h)) with ((u h - u' h) + (v h - v' h)) by ring.
  eapply Rle_trans; [apply Rabs_triang|]. lra.
Qed.
Lemma eqO_scal : forall m c u u', eqO m u u' -> eqO m (fun h => c * u h) (fun h => c * u' h).
Proof.
  intros m c u u' H. ob H M d D. exists (Rabs c * M), d. split; [lra|]. intros h Hh.
  replace (c * u h - c * u' h) with (c * (u h - u' h)) by ring. rewrite Rabs_mult, Rmult_assoc.
  apply Rmult_le_compat_l; [apply Rabs_pos|now apply H].
Qed.
Lemma eqO_weaken : forall m k u v, (m <= k)%nat -> eqO k u v -> eqO m u v.
Proof.
  intros m k u v L H. ob H M d D. exists M, d. split; [lra|]. intros h Hh.
  eapply Rle_trans; [now apply H|]. apply Rmult_le_compat_l; [lra|].
  replace k with (m + (k - m))%nat by lia. rewrite pow_add.
  rewrite <- (Rmult_1_r (Rabs h ^ m)) at 2. apply Rmult_le_compat_l; [apply pow_le, Rabs_pos|].
  rewrite <- (pow1 (k - m)). apply pow_incr. split; [apply Rabs_pos|lra].
Qed.
Lemma eqO_shift : forall m u v, eqO m u v -> eqO (S m) (fun h => h * u h) (fun h => h * v h).
Proof.
  intros m u v H. ob H M d D. exists M, d. split; [lra|]. intros h Hh.
  replace (h * u h - h * v h) with (h * (u h - v h)) by ring. rewrite Rabs_mult. cbn [pow].
  replace (M * (Rabs h * Rabs h ^ m)) with (Rabs h * (M * Rabs h ^ m)) by ring.
  apply Rmult_le_compat_l; [apply Rabs_pos|now apply H].
Qed.
Definition zero_fun : R -> R := fun _ => 0.
Definition bnd (u : R -> R) : Prop := eqO 0 u zero_fun.
Lemma eqO_mult : forall m u u' v v', bnd u -> bnd v' -> eqO m u u' -> eqO m v v' ->
  eqO m (fun h => u h * v h) (fun h => u' h * v' h).
Proof.
  intros m u u' v v' Bu Bv H1 H2. ob H1 M1 d1 D1. ob H2 M2 d2 D2. ob Bu N1 e1 E1. ob Bv N2 e2 E2.
  unfold zero_fun in *. cbn [pow] in *.
  exists (N1 * M2 + N2 * M1), (Rmin (Rmin d1 d2) (Rmin e1 e2)).
  split; [repeat apply Rmin_pos; lra|]. intros h Hh.
  assert (X1 := Rle_trans _ _ _ Hh (Rmin_l _ _)). assert (X2 := Rle_trans _ _ _ Hh (Rmin_r _ _)).
  assert (A1 := H1 h (Rle_trans _ _ _ X1 (Rmin_l _ _))). assert (A2 := H2 h (Rle_trans _ _ _ X1 (Rmin_r _ _))).
  assert (A3 := Bu h (Rle_trans _ _ _ X2 (Rmin_l _ _))). assert (A4 := Bv h (Rle_trans _ _ _ X2 (Rmin_r _ _))).
  rewrite Rminus_0_r, Rmult_1_r in A3, A4.
  replace (u h * v h - u' h * v' h) with (u h * (v h - v' h) + v' h * (u h - u' h)) by ring.
  eapply Rle_trans; [apply Rabs_triang|]. rewrite !Rabs_mult, Rmult_plus_distr_r, !Rmult_assoc.
  apply Rplus_le_compat; apply Rmult_le_compat; try apply Rabs_pos; assumption.
Qed.
Lemma bnd_trans : forall m u v, eqO m u v -> bnd v -> bnd u.
Proof. intros m u v H B. apply (eqO_trans 0 u v); [apply (eqO_weaken 0 m); [lia|exact H]|exact B]. Qed.
Lemma bnd_const : forall c, bnd (fun _ => c).
Proof. intros c. exists (Rabs c), 1. split; [lra|]. intros h _. unfold zero_fun. rewrite Rminus_0_r. cbn. lra. Qed.
Lemma bnd_id : bnd (fun h => h).
Proof. exists 1, 1. split; [lra|]. intros h Hh. unfold zero_fun. rewrite Rminus_0_r. cbn. lra. Qed.
Lemma bnd_mult : forall u v, bnd u -> bnd v -> bnd (fun h => u h * v h).
Proof.
  intros u v A B. apply (eqO_trans 0 _ (fun h => zero_fun h * zero_fun h)).
  - apply eqO_mult; try assumption. apply eqO_refl.
  - apply eqO_ext. intros h. unfold zero_fun. ring.
Qed.
Lemma bnd_add : forall u v, bnd u -> bnd v -> bnd (fun h => u h + v h).
Proof.
  intros u v A B. apply (eqO_trans 0 _ (fun h => zero_fun h + zero_fun h)).
  - apply eqO_add; assumption.
  - apply eqO_ext. intros h. unfold zero_fun. ring.
Qed.
Lemma bnd_pow : forall k, bnd (fun h => h ^ k).
Proof. induction k as [|k IH]; cbn [pow]; [apply bnd_const|apply bnd_mult; [apply bnd_id|exact IH]]. Qed.

(** Finite sums over the components. *)
Fixpoint sumn (n : nat) (f : nat -> R) : R := match n with O => 0 | S n => sumn n f + f n end.
Lemma sumn_ext : forall n f g, (forall j, (j < n)%nat -> f j = g j) -> sumn n f = sumn n g.
Proof. induction n as [|n IH]; intros f g H; cbn; [reflexivity|]. rewrite (IH f g), H by auto. reflexivity. Qed.
Lemma sumn_add : forall n f g, sumn n (fun j => f j + g j) = sumn n f + sumn n g.
Proof. induction n as [|n IH]; intros f g; cbn; [ring|]. rewrite IH. ring. Qed.
Lemma sumn_scal : forall n c f, sumn n (fun j => c * f j) = c * sumn n f.
Proof. induction n as [|n IH]; intros c f; cbn; [ring|]. rewrite IH. ring. Qed.
Lemma sumn_0 : forall n, sumn n (fun _ => 0) = 0.
Proof. induction n as [|n IH]; cbn; [reflexivity|]. rewrite IH. ring. Qed.
Lemma sumn_abs : forall n f M, 0 <= M -> (forall j, (j < n)%nat -> Rabs (f j) <= M) -> Rabs (sumn n f) <= INR n * M.
Proof.
  induction n as [|n IH]; intros f M HM H; cbn [sumn]; [rewrite Rabs_R0; cbn; lra|].
  rewrite S_INR. eapply Rle_trans; [apply Rabs_triang|]. rewrite Rmult_plus_distr_r, Rmult_1_l.
  apply Rplus_le_compat; [apply IH; auto|apply H; lia].
Qed.
Lemma eqO_sum : forall m n (u v : nat -> R -> R), (forall j, (j < n)%nat -> eqO m (u j) (v j)) ->
  eqO m (fun h => sumn n (fun j => u j h)) (fun h => sumn n (fun j => v j h)).
Proof.
  induction n as [|n IH]; intros u v H; cbn [sumn]; [apply eqO_refl|].
  apply (eqO_add m (fun h => sumn n (fun j => u j h))); [apply IH; auto|apply H; lia].
Qed.
Lemma is_derive_sumn : forall n (f : nat -> R -> R) (d : nat -> R) x,
  (forall j, (j < n)%nat -> is_derive (f j) x (d j)) ->
  is_derive (fun t => sumn n (fun j => f j t)) x (sumn n d).
Proof.
  induction n as [|n IH]; intros f d x H; cbn [sumn]; [exact (is_derive_const (V := R_NormedModule) 0 x)|].
  apply (is_derive_plus (V := R_NormedModule) (fun t => sumn n (fun j => f j t))); [apply IH; auto|apply H; lia].
Qed.
Lemma finite_choice : forall (A : Type) (a0 : A) n (P : nat -> A -> Prop),
  (forall j, (j < n)%nat -> exists x, P j x) -> exists f, forall j, (j < n)%nat -> P j (f j).
Proof.
  intros A a0. induction n as [|n IH]; intros P H; [exists (fun _ => a0); intros j Hj; lia|].
  destruct (IH P) as [f Hf]; [auto|]. destruct (H n) as [x Hx]; [lia|].
  exists (fun j => if Nat.eqb j n then x else f j). intros j Hj.
  destruct (Nat.eqb_spec j n) as [->|E]; [exact Hx|apply Hf; lia].
Qed.
Lemma finite_bound : forall n (P : nat -> R -> R -> Prop),
  (forall j M d M' d', P j M d -> M <= M' -> 0 < d' <= d -> P j M' d') ->
  (forall j, (j < n)%nat -> exists M d, 0 < d /\ P j M d) ->
  exists M d, 0 < M /\ 0 < d <= 1 /\ forall j, (j < n)%nat -> P j M d.
Proof.
  intros n P Hm. induction n as [|n IH]; intros H.
  - exists 1, 1. split; [lra|]. split; [lra|]. intros j Hj. lia.
  - destruct IH as (M & d & HM & Hd & IH); [auto|]. destruct (H n) as (M' & d' & Hd' & H'); [lia|].
    exists (Rmax M M'), (Rmin d d'). assert (A := Rmax_l M M'). assert (B := Rmax_r M M').
    assert (C := Rmin_l d d'). assert (D := Rmin_r d d').
    assert (Q : 0 < Rmin d d') by (apply Rmin_pos; lra).
    split; [lra|]. split; [lra|]. intros j Hj.
    destruct (Nat.eq_dec j n) as [->|E].
    + apply (Hm n M' d'); [exact H'|lra|lra].
    + apply (Hm j M d); [apply IH; lia|lra|lra].
Qed.

(** ** Third-order expansions in h *)
Definition poly (a0 a1 a2 a3 h : R) : R := a0 + a1 * h + a2 * h ^ 2 + a3 * h ^ 3.
Definition ap (a0 a1 a2 a3 : R) (u : R -> R) : Prop := eqO 4 u (poly a0 a1 a2 a3).
Lemma poly_bnd : forall a0 a1 a2 a3, bnd (poly a0 a1 a2 a3).
Proof.
  intros. unfold poly. repeat apply bnd_add; try apply bnd_const; apply bnd_mult;
    try apply bnd_const; try apply bnd_id; apply bnd_pow.
Qed.
Lemma ap_bnd : forall a0 a1 a2 a3 u, ap a0 a1 a2 a3 u -> bnd u.
Proof. intros a0 a1 a2 a3 u H. exact (bnd_trans 4 _ _ H (poly_bnd _ _ _ _)). Qed.
Lemma ap_add : forall a0 a1 a2 a3 b0 b1 b2 b3 u v, ap a0 a1 a2 a3 u -> ap b0 b1 b2 b3 v ->
  ap (a0 + b0) (a1 + b1) (a2 + b2) (a3 + b3) (fun h => u h + v h).
Proof.
  intros a0 a1 a2 a3 b0 b1 b2 b3 u v H1 H2. eapply eqO_trans; [apply (eqO_add _ _ _ _ _ H1 H2)|].
  apply eqO_ext. intros h. unfold poly. ring.
Qed.
Lemma ap_scal : forall c a0 a1 a2 a3 u, ap a0 a1 a2 a3 u ->
  ap (c * a0) (c * a1) (c * a2) (c * a3) (fun h => c * u h).
Proof.
  intros c a0 a1 a2 a3 u H. eapply eqO_trans; [apply (eqO_scal _ c _ _ H)|].
  apply eqO_ext. intros h. unfold poly. ring.
Qed.
Lemma ap_const : forall c, ap c 0 0 0 (fun _ => c).
Proof. intros c. apply eqO_ext. intros h. unfold poly. ring. Qed.
Lemma ap_shift : forall a0 a1 a2 a3 u, ap a0 a1 a2 a3 u -> ap 0 a0 a1 a2 (fun h => h * u h).
Proof.
  intros a0 a1 a2 a3 u H. apply eqO_shift in H. apply (eqO_weaken 4) in H; [|lia].
  eapply eqO_trans; [exact H|]. exists (Rabs a3), 1. split; [lra|]. intros h Hh. unfold poly.
  match goal with |- Rabs ?x <= _ => replace x with (a3 * h ^ 4) by ring end.
  rewrite Rabs_mult, RPow_abs. lra.
Qed.
Lemma ap_mult : forall a0 a1 a2 a3 b0 b1 b2 b3 u v, ap a0 a1 a2 a3 u -> ap b0 b1 b2 b3 v ->
  ap (a0 * b0) (a0 * b1 + a1 * b0) (a0 * b2 + a1 * b1 + a2 * b0) (a0 * b3 + a1 * b2 + a2 * b1 + a3 * b0)
    (fun h => u h * v h).
Proof.
  intros a0 a1 a2 a3 b0 b1 b2 b3 u v H1 H2.
  eapply eqO_trans; [apply (eqO_mult 4 _ _ _ _ (ap_bnd _ _ _ _ _ H1) (poly_bnd _ _ _ _) H1 H2)|].
  set (r := fun h => (a1 * b3 + a2 * b2 + a3 * b1) + (a2 * b3 + a3 * b2) * h + (a3 * b3) * h ^ 2).
  assert (B : bnd r).
  { unfold r. repeat apply bnd_add; try apply bnd_const; apply bnd_mult; try apply bnd_const; try apply bnd_id; apply bnd_pow. }
  ob B M d D. exists M, d. split; [lra|]. intros h Hh.
  match goal with |- Rabs ?x <= _ => replace x with (r h * h ^ 4) by (unfold r, poly; ring) end.
  rewrite Rabs_mult, RPow_abs. apply Rmult_le_compat_r; [apply Rabs_pos|].
  specialize (B h Hh). unfold zero_fun in B. rewrite Rminus_0_r in B. cbn in B. lra.
Qed.
Lemma ap_sum : forall n (a0 a1 a2 a3 : nat -> R) (u : nat -> R -> R),
  (forall j, (j < n)%nat -> ap (a0 j) (a1 j) (a2 j) (a3 j) (u j)) ->
  ap (sumn n a0) (sumn n a1) (sumn n a2) (sumn n a3) (fun h => sumn n (fun j => u j h)).
Proof.
  induction n as [|n IH]; intros a0 a1 a2 a3 u H; cbn [sumn].
  - apply eqO_ext. intros h. unfold poly. ring.
  - apply (ap_add _ _ _ _ _ _ _ _ (fun h => sumn n (fun j => u j h)) (u n)); [apply IH; auto|apply H; lia].
Qed.
Lemma ap_eq : forall a0 a1 a2 a3 b0 b1 b2 b3 u, ap a0 a1 a2 a3 u ->
  a0 = b0 -> a1 = b1 -> a2 = b2 -> a3 = b3 -> ap b0 b1 b2 b3 u.
Proof. intros. subst. assumption. Qed.
Lemma ap_ext : forall a0 a1 a2 a3 u v, (forall h, v h = u h) -> ap a0 a1 a2 a3 u -> ap a0 a1 a2 a3 v.
Proof. intros a0 a1 a2 a3 u v E H. eapply eqO_trans; [apply eqO_ext; exact E|exact H]. Qed.

(** ** Smooth functions of [n] variables and their Taylor expansion *)
Section Smooth.
Variable n : nat.
Definition near (d : R) (z z' : nat -> R) : Prop := forall j, (j < n)%nat -> Rabs (z' j - z j) < d.
Definition continuous_at (g : (nat -> R) -> R) (z : nat -> R) : Prop :=
  forall e, 0 < e -> exists d, 0 < d /\ forall z', near d z z' -> Rabs (g z' - g z) < e.
(** [g] is [k] times continuously differentiable on [U]: [D j] is the j-th partial derivative,
    and the derivative of [g] in the direction [w] is [sum_j D_j w_j]. *)
Fixpoint smooth (k : nat) (U : (nat -> R) -> Prop) (g : (nat -> R) -> R) : Prop :=
  match k with
  | O => forall z, U z -> continuous_at g z
  | S k => exists D : nat -> (nat -> R) -> R,
      (forall j, (j < n)%nat -> smooth k U (D j)) /\
      forall z w, U z -> is_derive (fun x => g (fun j => z j + x * w j)) 0 (sumn n (fun j => D j z * w j))
  end.

(** Polynomials of degree three. *)
Record cubic := Cubic { c0 : R; cA : nat -> R; cB : nat -> nat -> R; cC : nat -> nat -> nat -> R }.
Definition lin (A : nat -> R) (w : nat -> R) : R := sumn n (fun j => A j * w j).
Definition bil (B : nat -> nat -> R) (v w : nat -> R) : R := sumn n (fun j => sumn n (fun k => B j k * w k) * v j).
Definition tri (C : nat -> nat -> nat -> R) (u v w : nat -> R) : R :=
  sumn n (fun j => sumn n (fun k => sumn n (fun l => C j k l * w l) * v k) * u j).
Definition cubic_at (T : cubic) (w : nat -> R) : R :=
  c0 T + lin (cA T) w + / 2 * bil (cB T) w w + / 6 * tri (cC T) w w w.
(** [T] is the third-order expansion of [g] at [z]. *)
Definition expands (g : (nat -> R) -> R) (z : nat -> R) (T : cubic) : Prop :=
  c0 T = g z /\
  exists M d, 0 < d /\ forall e w, 0 <= e <= d -> (forall j, (j < n)%nat -> Rabs (w j) <= e) ->
    Rabs (g (fun j => z j + w j) - cubic_at T w) <= M * e ^ 4.

Lemma mvt_bound : forall (f f' : R -> R) M, 0 <= M -> f 0 = 0 ->
  (forall x, 0 <= x <= 1 -> is_derive f x (f' x)) -> (forall x, 0 <= x <= 1 -> Rabs (f' x) <= M) ->
  forall x, 0 <= x <= 1 -> Rabs (f x) <= M.
Proof.
  intros f f' M HM H0 Hd Hb x Hx.
  destruct (MVT_gen f 0 x f') as (c & Hc & E).
  - intros y Hy. apply Hd. revert Hy. rewrite Rmin_left, Rmax_right by lra. lra.
  - intros y Hy. revert Hy. rewrite Rmin_left, Rmax_right by lra. intros Hy.
    apply continuity_pt_filterlim. apply (ex_derive_continuous (V := R_NormedModule)). exists (f' y). apply Hd. lra.
  - revert Hc. rewrite Rmin_left, Rmax_right by lra. intros Hc.
    replace (f x) with (f' c * (x - 0)) by lra. rewrite Rabs_mult.
    replace M with (M * 1) by ring.
    apply Rmult_le_compat; try apply Rabs_pos; [apply Hb; lra|]. rewrite Rminus_0_r, Rabs_pos_eq; lra.
Qed.
Ltac dv v H := match goal with |- context [Derive ?q ?x] =>
  replace (Derive q x) with v by (symmetry; apply is_derive_unique; exact H) end; field.
Lemma remainder : forall (f f1 f2 f3 f4 : R -> R) M, 0 <= M ->
  (forall x, 0 <= x <= 1 -> is_derive f x (f1 x)) -> (forall x, 0 <= x <= 1 -> is_derive f1 x (f2 x)) ->
  (forall x, 0 <= x <= 1 -> is_derive f2 x (f3 x)) -> (forall x, 0 <= x <= 1 -> is_derive f3 x (f4 x)) ->
  (forall x, 0 <= x <= 1 -> Rabs (f4 x) <= M) ->
  Rabs (f 1 - (f 0 + f1 0 + / 2 * f2 0 + / 6 * f3 0)) <= M.
Proof.
  intros f f1 f2 f3 f4 M HM D0 D1 D2 D3 Hb.
  assert (B3 := mvt_bound (fun x => f3 x - f3 0) f4 M HM (Rminus_eq_0 _)).
  assert (B2 := mvt_bound (fun x => f2 x - (f2 0 + x * f3 0)) (fun x => f3 x - f3 0) M HM).
  assert (B1 := mvt_bound (fun x => f1 x - (f1 0 + x * f2 0 + / 2 * x ^ 2 * f3 0))
    (fun x => f2 x - (f2 0 + x * f3 0)) M HM).
  assert (B0 := mvt_bound (fun x => f x - (f 0 + x * f1 0 + / 2 * x ^ 2 * f2 0 + / 6 * x ^ 3 * f3 0))
    (fun x => f1 x - (f1 0 + x * f2 0 + / 2 * x ^ 2 * f3 0)) M HM).
  assert (E : f 0 + f1 0 + / 2 * f2 0 + / 6 * f3 0 = f 0 + 1 * f1 0 + / 2 * 1 ^ 2 * f2 0 + / 6 * 1 ^ 3 * f3 0) by ring.
  rewrite E. apply B0; [ring| | |lra].
  - intros x Hx. specialize (D0 x Hx). auto_derive; [exists (f1 x); exact D0|].
    dv (f1 x) D0.
  - apply B1; [ring| |].
    + intros x Hx. specialize (D1 x Hx). auto_derive; [exists (f2 x); exact D1|].
      dv (f2 x) D1.
    + apply B2; [ring| |].
      * intros x Hx. specialize (D2 x Hx). auto_derive; [exists (f3 x); exact D2|].
        dv (f3 x) D2.
      * apply B3; [|exact Hb].
        intros x Hx. specialize (D3 x Hx). auto_derive; [exists (f4 x); exact D3|].
        dv (f4 x) D3.
Qed.

Lemma along_line : forall (U : (nat -> R) -> Prop) g D z w x,
  (forall z w, U z -> is_derive (fun x => g (fun j => z j + x * w j)) 0 (sumn n (fun j => D j z * w j))) ->
  U (fun j => z j + x * w j) ->
  is_derive (fun x => g (fun j => z j + x * w j)) x (sumn n (fun j => D j (fun j => z j + x * w j) * w j)).
Proof.
  intros U g D z w x H Hu. specialize (H (fun j => z j + x * w j) w Hu). cbv beta in H.
  apply (is_derive_ext (fun t => (fun y => g (fun j => z j + x * w j + y * w j)) (t - x))).
  - intros t. cbv beta. f_equal. apply functional_extensionality. intros j. ring.
  - evar_last.
    + apply (is_derive_comp (V := R_NormedModule) (fun y => g (fun j => z j + x * w j + y * w j)) (fun t => t - x)).
      * replace (x - x) with 0 by ring. exact H.
      * apply (is_derive_minus (V := R_NormedModule)); [apply (is_derive_id (K := R_AbsRing))|apply (is_derive_const (V := R_NormedModule))].
    + unfold minus, plus, opp, zero, one, scal; cbn. unfold mult; cbn. ring.
Qed.

Theorem smooth_expands : forall g z r, 0 < r -> smooth 4 (near r z) g -> exists T, expands g z T.
Proof.
  intros g z r Hr (D & SD & HD).
  destruct (finite_choice _ (fun _ _ => 0) n _ SD) as [E SE].
  assert (SE2 : forall j, (j < n)%nat -> exists F : nat -> nat -> (nat -> R) -> R, forall k, (k < n)%nat ->
    (forall l, (l < n)%nat -> smooth 1 (near r z) (F k l)) /\
    forall z' w, near r z z' -> is_derive (fun x => E j k (fun j => z' j + x * w j)) 0 (sumn n (fun l => F k l z' * w l))).
  { intros j Hj. destruct (SE j Hj) as [X _]. exact (finite_choice _ (fun _ _ => 0) n _ X). }
  destruct (finite_choice _ (fun _ _ _ => 0) n _ SE2) as [F SF]. clear SE2.
  assert (SF2 : forall j, (j < n)%nat -> exists G : nat -> nat -> nat -> (nat -> R) -> R, forall k, (k < n)%nat ->
    forall l, (l < n)%nat -> (forall m, (m < n)%nat -> smooth 0 (near r z) (G k l m)) /\
    forall z' w, near r z z' -> is_derive (fun x => F j k l (fun j => z' j + x * w j)) 0 (sumn n (fun m => G k l m z' * w m))).
  { intros j Hj. apply (finite_choice _ (fun _ _ _ => 0) n (fun k G => forall l, (l < n)%nat ->
      (forall m, (m < n)%nat -> smooth 0 (near r z) (G l m)) /\ forall z' w, near r z z' ->
      is_derive (fun x => F j k l (fun j => z' j + x * w j)) 0 (sumn n (fun m => G l m z' * w m)))).
    intros k Hk. destruct (SF j Hj k Hk) as [X _]. exact (finite_choice _ (fun _ _ => 0) n _ X). }
  destruct (finite_choice _ (fun _ _ _ _ => 0) n _ SF2) as [G SG]. clear SF2.
  (* the fourth derivatives are bounded *)
  assert (BG : exists K d, 0 < K /\ 0 < d <= 1 /\ forall j, (j < n)%nat -> forall k, (k < n)%nat ->
    forall l, (l < n)%nat -> forall m, (m < n)%nat -> forall z', near d z z' -> Rabs (G j k l m z') <= K).
  { assert (W : forall d d' z', near d' z z' -> d' <= d -> near d z z').
    { intros d d' z' H L i Hi. specialize (H i Hi). lra. }
    apply (finite_bound n (fun j K d => forall k, (k < n)%nat ->
      forall l, (l < n)%nat -> forall m, (m < n)%nat -> forall z', near d z z' -> Rabs (G j k l m z') <= K)).
    { intros j M d M' d' H L1 L2 k Hk l Hl m Hm z' Hz. eapply Rle_trans; [apply H; eauto|exact L1]. apply (W d d'); [exact Hz|lra]. }
    intros j Hj.
    assert (Q : exists K d, 0 < K /\ 0 < d <= 1 /\ forall k, (k < n)%nat ->
      forall l, (l < n)%nat -> forall m, (m < n)%nat -> forall z', near d z z' -> Rabs (G j k l m z') <= K).
    2: { destruct Q as (K & d & _ & Hd & Q). exists K, d. split; [lra|exact Q]. }
    apply (finite_bound n (fun k K d =>
      forall l, (l < n)%nat -> forall m, (m < n)%nat -> forall z', near d z z' -> Rabs (G j k l m z') <= K)).
    { intros k M d M' d' H L1 L2 l Hl m Hm z' Hz. eapply Rle_trans; [apply H; eauto|exact L1]. apply (W d d'); [exact Hz|lra]. }
    intros k Hk.
    assert (Q : exists K d, 0 < K /\ 0 < d <= 1 /\
      forall l, (l < n)%nat -> forall m, (m < n)%nat -> forall z', near d z z' -> Rabs (G j k l m z') <= K).
    2: { destruct Q as (K & d & _ & Hd & Q). exists K, d. split; [lra|exact Q]. }
    apply (finite_bound n (fun l K d =>
      forall m, (m < n)%nat -> forall z', near d z z' -> Rabs (G j k l m z') <= K)).
    { intros l M d M' d' H L1 L2 m Hm z' Hz. eapply Rle_trans; [apply H; eauto|exact L1]. apply (W d d'); [exact Hz|lra]. }
    intros l Hl.
    assert (Q : exists K d, 0 < K /\ 0 < d <= 1 /\
      forall m, (m < n)%nat -> forall z', near d z z' -> Rabs (G j k l m z') <= K).
    2: { destruct Q as (K & d & _ & Hd & Q). exists K, d. split; [lra|exact Q]. }
    apply (finite_bound n (fun m K d => forall z', near d z z' -> Rabs (G j k l m z') <= K)).
    { intros m M d M' d' H L1 L2 z' Hz. eapply Rle_trans; [apply H; eauto|exact L1]. apply (W d d'); [exact Hz|lra]. }
    intros m Hm. destruct (SG j Hj k Hk l Hl) as [X _]. specialize (X m Hm z).
    assert (Z : near r z z) by (intros i _; rewrite Rminus_eq_0, Rabs_R0; exact Hr).
    destruct (X Z 1 Rlt_0_1) as (d & Hd & C). exists (Rabs (G j k l m z) + 1), d. split; [exact Hd|].
    intros z' Hz. specialize (C z' Hz).
    replace (G j k l m z') with ((G j k l m z' - G j k l m z) + G j k l m z) by ring.
    eapply Rle_trans; [apply Rabs_triang|]. lra. }
  destruct BG as (K & d & HK & Hd & BG).
  exists (Cubic (g z) (fun j => D j z) (fun j k => E j k z) (fun j k l => F j k l z)).
  split; [reflexivity|].
  exists (INR n * (INR n * (INR n * (INR n * K)))), (Rmin d r / 2).
  assert (P1 := Rmin_l d r). assert (P2 := Rmin_r d r). assert (P3 : 0 < Rmin d r) by (apply Rmin_pos; lra).
  split; [lra|]. intros e w He Hw.
  assert (L : forall x c, 0 <= x <= 1 -> Rmin d r <= c -> near c z (fun j => z j + x * w j)).
  { intros x c Hx Hc j Hj. replace (z j + x * w j - z j) with (x * w j) by ring. rewrite Rabs_mult, (Rabs_pos_eq x) by lra.
    specialize (Hw j Hj). assert (A := Rabs_pos (w j)). nra. }
  set (zt := fun x : R => fun j => z j + x * w j).
  assert (N0 := pos_INR n).
  assert (R4 := remainder (fun x => g (zt x))
    (fun x => sumn n (fun j => D j (zt x) * w j))
    (fun x => sumn n (fun j => sumn n (fun k => E j k (zt x) * w k) * w j))
    (fun x => sumn n (fun j => sumn n (fun k => sumn n (fun l => F j k l (zt x) * w l) * w k) * w j))
    (fun x => sumn n (fun j => sumn n (fun k => sumn n (fun l => sumn n (fun m => G j k l m (zt x) * w m) * w l) * w k) * w j))
    (INR n * (INR n * (INR n * (INR n * (K * e) * e) * e) * e))).
  assert (SC : forall (f : R -> R) (f' c x : R), is_derive f x f' -> is_derive (fun y => f y * c) x (f' * c)).
  { intros f f' c x H. apply (is_derive_scal_l (V := R_NormedModule) f x f' c H). }
  assert (Z0 : zt 0 = z) by (apply functional_extensionality; intros j; unfold zt; ring).
  assert (Z1 : zt 1 = fun j => z j + w j) by (apply functional_extensionality; intros j; unfold zt; ring).
  cbv beta in R4. rewrite Z0, Z1 in R4. unfold cubic_at, lin, bil, tri. cbn [c0 cA cB cC].
  eapply Rle_trans; [apply R4|].
  - assert (0 <= e) by lra. repeat (apply Rmult_le_pos; try assumption). lra.
  - intros x Hx. apply (along_line (near r z) g D z w x HD). apply L; [exact Hx|lra].
  - intros x Hx. apply (is_derive_sumn n (fun j x => D j (zt x) * w j)
      (fun j => sumn n (fun k => E j k (zt x) * w k) * w j)). intros j Hj.
    apply SC. destruct (SE j Hj) as [_ X]. apply (along_line (near r z) (D j) (E j) z w x X). apply L; [exact Hx|lra].
  - intros x Hx. apply (is_derive_sumn n (fun j x => sumn n (fun k => E j k (zt x) * w k) * w j)
      (fun j => sumn n (fun k => sumn n (fun l => F j k l (zt x) * w l) * w k) * w j)). intros j Hj.
    apply SC. apply (is_derive_sumn n (fun k x => E j k (zt x) * w k) (fun k => sumn n (fun l => F j k l (zt x) * w l) * w k)).
    intros k Hk. apply SC. destruct (SF j Hj k Hk) as [_ X].
    apply (along_line (near r z) (E j k) (F j k) z w x X). apply L; [exact Hx|lra].
  - intros x Hx. apply (is_derive_sumn n
      (fun j x => sumn n (fun k => sumn n (fun l => F j k l (zt x) * w l) * w k) * w j)
      (fun j => sumn n (fun k => sumn n (fun l => sumn n (fun m => G j k l m (zt x) * w m) * w l) * w k) * w j)). intros j Hj.
    apply SC. apply (is_derive_sumn n (fun k x => sumn n (fun l => F j k l (zt x) * w l) * w k)
      (fun k => sumn n (fun l => sumn n (fun m => G j k l m (zt x) * w m) * w l) * w k)).
    intros k Hk. apply SC. apply (is_derive_sumn n (fun l x => F j k l (zt x) * w l)
      (fun l => sumn n (fun m => G j k l m (zt x) * w m) * w l)). intros l Hl. apply SC.
    destruct (SG j Hj k Hk l Hl) as [_ X].
    apply (along_line (near r z) (F j k l) (G j k l) z w x X). apply L; [exact Hx|lra].
  - intros x Hx.
    assert (SM : forall (f : nat -> R) X, 0 <= X -> (forall j, (j < n)%nat -> Rabs (f j) <= X) ->
      Rabs (sumn n (fun j => f j * w j)) <= INR n * (X * e)).
    { intros f X HX Hf. apply sumn_abs; [apply Rmult_le_pos; lra|]. intros j Hj. rewrite Rabs_mult.
      apply Rmult_le_compat; try apply Rabs_pos; [apply Hf; exact Hj|apply Hw; exact Hj]. }
    assert (0 <= e) by lra.
    apply SM; [repeat (apply Rmult_le_pos; try assumption); lra|]. intros j Hj.
    apply SM; [repeat (apply Rmult_le_pos; try assumption); lra|]. intros k Hk.
    apply SM; [repeat (apply Rmult_le_pos; try assumption); lra|]. intros l Hl.
    apply SM; [lra|]. intros m Hm. apply BG; try assumption. apply L; [exact Hx|lra].
  - right. ring.
Qed.
End Smooth.

(** ** The scheme and the exact solution *)
Section Scheme.
Variable n : nat.
Variable G : (nat -> R) -> nat -> R.
Variable z : nat -> R.
(** The stages of the classical scheme for [y' = G y] from [z], and the increment. *)
Definition k1 (i : nat) : R := G z i.
Definition k2 (h : R) (i : nat) : R := G (fun j => z j + h / 2 * k1 j) i.
Definition k3 (h : R) (i : nat) : R := G (fun j => z j + h / 2 * k2 h j) i.
Definition k4 (h : R) (i : nat) : R := G (fun j => z j + h * k3 h j) i.
Definition increment (h : R) (i : nat) : R := h / 6 * (k1 i + 2 * k2 h i + 2 * k3 h i + k4 h i).

Variable T : nat -> cubic.
Hypothesis HT : forall i, (i < n)%nat -> expands n (fun x => G x i) z (T i).
Notation A i := (lin n (cA (T i))).
Notation B i := (bil n (cB (T i))).
Notation C i := (tri n (cC (T i))).

Lemma ap_order1 : forall a b c u, ap 0 a b c u -> eqO 1 u zero_fun.
Proof.
  intros a b c u H. apply (eqO_trans 1 _ (poly 0 a b c)); [apply (eqO_weaken 1 4); [lia|exact H]|].
  apply (eqO_trans 1 _ (fun h => h * (poly a b c 0 h))); [apply eqO_ext; intros h; unfold poly; ring|].
  apply (eqO_trans 1 _ (fun h => h * zero_fun h)); [|apply eqO_ext; intros h; unfold zero_fun; ring].
  apply eqO_shift. apply poly_bnd.
Qed.
Lemma ap_T : forall (w : nat -> R -> R) a b c, (forall j, (j < n)%nat -> ap 0 (a j) (b j) (c j) (w j)) ->
  forall i, ap (c0 (T i)) (A i a) (A i b + / 2 * B i a a) (A i c + / 2 * (B i a b + B i b a) + / 6 * C i a a a)
    (fun h => cubic_at n (T i) (fun j => w j h)).
Proof.
  intros w a b c H i. unfold cubic_at.
  assert (L : ap 0 (A i a) (A i b) (A i c) (fun h => A i (fun j => w j h))).
  { unfold lin. eapply ap_eq; [apply (ap_sum n (fun j => cA (T i) j * 0) (fun j => cA (T i) j * a j)
      (fun j => cA (T i) j * b j) (fun j => cA (T i) j * c j) (fun j h => cA (T i) j * w j h))|..]; try reflexivity.
    - intros j Hj. apply ap_scal. now apply H.
    - rewrite sumn_ext with (g := fun _ => 0) by (intros; ring). apply sumn_0. }
  assert (Q : ap 0 0 (B i a a) (B i a b + B i b a) (fun h => B i (fun j => w j h) (fun j => w j h))).
  { unfold bil. rewrite <- (sumn_0 n) at 1. rewrite <- (sumn_0 n) at 1. rewrite <- sumn_add.
    apply (ap_sum n (fun _ => 0) (fun _ => 0) _ _ (fun j h => sumn n (fun k => cB (T i) j k * w k h) * w j h)).
    intros j Hj.
    assert (I : ap 0 (sumn n (fun k => cB (T i) j k * a k)) (sumn n (fun k => cB (T i) j k * b k))
      (sumn n (fun k => cB (T i) j k * c k)) (fun h => sumn n (fun k => cB (T i) j k * w k h))).
    { eapply ap_eq; [apply (ap_sum n (fun k => cB (T i) j k * 0) (fun k => cB (T i) j k * a k)
        (fun k => cB (T i) j k * b k) (fun k => cB (T i) j k * c k) (fun k h => cB (T i) j k * w k h))|..]; try reflexivity.
      - intros k Hk. apply ap_scal. now apply H.
      - rewrite sumn_ext with (g := fun _ => 0) by (intros; ring). apply sumn_0. }
    eapply ap_eq; [apply (ap_mult _ _ _ _ _ _ _ _ _ _ I (H j Hj))|ring..]. }
  assert (Z : ap 0 0 0 (C i a a a) (fun h => C i (fun j => w j h) (fun j => w j h) (fun j => w j h))).
  { unfold tri. rewrite <- (sumn_0 n) at 1. rewrite <- (sumn_0 n) at 1. rewrite <- (sumn_0 n) at 1.
    apply (ap_sum n (fun _ => 0) (fun _ => 0) (fun _ => 0) _
      (fun j h => sumn n (fun k => sumn n (fun l => cC (T i) j k l * w l h) * w k h) * w j h)).
    intros j Hj.
    assert (I2 : ap 0 0 (sumn n (fun k => sumn n (fun l => cC (T i) j k l * a l) * a k))
      (sumn n (fun k => sumn n (fun l => cC (T i) j k l * a l) * b k + sumn n (fun l => cC (T i) j k l * b l) * a k))
      (fun h => sumn n (fun k => sumn n (fun l => cC (T i) j k l * w l h) * w k h))).
    { rewrite <- (sumn_0 n) at 1. rewrite <- (sumn_0 n) at 1.
      apply (ap_sum n (fun _ => 0) (fun _ => 0) _ _ (fun k h => sumn n (fun l => cC (T i) j k l * w l h) * w k h)).
      intros k Hk.
      assert (I : ap 0 (sumn n (fun l => cC (T i) j k l * a l)) (sumn n (fun l => cC (T i) j k l * b l))
        (sumn n (fun l => cC (T i) j k l * c l)) (fun h => sumn n (fun l => cC (T i) j k l * w l h))).
      { eapply ap_eq; [apply (ap_sum n (fun l => cC (T i) j k l * 0) (fun l => cC (T i) j k l * a l)
          (fun l => cC (T i) j k l * b l) (fun l => cC (T i) j k l * c l) (fun l h => cC (T i) j k l * w l h))|..]; try reflexivity.
        - intros l Hl. apply ap_scal. now apply H.
        - rewrite sumn_ext with (g := fun _ => 0) by (intros; ring). apply sumn_0. }
      eapply ap_eq; [apply (ap_mult _ _ _ _ _ _ _ _ _ _ I (H k Hk))|ring..]. }
    eapply ap_eq; [apply (ap_mult _ _ _ _ _ _ _ _ _ _ I2 (H j Hj))|ring..]. }
  assert (S1 := ap_add _ _ _ _ _ _ _ _ _ _ (ap_const (c0 (T i))) L).
  assert (S2 := ap_add _ _ _ _ _ _ _ _ _ _ S1 (ap_scal (/ 2) _ _ _ _ _ Q)).
  assert (S3 := ap_add _ _ _ _ _ _ _ _ _ _ S2 (ap_scal (/ 6) _ _ _ _ _ Z)).
  cbv beta in S3. eapply ap_eq; [exact S3|..].
  - ring.
  - ring.
  - ring.
  - ring.
Qed.
Lemma G_T : forall (w : nat -> R -> R) i, (forall j, (j < n)%nat -> eqO 1 (w j) zero_fun) -> (i < n)%nat ->
  eqO 4 (fun h => G (fun j => z j + w j h) i) (fun h => cubic_at n (T i) (fun j => w j h)).
Proof.
  intros w i H Hi. destruct (HT i Hi) as (_ & M & d & Hd & E).
  destruct (finite_bound n (fun j K e => forall h, Rabs h <= e -> Rabs (w j h) <= K * Rabs h)) as (K & e & HK & He & W).
  - intros j K e K' e' X L1 L2 h Hh. eapply Rle_trans; [apply X; lra|]. apply Rmult_le_compat_r; [apply Rabs_pos|exact L1].
  - intros j Hj. destruct (H j Hj) as (K & e & He & X). exists K, e. split; [exact He|]. intros h Hh.
    specialize (X h Hh). unfold zero_fun in X. rewrite Rminus_0_r in X. cbn [pow] in X. lra.
  - exists (M * K ^ 4), (Rmin e (d / K)).
    split; [apply Rmin_pos; [lra|apply Rdiv_lt_0_compat; assumption]|]. intros h Hh.
    assert (X1 := Rle_trans _ _ _ Hh (Rmin_l _ _)). assert (X2 := Rle_trans _ _ _ Hh (Rmin_r _ _)).
    assert (KH : K * Rabs h <= d).
    { replace d with (K * (d / K)) by (field; lra). apply Rmult_le_compat_l; lra. }
    assert (P := Rabs_pos h).
    replace (M * K ^ 4 * Rabs h ^ 4) with (M * (K * Rabs h) ^ 4) by ring.
    apply (E (K * Rabs h) (fun j => w j h)); [split; [apply Rmult_le_pos; lra|exact KH]|].
    intros j Hj. apply W; assumption.
Qed.
Lemma ap_G : forall (w : nat -> R -> R) a b c, (forall j, (j < n)%nat -> ap 0 (a j) (b j) (c j) (w j)) ->
  forall i, (i < n)%nat ->
  ap (G z i) (A i a) (A i b + / 2 * B i a a) (A i c + / 2 * (B i a b + B i b a) + / 6 * C i a a a)
    (fun h => G (fun j => z j + w j h) i).
Proof.
  intros w a b c H i Hi. destruct (HT i Hi) as (E & _). rewrite <- E. unfold ap. eapply eqO_trans; [|apply (ap_T w a b c H)].
  apply G_T; [|exact Hi]. intros j Hj. apply (ap_order1 _ _ _ _ (H j Hj)).
Qed.

(** Linearity. *)
Lemma lin_ext : forall a u v, (forall j, (j < n)%nat -> u j = v j) -> lin n a u = lin n a v.
Proof. intros a u v H. unfold lin. apply sumn_ext. intros j Hj. rewrite H by exact Hj. reflexivity. Qed.
Lemma lin_scal : forall a c u, lin n a (fun j => c * u j) = c * lin n a u.
Proof. intros. unfold lin. rewrite <- sumn_scal. apply sumn_ext. intros. ring. Qed.
Lemma lin_add : forall a u v, lin n a (fun j => u j + v j) = lin n a u + lin n a v.
Proof. intros. unfold lin. rewrite <- sumn_add. apply sumn_ext. intros. ring. Qed.
Lemma lin_0 : forall a, lin n a (fun _ => 0) = 0.
Proof. intros. unfold lin. apply (eq_trans (y := sumn n (fun _ => 0))); [|apply sumn_0]. apply sumn_ext. intros. ring. Qed.
Lemma bil_scal : forall b c d u v, bil n b (fun j => c * u j) (fun j => d * v j) = c * d * bil n b u v.
Proof.
  intros. unfold bil. rewrite <- sumn_scal. apply sumn_ext. intros j _.
  rewrite sumn_ext with (g := fun k => d * (b j k * v k)) by (intros; ring). rewrite sumn_scal. ring.
Qed.
Lemma bil_0r : forall b u, bil n b u (fun _ => 0) = 0.
Proof.
  intros. unfold bil. apply (eq_trans (y := sumn n (fun _ => 0))); [|apply sumn_0]. apply sumn_ext. intros j _.
  rewrite sumn_ext with (g := fun _ => 0) by (intros; ring). rewrite sumn_0. ring.
Qed.
Lemma bil_0l : forall b u, bil n b (fun _ => 0) u = 0.
Proof. intros. unfold bil. apply (eq_trans (y := sumn n (fun _ => 0))); [|apply sumn_0]. apply sumn_ext. intros. ring. Qed.
Lemma tri_scal : forall a c u, tri n a (fun j => c * u j) (fun j => c * u j) (fun j => c * u j) = c ^ 3 * tri n a u u u.
Proof.
  intros. unfold tri. rewrite <- sumn_scal. apply sumn_ext. intros j _.
  rewrite sumn_ext with (g := fun k => c ^ 2 * (sumn n (fun l => a j k l * u l) * u k)).
  - rewrite sumn_scal. ring.
  - intros k _. rewrite sumn_ext with (g := fun l => c * (a j k l * u l)) by (intros; ring). rewrite sumn_scal. ring.
Qed.

(** The elementary differentials. *)
Definition F (i : nat) : R := G z i.
Definition AF (i : nat) : R := A i F.
Definition AAF (i : nat) : R := A i AF.
Definition BFF (i : nat) : R := B i F F.
Definition p3 (i : nat) : R := / 6 * (AAF i + BFF i).
Definition q4 (i : nat) : R := A i p3 + / 4 * (B i F AF + B i AF F) + / 6 * C i F F F.

Lemma rk_k2 : forall i, (i < n)%nat -> ap (F i) (/ 2 * AF i) (/ 8 * BFF i) (/ 48 * C i F F F) (fun h => k2 h i).
Proof.
  intros i Hi. assert (H := ap_G (fun j h => h / 2 * k1 j) (fun j => / 2 * F j) (fun _ => 0) (fun _ => 0)).
  eapply ap_eq; [apply H; [|exact Hi]|..]; clear H.
  - intros j Hj. apply eqO_ext. intros h. unfold poly, k1, F. field.
  - reflexivity.
  - apply lin_scal.
  - rewrite lin_0, bil_scal. unfold BFF. field.
  - rewrite lin_0, bil_0l, bil_0r, tri_scal. field.
Qed.
Lemma rk_k3 : forall i, (i < n)%nat ->
  ap (F i) (/ 2 * AF i) (/ 4 * AAF i + / 8 * BFF i)
    (/ 16 * A i BFF + / 16 * (B i F AF + B i AF F) + / 48 * C i F F F) (fun h => k3 h i).
Proof.
  intros i Hi. assert (H := ap_G (fun j h => h / 2 * k2 h j) (fun j => / 2 * F j) (fun j => / 4 * AF j) (fun j => / 16 * BFF j)).
  eapply ap_eq; [apply H; [|exact Hi]|..]; clear H.
  - intros j Hj. apply (ap_ext _ _ _ _ (fun h => / 2 * (h * k2 h j))); [intros h; field|].
    eapply ap_eq; [eapply ap_scal, ap_shift, (rk_k2 j Hj)|..]; field.
  - reflexivity.
  - apply lin_scal.
  - rewrite lin_scal, bil_scal. unfold BFF, AAF. field.
  - rewrite lin_scal, !bil_scal, tri_scal. field.
Qed.
Lemma rk_k4 : forall i, (i < n)%nat ->
  ap (F i) (AF i) (/ 2 * AAF i + / 2 * BFF i)
    (/ 4 * A i AAF + / 8 * A i BFF + / 4 * (B i F AF + B i AF F) + / 6 * C i F F F) (fun h => k4 h i).
Proof.
  intros i Hi. assert (H := ap_G (fun j h => h * k3 h j) F (fun j => / 2 * AF j) (fun j => / 4 * AAF j + / 8 * BFF j)).
  eapply ap_eq; [apply H; [|exact Hi]|..]; clear H.
  - intros j Hj. eapply ap_shift. apply (rk_k3 j Hj).
  - reflexivity.
  - reflexivity.
  - rewrite lin_scal. unfold BFF, AAF. field.
  - rewrite (lin_add _ (fun j => / 4 * AAF j) (fun j => / 8 * BFF j)), !lin_scal.
    assert (E1 := bil_scal (cB (T i)) 1 (/ 2) F AF). assert (E2 := bil_scal (cB (T i)) (/ 2) 1 AF F).
    assert (X : (fun j => 1 * F j) = F) by (apply functional_extensionality; intros; ring). rewrite X in E1, E2.
    rewrite E1, E2. field.
Qed.
(** The numerical increment. *)
Definition P (i : nat) (h : R) : R := F i * h + / 2 * AF i * h ^ 2 + p3 i * h ^ 3 + / 4 * q4 i * h ^ 4.
Lemma rk_increment : forall i, (i < n)%nat -> eqO 5 (fun h => increment h i) (P i).
Proof.
  intros i Hi.
  assert (S : ap (F i) (/ 2 * AF i) (p3 i) (/ 4 * q4 i)
    (fun h => / 6 * (k1 i + 2 * k2 h i + 2 * k3 h i + k4 h i))).
  { assert (S1 := ap_add _ _ _ _ _ _ _ _ _ _ (ap_const (k1 i)) (ap_scal 2 _ _ _ _ _ (rk_k2 i Hi))).
    assert (S2 := ap_add _ _ _ _ _ _ _ _ _ _ S1 (ap_scal 2 _ _ _ _ _ (rk_k3 i Hi))).
    assert (S3 := ap_scal (/ 6) _ _ _ _ _ (ap_add _ _ _ _ _ _ _ _ _ _ S2 (rk_k4 i Hi))).
    cbv beta in S3. eapply ap_eq; [exact S3|..].
    - unfold k1, F. field.
    - field.
    - unfold p3. field.
    - unfold q4. assert (E : A i p3 = / 6 * (A i AAF + A i BFF)).
      { unfold p3. rewrite lin_scal, lin_add. reflexivity. }
      rewrite E. field. }
  apply eqO_shift in S. eapply eqO_trans; [|eapply eqO_trans; [exact S|]].
  - apply eqO_ext. intros h. unfold increment. field.
  - apply eqO_ext. intros h. unfold P, poly. ring.
Qed.

(** The exact solution. *)
Variable W : R -> nat -> R.
Hypothesis W0 : forall i, (i < n)%nat -> W 0 i = 0.
Hypothesis HW : exists r, 0 < r /\ forall h, Rabs h < r -> forall i, (i < n)%nat ->
  is_derive (fun x => W x i) h (G (fun j => z j + W h j) i).

Lemma integrate_eqO : forall m (u u' : R -> R), u 0 = 0 ->
  (exists r, 0 < r /\ forall h, Rabs h < r -> is_derive u h (u' h)) -> eqO m u' zero_fun -> eqO (S m) u zero_fun.
Proof.
  intros m u u' H0 (r & Hr & D) H. ob H M d Hd. unfold zero_fun in *.
  exists M, (Rmin d (r / 2)). split; [apply Rmin_pos; lra|]. intros h Hh.
  assert (X1 := Rle_trans _ _ _ Hh (Rmin_l _ _)). assert (X2 := Rle_trans _ _ _ Hh (Rmin_r _ _)).
  assert (IN : forall y, Rmin 0 h <= y <= Rmax 0 h -> Rabs y <= Rabs h).
  { intros y. unfold Rmin, Rmax, Rabs. destruct (Rle_dec 0 h), (Rcase_abs y), (Rcase_abs h); lra. }
  destruct (MVT_gen u 0 h u') as (c & Hc & E).
  - intros y Hy. apply D. assert (Rabs y <= Rabs h) by (apply IN; lra). lra.
  - intros y Hy. apply continuity_pt_filterlim. apply (ex_derive_continuous (V := R_NormedModule)).
    exists (u' y). apply D. assert (Rabs y <= Rabs h) by (apply IN; lra). lra.
  - replace (u h - 0) with (u' c * h) by lra. rewrite Rabs_mult. cbn [pow].
    replace (M * (Rabs h * Rabs h ^ m)) with (M * Rabs h ^ m * Rabs h) by ring.
    apply Rmult_le_compat_r; [apply Rabs_pos|].
    assert (Y := IN c Hc). assert (Z := H c (Rle_trans _ _ _ Y X1)). rewrite Rminus_0_r in Z.
    eapply Rle_trans; [exact Z|]. apply Rmult_le_compat_l; [lra|].
    apply pow_incr. split; [apply Rabs_pos|exact Y].
Qed.
Lemma P_derive : forall i h, is_derive (P i) h (poly (F i) (AF i) (3 * p3 i) (q4 i) h).
Proof. intros i h. unfold P, poly. auto_derive; [exact I|]. field. Qed.
Lemma P_ap : forall i, ap 0 (F i) (/ 2 * AF i) (p3 i) (P i).
Proof.
  intros i. exists (Rabs (/ 4 * q4 i)), 1. split; [lra|]. intros h _.
  replace (P i h - poly 0 (F i) (/ 2 * AF i) (p3 i) h) with (/ 4 * q4 i * h ^ 4) by (unfold P, poly; ring).
  rewrite Rabs_mult, RPow_abs. lra.
Qed.
Lemma P_slope : forall i, (i < n)%nat ->
  eqO 4 (fun h => cubic_at n (T i) (fun j => P j h)) (poly (F i) (AF i) (3 * p3 i) (q4 i)).
Proof.
  intros i Hi. assert (H := ap_T (fun j => P j) F (fun j => / 2 * AF j) p3 (fun j _ => P_ap j) i).
  eapply ap_eq; [exact H|..].
  - destruct (HT i Hi) as (E & _). exact E.
  - reflexivity.
  - rewrite lin_scal. unfold p3, AAF, BFF. field.
  - assert (E1 := bil_scal (cB (T i)) 1 (/ 2) F AF). assert (E2 := bil_scal (cB (T i)) (/ 2) 1 AF F).
    assert (X : (fun j => 1 * F j) = F) by (apply functional_extensionality; intros; ring). rewrite X in E1, E2.
    rewrite E1, E2. unfold q4. field.
Qed.
Lemma W_order1 : forall i, (i < n)%nat -> eqO 1 (fun h => W h i) zero_fun.
Proof.
  intros i Hi. destruct HW as (r & Hr & D). assert (Z : Rabs 0 < r) by (rewrite Rabs_R0; exact Hr).
  specialize (D 0 Z i Hi). apply is_derive_Reals in D. specialize (D 1 Rlt_0_1). destruct D as [d D].
  set (l := G (fun j => z j + W 0 j) i) in *.
  exists (Rabs l + 1), (d / 2). assert (Hd := cond_pos d). split; [lra|]. intros h Hh. unfold zero_fun. rewrite Rminus_0_r. cbn [pow].
  destruct (Req_dec h 0) as [->|E]; [rewrite (W0 i Hi), Rabs_R0; lra|].
  assert (Hh' : Rabs h < d) by lra.
  specialize (D h E Hh'). rewrite (W0 i Hi), Rplus_0_l, Rminus_0_r in D.
  replace (W h i) with (W h i / h * h) by (field; exact E). rewrite Rabs_mult, Rmult_1_r. apply Rmult_le_compat_r; [apply Rabs_pos|].
  replace (W h i / h) with ((W h i / h - l) + l) by ring. eapply Rle_trans; [apply Rabs_triang|]. lra.
Qed.
(** If the error is O(h^m), its derivative is, so it is O(h^(m+1)), up to m = 4. *)
Lemma improve : forall m, (m <= 4)%nat -> (forall j, (j < n)%nat -> eqO m (fun h => W h j) (P j)) ->
  forall i, (i < n)%nat -> eqO (S m) (fun h => W h i) (P i).
Proof.
  intros m Hm H i Hi.
  assert (TT : eqO m (fun h => cubic_at n (T i) (fun j => W h j)) (fun h => cubic_at n (T i) (fun j => P j h))).
  { assert (BP : forall j, bnd (P j)) by (intros j; apply (ap_bnd _ _ _ _ _ (P_ap j))).
    assert (BW : forall j, (j < n)%nat -> bnd (fun h => W h j)) by (intros j Hj; apply (bnd_trans m _ _ (H j Hj) (BP j))).
    assert (BS : forall k (u : nat -> R -> R), (forall j, (j < k)%nat -> bnd (u j)) -> bnd (fun h => sumn k (fun j => u j h))).
    { induction k as [|k IH]; intros u Hu; cbn [sumn]; [apply bnd_const|].
      apply (bnd_add (fun h => sumn k (fun j => u j h)) (u k)); [apply IH; auto|apply Hu; lia]. }
    unfold cubic_at, lin, bil, tri.
    apply (eqO_add m (fun h => c0 (T i) + sumn n (fun j => cA (T i) j * W h j)
      + / 2 * sumn n (fun j => sumn n (fun k => cB (T i) j k * W h k) * W h j))).
    - apply (eqO_add m (fun h => c0 (T i) + sumn n (fun j => cA (T i) j * W h j))).
      + apply (eqO_add m (fun h => c0 (T i))); [apply eqO_refl|].
        apply (eqO_sum m n (fun j h => cA (T i) j * W h j) (fun j h => cA (T i) j * P j h)). intros j Hj. now apply eqO_scal, H.
      + apply eqO_scal.
        apply (eqO_sum m n (fun j h => sumn n (fun k => cB (T i) j k * W h k) * W h j)
          (fun j h => sumn n (fun k => cB (T i) j k * P k h) * P j h)). intros j Hj.
        apply eqO_mult; [|apply BP| |now apply H].
        * apply (BS n (fun k h => cB (T i) j k * W h k)). intros k Hk. apply (bnd_mult (fun _ => cB (T i) j k)); [apply bnd_const|now apply BW].
        * apply (eqO_sum m n (fun k h => cB (T i) j k * W h k) (fun k h => cB (T i) j k * P k h)). intros k Hk. now apply eqO_scal, H.
    - apply eqO_scal.
      apply (eqO_sum m n (fun j h => sumn n (fun k => sumn n (fun l => cC (T i) j k l * W h l) * W h k) * W h j)
        (fun j h => sumn n (fun k => sumn n (fun l => cC (T i) j k l * P l h) * P k h) * P j h)). intros j Hj.
      assert (BI : forall k, (k < n)%nat -> bnd (fun h => sumn n (fun l => cC (T i) j k l * W h l))).
      { intros k Hk. apply (BS n (fun l h => cC (T i) j k l * W h l)). intros l Hl.
        apply (bnd_mult (fun _ => cC (T i) j k l)); [apply bnd_const|now apply BW]. }
      apply eqO_mult; [|apply BP| |now apply H].
      + apply (BS n (fun k h => sumn n (fun l => cC (T i) j k l * W h l) * W h k)). intros k Hk.
        apply bnd_mult; [now apply BI|now apply BW].
      + apply (eqO_sum m n (fun k h => sumn n (fun l => cC (T i) j k l * W h l) * W h k)
          (fun k h => sumn n (fun l => cC (T i) j k l * P l h) * P k h)). intros k Hk.
        apply eqO_mult; [now apply BI|apply BP| |now apply H].
        apply (eqO_sum m n (fun l h => cC (T i) j k l * W h l) (fun l h => cC (T i) j k l * P l h)). intros l Hl. now apply eqO_scal, H. }
  assert (GW : eqO m (fun h => G (fun j => z j + W h j) i) (poly (F i) (AF i) (3 * p3 i) (q4 i))).
  { apply (eqO_trans m _ (fun h => cubic_at n (T i) (fun j => W h j))).
    - apply (eqO_weaken m 4); [exact Hm|]. apply (G_T (fun j h => W h j) i); [exact W_order1|exact Hi].
    - eapply eqO_trans; [exact TT|]. apply (eqO_weaken m 4); [exact Hm|]. now apply P_slope. }
  assert (D : eqO (S m) (fun h => W h i - P i h) zero_fun).
  { apply (integrate_eqO m _ (fun h => G (fun j => z j + W h j) i - poly (F i) (AF i) (3 * p3 i) (q4 i) h)).
    - rewrite (W0 i Hi). unfold P. ring.
    - destruct HW as (r & Hr & HD). exists r. split; [exact Hr|]. intros h Hh.
      apply (is_derive_minus (V := R_NormedModule) (fun x => W x i) (P i)); [now apply HD|apply P_derive].
    - destruct GW as (M & d & Hd & Q). exists M, d. split; [exact Hd|]. intros h Hh. unfold zero_fun. rewrite Rminus_0_r. now apply Q. }
  destruct D as (M & d & Hd & Q). exists M, d. split; [exact Hd|]. intros h Hh. specialize (Q h Hh).
  unfold zero_fun in Q. rewrite Rminus_0_r in Q. exact Q.
Qed.
Theorem local_error : forall i, (i < n)%nat -> eqO 5 (fun h => increment h i) (fun h => W h i).
Proof.
  intros i Hi. eapply eqO_trans; [now apply rk_increment|]. apply eqO_sym.
  assert (H0 : forall j, (j < n)%nat -> eqO 0 (fun h => W h j) (P j)).
  { intros j Hj. apply (eqO_trans 0 _ zero_fun).
    - apply (eqO_weaken 0 1); [lia|]. now apply W_order1.
    - apply eqO_sym. apply (ap_bnd _ _ _ _ _ (P_ap j)). }
  assert (H1 := improve 0 ltac:(lia) H0). assert (H2 := improve 1 ltac:(lia) H1).
  assert (H3 := improve 2 ltac:(lia) H2). assert (H4 := improve 3 ltac:(lia) H3).
  exact (improve 4 ltac:(lia) H4 i Hi).
Qed.
End Scheme.
