(** * C41: the integrator is a fourth-order Runge-Kutta method *)
From Coq Require Import ZArith Reals Lra Lia List FunctionalExtensionality.
From Coquelicot Require Import Coquelicot.
From Coq Require Import List.
From Verif Require Import Num State Tables RungeKutta XR XRFacts SystemFacts RKFacts OrderFour.
Import ListNotations.
Local Open Scope R_scope.

(** ** The scheme on real vectors *)
Section Generic.
Context {rot : mat3 xr -> mat3 xr}.
Notation N := (XR rot).
Context {X Y : Type}.
Variable x_add_scalar : X -> N -> X.
Variable y_zero : Y.
Variable y_add : Y -> Y -> Y.
Variable y_scale : N -> Y -> Y.
(** Real vectors inside [Y]. *)
Variable L : (nat -> R) -> Y.
Hypothesis L_zero : y_zero = L (fun _ => 0).
Hypothesis L_add : forall u v, y_add (L u) (L v) = L (fun j => u j + v j).
Hypothesis L_scale : forall k v, y_scale (Fin k) (L v) = L (fun j => k * v j).

(** One step of size h from the vector [y], with the slopes [a], [b], [c], [d] of the four stages. *)
Definition simpson (y : nat -> R) (h : R) (a b c d : nat -> R) : nat -> R :=
  fun j => y j + h / 6 * (a j + 2 * b j + 2 * c j + d j).

Lemma L_sum4 : forall a b c d k0 k1 k2 k3,
  rk_sum (N := N) (L (fun _ => 0)) y_add y_scale [Fin a; Fin b; Fin c; Fin d] [L k0; L k1; L k2; L k3]
  = L (fun j => 0 + a * k0 j + b * k1 j + c * k2 j + d * k3 j).
Proof.
  intros. unfold rk_sum. cbn [combine map fold_left fst snd]. rewrite !L_scale, !L_add. reflexivity.
Qed.
Lemma rk4_real : forall (f : X -> Y -> outcome Y) x y h (a b c d : nat -> R),
  f (x_add_scalar x (Fin 0)) (L y) = Ret (L a) ->
  f (x_add_scalar x (Fin (h / 2))) (L (fun j => y j + h / 2 * a j)) = Ret (L b) ->
  f (x_add_scalar x (Fin (h / 2))) (L (fun j => y j + h / 2 * b j)) = Ret (L c) ->
  f (x_add_scalar x (Fin h)) (L (fun j => y j + h * c j)) = Ret (L d) ->
  rk_step x_add_scalar y_zero y_add y_scale RK4 f x (L y) (Fin h)
  = Ret (x_add_scalar x (Fin h), L (simpson y h a b c d)).
Proof.
  intros f x y h a b c d H0 H1 H2 H3.
  assert (E0 : n_mul (n := N) (n_lit 0 0) (Fin h) = Fin 0) by (xrs; f_equal; ring).
  assert (E1 : n_mul (n := N) (n_lit 5 (-1)) (Fin h) = Fin (h / 2)) by (xrs; f_equal; field).
  assert (E3 : n_mul (n := N) (n_lit 1 0) (Fin h) = Fin h) by (xrs; f_equal; ring).
  assert (Z : n_lit (n := N) 0 0 = Fin 0) by reflexivity.
  assert (O1 : n_lit (n := N) 1 0 = Fin 1) by reflexivity.
  assert (HF : n_lit (n := N) 5 (-1) = Fin (5 / 10)) by reflexivity.
  assert (D6 : n_div (n := N) (n_lit 1 0) (n_lit 6 0) = Fin (1 / 6)) by (apply xdiv_fin; lra).
  assert (D3 : n_div (n := N) (n_lit 1 0) (n_lit 3 0) = Fin (1 / 3)) by (apply xdiv_fin; lra).
  erewrite rk4_step_intro with (f0 := L a) (f1 := L b) (f2 := L c) (f3 := L d).
  - rewrite D6, D3, !L_scale, !L_zero, L_sum4, L_add. do 3 f_equal. apply functional_extensionality. intros j.
    unfold simpson. field.
  - rewrite E0, Z, !L_zero, L_sum4, L_add. rewrite <- H0. do 2 f_equal.
    apply functional_extensionality. intros j. ring.
  - rewrite E1, Z, HF, L_scale, !L_zero, L_sum4, L_add. rewrite <- H1. do 2 f_equal.
    apply functional_extensionality. intros j. field.
  - rewrite E1, Z, HF, !L_scale, !L_zero, L_sum4, L_add. rewrite <- H2. do 2 f_equal.
    apply functional_extensionality. intros j. field.
  - rewrite E3, Z, O1, !L_scale, !L_zero, L_sum4, L_add. rewrite <- H3. do 2 f_equal.
    apply functional_extensionality. intros j. ring.
Qed.

(** The vector (s, v_0, v_1, ...). *)
Definition vcons (s : R) (v : nat -> R) : nat -> R := fun j => match j with O => s | S j => v j end.
(** The right-hand side [g s v], for the time [s] elapsed, as a function of one vector (s, v). *)
Definition joint (g : R -> (nat -> R) -> nat -> R) (i : nat) : (nat -> R) -> R :=
  fun z => g (z O) (fun j => z (S j)) i.

Theorem order_four : forall n (f : X -> Y -> outcome Y) x y0 g r (y : R -> nat -> R), 0 < r ->
  (forall s v, Rabs s < r -> near n r y0 v -> f (x_add_scalar x (Fin s)) (L v) = Ret (L (g s v))) ->
  (forall i, (i < n)%nat -> smooth (S n) 4 (near (S n) r (vcons 0 y0)) (joint g i)) ->
  (forall i, (i < n)%nat -> y 0 i = y0 i) ->
  (forall s, Rabs s < r -> forall i, (i < n)%nat -> is_derive (fun t => y t i) s (g s (y s) i)) ->
  exists M d, 0 < d /\ forall h, Rabs h <= d -> exists v,
    rk_step x_add_scalar y_zero y_add y_scale RK4 f x (L y0) (Fin h) = Ret (x_add_scalar x (Fin h), L v) /\
    forall i, (i < n)%nat -> Rabs (v i - y h i) <= M * Rabs h ^ 5.
Proof.
  intros n f x y0 g r y Hr Hf Hs Hy0 Hy.
  set (G := fun (z : nat -> R) (i : nat) => match i with O => 1 | S i => joint g i z end).
  set (z := vcons 0 y0).
  assert (EX : exists T, forall i, (i < S n)%nat -> expands (S n) (fun x => G x i) z (T i)).
  { apply (finite_choice cubic (Cubic 0 (fun _ => 0) (fun _ _ => 0) (fun _ _ _ => 0)) (S n)
      (fun i T => expands (S n) (fun x => G x i) z T)).
    intros [|i] Hi.
    - exists (Cubic 1 (fun _ => 0) (fun _ _ => 0) (fun _ _ _ => 0)). split; [reflexivity|].
      exists 0, 1. split; [lra|]. intros e w He Hw. cbn [G].
      assert (E : cubic_at (S n) (Cubic 1 (fun _ => 0) (fun _ _ => 0) (fun _ _ _ => 0)) w = 1).
      { assert (Z1 : forall m (u : nat -> R), sumn m (fun j => 0 * u j) = 0)
          by (intros m u; rewrite sumn_scal; ring).
        unfold cubic_at, lin, bil, tri. cbn [c0 cA cB cC].
        assert (Z2 : forall m k (u v : nat -> R), sumn m (fun j => sumn k (fun l => 0 * u l) * v j) = 0).
        { intros m k u v. apply (eq_trans (y := sumn m (fun j => 0 * v j))); [|apply Z1]. apply sumn_ext. intros j _. rewrite Z1. ring. }
        assert (Z3 : sumn (S n) (fun j => sumn (S n) (fun k => sumn (S n) (fun l => 0 * w l) * w k) * w j) = 0).
        { apply (eq_trans (y := sumn (S n) (fun j => 0 * w j))); [|apply Z1]. apply sumn_ext. intros j _. rewrite Z2. ring. }
        rewrite Z3, Z2, Z1. ring. }
      rewrite E, Rminus_eq_0, Rabs_R0. lra.
    - destruct (smooth_expands (S n) (joint g i) z r Hr) as [T HT]; [apply Hs; lia|]. exists T. exact HT. }
  destruct EX as [T HT].
  set (W := fun s => vcons s (fun j => y s j - y0 j)).
  assert (W0 : forall i, (i < S n)%nat -> W 0 i = 0).
  { intros [|i] Hi; cbn; [reflexivity|]. rewrite Hy0 by lia. ring. }
  assert (HW : exists r, 0 < r /\ forall h, Rabs h < r -> forall i, (i < S n)%nat ->
    is_derive (fun x => W x i) h (G (fun j => z j + W h j) i)).
  { exists r. split; [exact Hr|]. intros h Hh [|i] Hi.
    - cbn. apply (is_derive_id (K := R_AbsRing)).
    - cbn [W vcons G]. unfold joint. cbn [z vcons].
      evar_last.
      + apply (is_derive_minus (V := R_NormedModule) (fun t => y t i)); [apply Hy; [exact Hh|lia]|].
        apply (is_derive_const (V := R_NormedModule)).
      + unfold minus, plus, opp, zero; cbn. replace (0 + h) with h by ring.
        replace (fun j => y0 j + (y h j - y0 j)) with (y h) by (apply functional_extensionality; intros j; ring). ring. }
  assert (ERR := local_error (S n) G z T HT W W0 HW).
  (* the stage points stay in the neighbourhood *)
  assert (S2 : forall j, (j < S n)%nat -> eqO 1 (fun h => h / 2 * k1 G z j) zero_fun).
  { intros j Hj. apply (eqO_trans 1 _ (fun h => h * (/ 2 * k1 G z j))); [apply eqO_ext; intros h; field|].
    apply (eqO_trans 1 _ (fun h => h * zero_fun h)); [|apply eqO_ext; intros h; unfold zero_fun; ring].
    apply eqO_shift. apply bnd_const. }
  assert (S3 : forall j, (j < S n)%nat -> eqO 1 (fun h => h / 2 * k2 G z h j) zero_fun).
  { intros j Hj. assert (B := ap_bnd _ _ _ _ _ (rk_k2 (S n) G z T HT j Hj)).
    apply (eqO_trans 1 _ (fun h => h * (/ 2 * k2 G z h j))); [apply eqO_ext; intros h; field|].
    apply (eqO_trans 1 _ (fun h => h * zero_fun h)); [|apply eqO_ext; intros h; unfold zero_fun; ring].
    apply eqO_shift. exact (bnd_mult (fun _ => / 2) _ (bnd_const _) B). }
  assert (S4 : forall j, (j < S n)%nat -> eqO 1 (fun h => h * k3 G z h j) zero_fun).
  { intros j Hj. assert (B := ap_bnd _ _ _ _ _ (rk_k3 (S n) G z T HT j Hj)).
    apply (eqO_trans 1 _ (fun h => h * zero_fun h)); [|apply eqO_ext; intros h; unfold zero_fun; ring].
    apply eqO_shift. exact B. }
  assert (SM : forall w : nat -> R -> R, (forall j, (j < S n)%nat -> eqO 1 (w j) zero_fun) ->
    exists d, 0 < d /\ forall h, Rabs h <= d -> forall j, (j < S n)%nat -> Rabs (w j h) < r).
  { intros w Hw.
    destruct (finite_bound (S n) (fun j K e => forall h, Rabs h <= e -> Rabs (w j h) <= K * Rabs h)) as (K & e & HK & He & Q).
    - intros j K e K' e' A L1 L2 h Hh. eapply Rle_trans; [apply A; lra|]. apply Rmult_le_compat_r; [apply Rabs_pos|exact L1].
    - intros j Hj. destruct (Hw j Hj) as (K & e & He & A). exists K, e. split; [exact He|]. intros h Hh.
      specialize (A h Hh). unfold zero_fun in A. rewrite Rminus_0_r in A. cbn [pow] in A. lra.
    - exists (Rmin e (r / (2 * K))). split; [apply Rmin_pos; [lra|apply Rdiv_lt_0_compat; lra]|].
      intros h Hh j Hj. assert (X1 := Rle_trans _ _ _ Hh (Rmin_l _ _)). assert (X2 := Rle_trans _ _ _ Hh (Rmin_r _ _)).
      eapply Rle_lt_trans; [apply Q; assumption|].
      apply Rle_lt_trans with (K * (r / (2 * K))); [apply Rmult_le_compat_l; lra|].
      replace (K * (r / (2 * K))) with (r / 2) by (field; lra). lra. }
  destruct (SM _ S2) as (d2 & D2 & N2). destruct (SM _ S3) as (d3 & D3 & N3). destruct (SM _ S4) as (d4 & D4 & N4).
  destruct (finite_bound n (fun i K e => forall h, Rabs h <= e ->
    Rabs (increment G z h (S i) - W h (S i)) <= K * Rabs h ^ 5)) as (M & e & HM & He & Q).
  { intros j K e K' e' A L1 L2 h Hh. eapply Rle_trans; [apply A; lra|]. apply Rmult_le_compat_r; [apply pow_le, Rabs_pos|exact L1]. }
  { intros j Hj. destruct (ERR (S j)) as (K & e & He & A); [lia|]. exists K, e. split; [exact He|exact A]. }
  exists M, (Rmin (Rmin e d2) (Rmin (Rmin d3 d4) (r / 2))). split; [repeat apply Rmin_pos; lra|].
  intros h Hh.
  assert (X1 := Rle_trans _ _ _ Hh (Rmin_l _ _)). assert (X2 := Rle_trans _ _ _ Hh (Rmin_r _ _)).
  assert (Y1 := Rle_trans _ _ _ X1 (Rmin_l _ _)). assert (Y2 := Rle_trans _ _ _ X1 (Rmin_r _ _)).
  assert (Z1 := Rle_trans _ _ _ X2 (Rmin_l _ _)). assert (Z2 := Rle_trans _ _ _ X2 (Rmin_r _ _)).
  assert (Y3 := Rle_trans _ _ _ Z1 (Rmin_l _ _)). assert (Y4 := Rle_trans _ _ _ Z1 (Rmin_r _ _)). clear X1 X2 Z1.
  assert (H2 : Rabs (h / 2) < r).
  { unfold Rdiv. rewrite Rabs_mult, (Rabs_pos_eq (/ 2)) by lra. assert (P := Rabs_pos h). lra. }
  exists (simpson y0 h (fun i => k1 G z (S i)) (fun i => k2 G z h (S i)) (fun i => k3 G z h (S i)) (fun i => k4 G z h (S i))).
  split.
  - assert (T2 : 0 + h / 2 * 1 = h / 2) by ring. assert (T4 : 0 + h * 1 = h) by ring.
    apply rk4_real.
    + rewrite Hf; [reflexivity|rewrite Rabs_R0; exact Hr|]. intros j Hj. rewrite Rminus_eq_0, Rabs_R0. exact Hr.
    + rewrite Hf; [|exact H2|].
      * do 2 f_equal. apply functional_extensionality. intros i.
        transitivity (g (0 + h / 2 * 1) (fun j => y0 j + h / 2 * k1 G z (S j)) i); [rewrite T2; reflexivity|reflexivity].
      * intros j Hj. match goal with |- Rabs ?a < r => replace a with (h / 2 * k1 G z (S j)) by ring end.
        apply N2; [exact Y2|lia].
    + rewrite Hf; [|exact H2|].
      * do 2 f_equal. apply functional_extensionality. intros i.
        transitivity (g (0 + h / 2 * 1) (fun j => y0 j + h / 2 * k2 G z h (S j)) i); [rewrite T2; reflexivity|reflexivity].
      * intros j Hj. match goal with |- Rabs ?a < r => replace a with (h / 2 * k2 G z h (S j)) by ring end.
        apply N3; [exact Y3|lia].
    + rewrite Hf; [|assert (P := Rabs_pos h); lra|].
      * do 2 f_equal. apply functional_extensionality. intros i.
        transitivity (g (0 + h * 1) (fun j => y0 j + h * k3 G z h (S j)) i); [rewrite T4; reflexivity|reflexivity].
      * intros j Hj. match goal with |- Rabs ?a < r => replace a with (h * k3 G z h (S j)) by ring end.
        apply N4; [exact Y4|lia].
  - intros i Hi. unfold simpson. specialize (Q i Hi h Y1). unfold increment in Q. cbn [W vcons] in Q.
    eapply Rle_trans; [right|exact Q]. f_equal. ring.
Qed.

(** Right-hand sides that are cubic polynomials of time alone. *)
Theorem quadrature : forall (f : X -> Y -> outcome Y) x y0 (a b c d : nat -> R) h,
  (forall s v, f (x_add_scalar x (Fin s)) (L v) = Ret (L (fun i => a i + b i * s + c i * s ^ 2 + d i * s ^ 3))) ->
  rk_step x_add_scalar y_zero y_add y_scale RK4 f x (L y0) (Fin h)
  = Ret (x_add_scalar x (Fin h),
         L (fun i => y0 i + a i * h + b i * h ^ 2 / 2 + c i * h ^ 3 / 3 + d i * h ^ 4 / 4)).
Proof.
  intros f x y0 a b c d h H. erewrite rk4_real; [|apply H..].
  do 3 f_equal. apply functional_extensionality. intros i. unfold simpson. field.
Qed.
(** The clock. *)
Theorem clock : forall (f : X -> Y -> outcome Y) x y h r,
  rk_step x_add_scalar y_zero y_add y_scale RK4 f x y h = Ret r -> fst r = x_add_scalar x h.
Proof.
  intros f x y h r H. apply rk4_step_inv in H. destruct H as (f0 & f1 & f2 & f3 & _ & _ & _ & _ & ->). reflexivity.
Qed.
End Generic.

(** ** C41 for vectors of any dimension *)
(** nalgebra's [SVector<f64, D>] as lists of D numbers. *)
Section Vectors.
Context {N : Num}.
Local Open Scope num_scope.
Definition sv_zero (d : nat) : list N := repeat #0 d.
Definition sv_add (a b : list N) : list N := map (fun p => fst p + snd p) (combine a b).
Definition sv_scale (k : N) (a : list N) : list N := map (fun x => k * x) a.
Definition sv_add_scalar (a : list N) (k : N) : list N := map (fun x => x + k) a.
(** runge_kutta.rs:29-57 with the tableau RK4, for D_Y = [d]. *)
Definition rk4_step (d : nat) (f : list N -> list N -> outcome (list N)) (x y : list N) (h : N) :
    outcome (list N * list N) :=
  rk_step sv_add_scalar (sv_zero d) sv_add sv_scale RK4 f x y h.
End Vectors.
(** The first [d] components of a real vector as list of numbers. *)
Definition embed (d : nat) (v : nat -> R) : list xr := map (fun j => Fin (v j)) (seq 0 d).

Section C41.
Context {rot : mat3 xr -> mat3 xr}.
Notation N := (XR rot).
Lemma embed_zero : forall d, sv_zero (N := N) d = embed d (fun _ => 0).
Proof.
  intros d. unfold sv_zero, embed. generalize 0%nat. induction d as [|d IH]; intros k; [reflexivity|].
  cbn [repeat seq map]. rewrite (IH (S k)). reflexivity.
Qed.
Lemma embed_add : forall d u v, sv_add (N := N) (embed d u) (embed d v) = embed d (fun j => u j + v j).
Proof.
  intros d u v. unfold sv_add, embed. generalize 0%nat. induction d as [|d IH]; intros k; [reflexivity|].
  cbn [seq map combine fst snd]. rewrite (IH (S k)). reflexivity.
Qed.
Lemma embed_scale : forall d k v, sv_scale (N := N) (Fin k) (embed d v) = embed d (fun j => k * v j).
Proof. intros d k v. unfold sv_scale, embed. rewrite map_map. reflexivity. Qed.

(** If the right-hand side is given by [g] (of the time [s] since [x] and the vector [v]) in a
    neighbourhood of the starting point, [g] is four times continuously differentiable there, and [y] is
    the solution of y' = g(s, y) through [y0], then one step of size h hits y(h) up to O(h^5). *)
Theorem C41_order_four : forall n (f : list N -> list N -> outcome (list N)) x y0 g r (y : R -> nat -> R), 0 < r ->
  (forall s v, Rabs s < r -> near n r y0 v -> f (sv_add_scalar (N := N) x (Fin s)) (embed n v) = Ret (embed n (g s v))) ->
  (forall i, (i < n)%nat -> smooth (S n) 4 (near (S n) r (vcons 0 y0)) (joint g i)) ->
  (forall i, (i < n)%nat -> y 0 i = y0 i) ->
  (forall s, Rabs s < r -> forall i, (i < n)%nat -> is_derive (fun t => y t i) s (g s (y s) i)) ->
  exists M d, 0 < d /\ forall h, Rabs h <= d -> exists v,
    rk4_step (N := N) n f x (embed n y0) (Fin h) = Ret (sv_add_scalar (N := N) x (Fin h), embed n v) /\
    forall i, (i < n)%nat -> Rabs (v i - y h i) <= M * Rabs h ^ 5.
Proof.
  intros n f x y0 g r y.
  exact (order_four _ _ _ _ (embed n) (embed_zero n) (embed_add n) (embed_scale n) n f x y0 g r y).
Qed.
(** Cubic polynomials of time are integrated exactly. *)
Theorem C41_cubic_exact : forall n (f : list N -> list N -> outcome (list N)) x y0 (a b c d : nat -> R) h,
  (forall s v, f (sv_add_scalar (N := N) x (Fin s)) (embed n v)
    = Ret (embed n (fun i => a i + b i * s + c i * s ^ 2 + d i * s ^ 3))) ->
  rk4_step (N := N) n f x (embed n y0) (Fin h)
  = Ret (sv_add_scalar (N := N) x (Fin h),
         embed n (fun i => y0 i + RInt (fun s => a i + b i * s + c i * s ^ 2 + d i * s ^ 3) 0 h)).
Proof.
  intros n f x y0 a b c d h H. unfold rk4_step.
  erewrite (quadrature _ _ _ _ (embed n) (embed_zero n) (embed_add n) (embed_scale n)); [|exact H].
  do 3 f_equal. apply functional_extensionality. intros i.
  assert (E : RInt (fun s => a i + b i * s + c i * s ^ 2 + d i * s ^ 3) 0 h
    = a i * h + b i * h ^ 2 / 2 + c i * h ^ 3 / 3 + d i * h ^ 4 / 4).
  { apply is_RInt_unique.
    evar_last.
    - apply (is_RInt_derive (V := R_CompleteNormedModule) (fun s => a i * s + b i * s ^ 2 / 2 + c i * s ^ 3 / 3 + d i * s ^ 4 / 4)).
      + intros s _. auto_derive; [exact I|]. field.
      + intros s _. apply (ex_derive_continuous (V := R_NormedModule)). auto_derive. exact I.
    - unfold minus, plus, opp; cbn. field. }
  rewrite E. ring.
Qed.
(** Time advances by exactly the step size, in every arithmetic. *)
Theorem C41_clock : forall (M : Num) n (f : list M -> list M -> outcome (list M)) x y h x' y',
  rk4_step n f x y h = Ret (x', y') -> x' = sv_add_scalar x h.
Proof.
  intros M n f x y h x' y' H. unfold rk4_step in H. apply rk4_step_inv in H.
  destruct H as (f0 & f1 & f2 & f3 & _ & _ & _ & _ & E). injection E as -> _. reflexivity.
Qed.

(** ** C41 for the simulation: the integrator applied to the equations of motion *)
Definition pack (v : nat -> R) : vec7 N :=
  V7 (N := N) (V3 (Fin (v 0%nat)) (Fin (v 1%nat)) (Fin (v 2%nat)))
     (V3 (Fin (v 3%nat)) (Fin (v 4%nat)) (Fin (v 5%nat))) (Fin (v 6%nat)).
Lemma pack_zero : v7_zero (N := N) = pack (fun _ => 0).
Proof. reflexivity. Qed.
Lemma pack_add : forall u v, v7_add (N := N) (pack u) (pack v) = pack (fun j => u j + v j).
Proof. reflexivity. Qed.
Lemma pack_scale : forall k v, v7_scale (N := N) (Fin k) (pack v) = pack (fun j => k * v j).
Proof. reflexivity. Qed.

(** [func] evaluates the derivatives: near the current state, at [s] seconds from now with the
    primary variables [v], they are [g s v], four times continuously differentiable; [y] is the exact
    motion.  Then the primary variables of the new state differ from the exact motion by O(h^5). *)
Theorem C41_simulation : forall (func : State N -> outcome (State N)) (st : State N) t0 e0 y0 g r (y : R -> nat -> R),
  0 < r -> st_time st = Fin t0 -> st_time_since_event st = Fin e0 -> to_primary_vec st = pack y0 ->
  (forall s v, Rabs s < r -> near 7 r y0 v -> exists st',
    func (from_vec (N := N) (Fin (t0 + s), Fin (e0 + s)) (pack v)) = Ret st' /\ to_differentials_vector st' = pack (g s v)) ->
  (forall i, (i < 7)%nat -> smooth 8 4 (near 8 r (vcons 0 y0)) (joint g i)) ->
  (forall i, (i < 7)%nat -> y 0 i = y0 i) ->
  (forall s, Rabs s < r -> forall i, (i < 7)%nat -> is_derive (fun t => y t i) s (g s (y s) i)) ->
  exists M d, 0 < d /\ forall h, Rabs h <= d -> exists v,
    integrator_step func st (Fin h) = func (from_vec (N := N) (Fin (t0 + h), Fin (e0 + h)) (pack v)) /\
    forall i, (i < 7)%nat -> Rabs (v i - y h i) <= M * Rabs h ^ 5.
Proof.
  intros func st t0 e0 y0 g r y Hr Ht He Hp Hf Hs H0 Hy.
  set (cf := fun (t : N * N) (v : vec7 N) =>
    let* s' := func (from_vec t v) in Ret (to_differentials_vector s')).
  destruct (order_four (rot := rot) t_add_scalar v7_zero v7_add v7_scale pack pack_zero pack_add pack_scale 7 cf (Fin t0, Fin e0)
    y0 g r y Hr) as (M & d & Hd & H); [|exact Hs|exact H0|exact Hy|].
  - intros s v Hh Hn. destruct (Hf s v Hh Hn) as (st' & E & D). unfold cf, t_add_scalar. cbn [fst snd].
    change (bind (func (from_vec (N := N) (Fin (t0 + s), Fin (e0 + s)) (pack v))) (fun s' => Ret (to_differentials_vector s')) = Ret (pack (g s v))).
    rewrite E. cbn [bind]. rewrite D. reflexivity.
  - exists M, d. split; [exact Hd|]. intros h Hh. destruct (H h Hh) as (v & E & B). exists v. split; [|exact B].
    change (integrator_step func st (Fin h)) with
      (bind (rk_step t_add_scalar v7_zero v7_add v7_scale RK4 cf (st_time st, st_time_since_event st) (to_primary_vec st) (Fin h))
        (fun r : (N * N) * vec7 N => let (a, b) := r in func (from_vec a b))).
    rewrite Ht, He, Hp.
    exact (f_equal (fun o => bind o (fun r : (N * N) * vec7 N => let (a, b) := r in func (from_vec a b))) E).
Qed.
End C41.

(** Example: y' = y^2 with y(0) = 1, whose solution is 1/(1-s). *)
Section Example41.
Definition square_rhs (_ : list xr) (y : list xr) : outcome (list xr) :=
  match y with [Fin a] => Ret [Fin (a ^ 2)] | _ => Panic PIndexOutOfBounds end.
Lemma smooth_const : forall n k U c, smooth n k U (fun _ => c).
Proof.
  intros n k U. induction k as [|k IH]; intros c; cbn [smooth].
  - intros z _ e He. exists 1. split; [lra|]. intros z' _. rewrite Rminus_eq_0, Rabs_R0. exact He.
  - exists (fun _ _ => 0). split; [intros; apply IH|]. intros z w _.
    evar_last; [apply (is_derive_const (V := R_NormedModule))|]. cbn.
    symmetry. apply (eq_trans (y := sumn n (fun _ => 0))); [|apply sumn_0]. apply sumn_ext. intros. ring.
Qed.
Example ex_order_four : exists M d, 0 < d /\ forall h, Rabs h <= d -> exists v,
  rk4_step (N := XR (fun m => m)) 1 square_rhs [] [Fin 1] (Fin h) = Ret ([], [Fin v]) /\
  Rabs (v - / (1 - h)) <= M * Rabs h ^ 5.
Proof.
  destruct (C41_order_four (rot := fun m => m) 1 square_rhs [] (fun _ => 1) (fun s v i => v 0%nat ^ 2) (/ 2)
    (fun s _ => / (1 - s))) as (M & d & Hd & H).
  - lra.
  - intros s v _ _. reflexivity.
  - intros i Hi. unfold joint. exists (fun j z => match j with O => 0 | _ => 2 * z 1%nat end). split.
    + intros [|[|j]] Hj; [apply smooth_const| |lia].
      exists (fun j _ => match j with O => 0 | _ => 2 end). split.
      * intros [|k] Hk; apply smooth_const.
      * intros z w _. cbn [sumn]. auto_derive; [exact I|]. ring.
    + intros z w _. cbn [sumn]. auto_derive; [exact I|]. ring.
  - intros i Hi. field.
  - intros s Hs i Hi. apply Rabs_def2 in Hs. auto_derive; [lra|]. field. lra.
  - exists M, d. split; [exact Hd|]. intros h Hh. destruct (H h Hh) as (v & E & B). exists (v 0%nat).
    split; [exact E|]. apply (B 0%nat). lia.
Qed.
End Example41.
