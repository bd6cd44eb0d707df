(** * Closure properties of [smooth] (file OrderFour.v): sums, products, quotients, square
    roots, sines and cosines of smooth functions are smooth. *)
From Coq Require Import Arith Reals Lra Lia.
From Coquelicot Require Import Coquelicot.
From Coq Require Import List FunctionalExtensionality.
From Verif Require Import OrderFour.
Import ListNotations.
Local Open Scope R_scope.

Section Closure.
Variable n : nat.
Variable U : (nat -> R) -> Prop.

(** [smooth] with continuity required at every order. *)
Fixpoint sm (k : nat) (g : (nat -> R) -> R) : Prop :=
  (forall z, U z -> continuous_at n g z) /\
  match k with
  | O => True
  | S k => exists D : nat -> (nat -> R) -> R,
      (forall j, (j < n)%nat -> sm k (D j)) /\
      forall z w, U z -> is_derive (fun x => g (fun j => z j + x * w j)) 0 (sumn n (fun j => D j z * w j))
  end.

Lemma sm_smooth : forall k g, sm k g -> smooth n k U g.
Proof.
  induction k as [|k IH]; intros g [H1 H2]; [exact H1|]. destruct H2 as (D & HD & H). exists D.
  split; [|exact H]. intros j Hj. apply IH, HD, Hj.
Qed.
Lemma sm_cont : forall k g, sm k g -> forall z, U z -> continuous_at n g z.
Proof. intros [|k] g [H _]; exact H. Qed.
Lemma sm_down : forall k g, sm (S k) g -> sm k g.
Proof.
  induction k as [|k IH]; intros g [H1 H2].
  - split; [exact H1|exact I].
  - destruct H2 as (D & HD & H). split; [exact H1|]. exists D. split; [|exact H].
    intros j Hj. apply IH, HD, Hj.
Qed.
Lemma sm_ext : forall k f g, (forall z, f z = g z) -> sm k f -> sm k g.
Proof. intros k f g E H. replace g with f; [exact H|]. apply functional_extensionality. exact E. Qed.

(** Continuity. *)
Lemma cont_const : forall (c : R) z, continuous_at n (fun _ => c) z.
Proof.
  intros c z e He. exists 1. split; [lra|]. intros z' _. replace (c - c) with 0 by ring. rewrite Rabs_R0. exact He.
Qed.
Lemma cont_coord : forall j z, (j < n)%nat -> continuous_at n (fun z => z j) z.
Proof. intros j z Hj e He. exists e. split; [exact He|]. intros z' H. apply H, Hj. Qed.
(** Composition with a binary or unary continuous function of real numbers. *)
Lemma near_le : forall d d' z z', near n d z z' -> d <= d' -> near n d' z z'.
Proof. intros d d' z z' H L j Hj. specialize (H j Hj). lra. Qed.
Lemma cont_plus : forall f g z, continuous_at n f z -> continuous_at n g z ->
  continuous_at n (fun z => f z + g z) z.
Proof.
  intros f g z Hf Hg e He. destruct (Hf (e / 2)) as (d1 & P1 & H1); [lra|].
  destruct (Hg (e / 2)) as (d2 & P2 & H2); [lra|].
  exists (Rmin d1 d2). split; [now apply Rmin_glb_lt|]. intros z' H.
  specialize (H1 z' (near_le _ _ _ _ H (Rmin_l _ _))). specialize (H2 z' (near_le _ _ _ _ H (Rmin_r _ _))).
  replace (f z' + g z' - (f z + g z)) with ((f z' - f z) + (g z' - g z)) by ring.
  eapply Rle_lt_trans; [apply Rabs_triang|]. lra.
Qed.
Lemma cont_comp : forall (phi : R -> R) g z, continuous phi (g z) -> continuous_at n g z ->
  continuous_at n (fun z => phi (g z)) z.
Proof.
  intros phi g z Hp Hg e He.
  assert (Hl : locally (phi (g z)) (fun y => Rabs (y - phi (g z)) < e)).
  { exists (mkposreal e He). intros y Hy. exact Hy. }
  apply Hp in Hl. destruct Hl as [d Hd].
  destruct (Hg d (cond_pos d)) as (d1 & P1 & H1). exists d1. split; [exact P1|].
  intros z' H. apply Hd. apply H1. exact H.
Qed.
Lemma cont_mult : forall f g z, continuous_at n f z -> continuous_at n g z ->
  continuous_at n (fun z => f z * g z) z.
Proof.
  (* f g = ((f+g)^2 - (f-g)^2)/4 *)
  intros f g z Hf Hg.
  assert (S : forall u, continuous_at n u z -> continuous_at n (fun z => (u z) ^ 2 / 4) z).
  { intros u Hu. apply (cont_comp (fun x => x ^ 2 / 4)); [|exact Hu].
    apply (ex_derive_continuous (V := R_NormedModule) (fun x => x ^ 2 / 4)). auto_derive. exact I. }
  assert (M : forall c u, continuous_at n u z -> continuous_at n (fun z => c * u z) z).
  { intros c u Hu. apply (cont_comp (fun x => c * x)); [|exact Hu].
    apply (ex_derive_continuous (V := R_NormedModule) (fun x => c * x)). auto_derive. exact I. }
  assert (E : (fun z => f z * g z)
    = (fun z => (f z + g z) ^ 2 / 4 + (-1) * ((f z + (-1) * g z) ^ 2 / 4))).
  { apply functional_extensionality. intros x. field. }
  rewrite E. apply cont_plus.
  - apply (S (fun z => f z + g z)). now apply cont_plus.
  - apply M. apply (S (fun z => f z + -1 * g z)). apply cont_plus; [exact Hf|]. now apply M.
Qed.

Lemma sumn_ext : forall m f g, (forall j, (j < m)%nat -> f j = g j) -> sumn m f = sumn m g.
Proof.
  induction m as [|m IH]; intros f g H; [reflexivity|]. cbn [sumn].
  rewrite (IH f g), (H m) by (intros; try apply H; lia). reflexivity.
Qed.
Lemma sumn_lin : forall m a b f g, sumn m (fun j => a * f j + b * g j) = a * sumn m f + b * sumn m g.
Proof.
  induction m as [|m IH]; intros; cbn [sumn]; [ring|]. rewrite IH. ring.
Qed.
Lemma sumn_zero : forall m, sumn m (fun _ => 0) = 0.
Proof. induction m as [|m IH]; cbn [sumn]; [reflexivity|]. rewrite IH. ring. Qed.
Lemma sumn_single : forall m i a, (i < m)%nat ->
  sumn m (fun j => (if Nat.eqb j i then 1 else 0) * a j) = a i.
Proof.
  induction m as [|m IH]; intros i a Hi; [lia|]. cbn [sumn].
  destruct (Nat.eq_dec m i) as [->|Hne].
  - rewrite Nat.eqb_refl. rewrite (sumn_ext i _ (fun _ => 0)).
    + rewrite sumn_zero. ring.
    + intros j Hj. replace (Nat.eqb j i) with false by (symmetry; apply Nat.eqb_neq; lia). ring.
  - rewrite IH by lia. replace (Nat.eqb m i) with false by (symmetry; apply Nat.eqb_neq; lia). ring.
Qed.

(** Constants and coordinates. *)
Lemma sm_const : forall k c, sm k (fun _ => c).
Proof.
  induction k as [|k IH]; intros c; (split; [intros; apply cont_const|]); [exact I|].
  exists (fun _ _ => 0). split; [intros; apply IH|]. intros z w _.
  rewrite (sumn_ext n _ (fun _ => 0)) by (intros; ring). rewrite sumn_zero.
  apply (is_derive_const (V := R_NormedModule) c).
Qed.
Lemma sm_coord : forall k i, (i < n)%nat -> sm k (fun z => z i).
Proof.
  intros [|k] i Hi; (split; [intros; now apply cont_coord|]); [exact I|].
  exists (fun j _ => if Nat.eqb j i then 1 else 0). split; [intros; apply sm_const|].
  intros z w _. rewrite sumn_single by exact Hi. auto_derive; [exact I|]. ring.
Qed.
Lemma sm_plus : forall k f g, sm k f -> sm k g -> sm k (fun z => f z + g z).
Proof.
  induction k as [|k IH]; intros f g [F1 F2] [G1 G2];
    (split; [intros; apply cont_plus; auto|]); [exact I|].
  destruct F2 as (Df & HDf & Hf). destruct G2 as (Dg & HDg & Hg).
  exists (fun j z => Df j z + Dg j z). split; [intros j Hj; apply IH; auto|].
  intros z w Hz.
  replace (sumn n (fun j => (Df j z + Dg j z) * w j))
    with (plus (sumn n (fun j => Df j z * w j)) (sumn n (fun j => Dg j z * w j))).
  - apply (is_derive_plus (V := R_NormedModule) (fun x => f (fun j => z j + x * w j)) (fun x => g (fun j => z j + x * w j))); auto.
  - unfold plus; cbn. rewrite (sumn_ext n (fun j => (Df j z + Dg j z) * w j) (fun j => 1 * (Df j z * w j) + 1 * (Dg j z * w j)))
      by (intros; ring).
    rewrite sumn_lin. ring.
Qed.
Lemma sm_mult : forall k f g, sm k f -> sm k g -> sm k (fun z => f z * g z).
Proof.
  induction k as [|k IH]; intros f g F G;
    (split; [intros z Hz; apply cont_mult; [exact (sm_cont _ _ F z Hz)|exact (sm_cont _ _ G z Hz)]|]); [exact I|].
  assert (F' := sm_down _ _ F). assert (G' := sm_down _ _ G).
  destruct F as [_ (Df & HDf & Hf)]. destruct G as [_ (Dg & HDg & Hg)].
  exists (fun j z => Df j z * g z + f z * Dg j z).
  split; [intros j Hj; apply sm_plus; apply IH; auto|].
  intros z w Hz. specialize (Hf z w Hz). specialize (Hg z w Hz).
  assert (E0 : (fun j => z j + 0 * w j) = z) by (apply functional_extensionality; intros; ring).
  replace (sumn n (fun j => (Df j z * g z + f z * Dg j z) * w j))
    with (sumn n (fun j => Df j z * w j) * g (fun j => z j + 0 * w j) + f (fun j => z j + 0 * w j) * sumn n (fun j => Dg j z * w j)).
  - apply (is_derive_mult (fun x => f (fun j => z j + x * w j)) (fun x => g (fun j => z j + x * w j)) 0); auto.
    intros; apply Rmult_comm.
  - rewrite E0, (sumn_ext n (fun j => (Df j z * g z + f z * Dg j z) * w j)
      (fun j => g z * (Df j z * w j) + f z * (Dg j z * w j))) by (intros; ring).
    rewrite sumn_lin. ring.
Qed.
Lemma sm_scale : forall k c f, sm k f -> sm k (fun z => c * f z).
Proof. intros k c f H. apply (sm_mult k (fun _ => c) f); [apply sm_const|exact H]. Qed.
Lemma sm_opp : forall k f, sm k f -> sm k (fun z => - f z).
Proof. intros k f H. apply (sm_ext k (fun z => -1 * f z)); [intros; ring|]. now apply sm_scale. Qed.
Lemma sm_minus : forall k f g, sm k f -> sm k g -> sm k (fun z => f z - g z).
Proof. intros k f g F G. apply (sm_plus k f (fun z => - g z)); [exact F|now apply sm_opp]. Qed.
Lemma sm_pow : forall k m f, sm k f -> sm k (fun z => f z ^ m).
Proof.
  induction m as [|m IH]; intros f H; cbn [pow]; [apply sm_const|].
  apply (sm_mult k f (fun z => f z ^ m)); auto.
Qed.

(** One-variable functions: the derivative rule. *)
Lemma sm_step : forall k (phi dphi : R -> R) g, sm (S k) g ->
  (forall z, U z -> is_derive phi (g z) (dphi (g z))) -> sm k (fun z => dphi (g z)) ->
  sm (S k) (fun z => phi (g z)).
Proof.
  intros k phi dphi g G Hp Hd.
  assert (C : forall z, U z -> continuous_at n (fun z => phi (g z)) z).
  { intros z Hz. apply cont_comp; [|exact (sm_cont _ _ G z Hz)].
    apply (ex_derive_continuous (V := R_NormedModule)). eexists. apply Hp, Hz. }
  split; [exact C|]. destruct G as [_ (Dg & HDg & Hg)].
  exists (fun j z => dphi (g z) * Dg j z). split; [intros j Hj; apply sm_mult; auto|].
  intros z w Hz. specialize (Hg z w Hz).
  assert (E0 : (fun j => z j + 0 * w j) = z) by (apply functional_extensionality; intros; ring).
  rewrite (sumn_ext n _ (fun j => dphi (g z) * (Dg j z * w j) + 0 * 0)) by (intros; ring).
  rewrite (sumn_lin n (dphi (g z)) 0 (fun j => Dg j z * w j) (fun _ => 0)).
  replace (dphi (g z) * sumn n (fun j => Dg j z * w j) + 0 * sumn n (fun _ => 0))
    with (scal (sumn n (fun j => Dg j z * w j)) (dphi (g z))) by (unfold scal; cbn; unfold mult; cbn; ring).
  apply (is_derive_comp (V := R_NormedModule) phi (fun x => g (fun j => z j + x * w j))); [|exact Hg].
  rewrite E0. apply Hp, Hz.
Qed.
Lemma sm_inv : forall k g, (forall z, U z -> g z <> 0) -> sm k g -> sm k (fun z => / g z).
Proof.
  intros k g H0. assert (D : forall z, U z -> is_derive Rinv (g z) ((fun y => - (/ y * / y)) (g z))).
  { intros z Hz. auto_derive; [now apply H0|]. specialize (H0 z Hz). field. exact H0. }
  induction k as [|k IH]; intros G.
  - split; [|exact I]. intros z Hz. apply cont_comp; [|exact (sm_cont _ _ G z Hz)].
    apply (ex_derive_continuous (V := R_NormedModule)). eexists. apply D, Hz.
  - apply (sm_step k Rinv (fun y => - (/ y * / y)) g G D).
    assert (I' := IH (sm_down _ _ G)). apply sm_opp, sm_mult; exact I'.
Qed.
Lemma sm_div : forall k f g, (forall z, U z -> g z <> 0) -> sm k f -> sm k g -> sm k (fun z => f z / g z).
Proof. intros k f g H F G. apply (sm_mult k f (fun z => / g z)); [exact F|now apply sm_inv]. Qed.
Lemma sm_sqrt : forall k g, (forall z, U z -> 0 < g z) -> sm k g -> sm k (fun z => sqrt (g z)).
Proof.
  intros k g H0. assert (D : forall z, U z -> is_derive sqrt (g z) ((fun y => / (2 * sqrt y)) (g z))).
  { intros z Hz. specialize (H0 z Hz). evar_last; [apply is_derive_sqrt; [apply is_derive_id|exact H0]|].
    unfold one; cbn. assert (0 < sqrt (g z)) by now apply sqrt_lt_R0. field. lra. }
  induction k as [|k IH]; intros G.
  - split; [|exact I]. intros z Hz. apply cont_comp; [|exact (sm_cont _ _ G z Hz)].
    apply (ex_derive_continuous (V := R_NormedModule)). eexists. apply D, Hz.
  - apply (sm_step k sqrt (fun y => / (2 * sqrt y)) g G D).
    assert (I' := IH (sm_down _ _ G)). apply (sm_inv k (fun z => 2 * sqrt (g z))).
    + intros z Hz. assert (0 < sqrt (g z)) by (apply sqrt_lt_R0, H0, Hz). lra.
    + apply sm_scale. exact I'.
Qed.
Lemma sm_sin_cos : forall k g, sm k g -> sm k (fun z => sin (g z)) /\ sm k (fun z => cos (g z)).
Proof.
  induction k as [|k IH]; intros g G.
  - split; (split; [|exact I]); intros z Hz.
    + apply cont_comp; [|exact (sm_cont _ _ G z Hz)].
      apply (ex_derive_continuous (V := R_NormedModule)). auto_derive. exact I.
    + apply cont_comp; [|exact (sm_cont _ _ G z Hz)].
      apply (ex_derive_continuous (V := R_NormedModule)). auto_derive. exact I.
  - destruct (IH g (sm_down _ _ G)) as [S C]. split.
    + apply (sm_step k sin cos g G); [|exact C]. intros z _. auto_derive; [exact I|ring].
    + apply (sm_step k cos (fun y => - sin y) g G); [|now apply sm_opp]. intros z _. auto_derive; [exact I|ring].
Qed.
Lemma sm_sin : forall k g, sm k g -> sm k (fun z => sin (g z)).
Proof. intros k g G. exact (proj1 (sm_sin_cos k g G)). Qed.
Lemma sm_cos : forall k g, sm k g -> sm k (fun z => cos (g z)).
Proof. intros k g G. exact (proj2 (sm_sin_cos k g G)). Qed.
End Closure.
