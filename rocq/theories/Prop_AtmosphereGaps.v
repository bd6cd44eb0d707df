(** * C12: the jumps between atmosphere layers are small (numeric bounds by interval arithmetic) *)
From Coq Require Import ZArith List Reals Lra Lia Bool Sorting.
From Coquelicot Require Import Coquelicot.
From Interval Require Import Tactic.
From Coq Require Import List.
From Verif Require Import Num Constants State Tables Config Planet Atmosphere Transformations
  Steering Vehicle RungeKutta Phase Simulation XR XRFacts SpecReal SystemFacts RunFacts PhaseNew
  Prop_Run Prop_Panics Prop_Atmosphere.
Import ListNotations.
Local Open Scope R_scope.

(** The size of the jump between the layer [l] and the next one, [l']. *)
Definition gap (l l' : layer) (dT dP : R) : Prop :=
  Rabs (T_of l (base l') - t_base l') <= dT /\ Rabs (P_of l (base l') - p_base l') <= dP * p_base l'.
Lemma gaps : forall i l l', nth_error layers i = Some l -> nth_error layers (S i) = Some l' ->
  i <> 10%nat -> i <> 11%nat -> gap l l' (2 / 10000) (if Nat.eqb i 12 then 2 / 1000 else 4 / 10000000).
Proof.
  intros i l l' Hi Hj N10 N11.
  assert (L : (S i < 22)%nat) by (exact (last_layer _ _ Hj)).
  unfold layers in Hi, Hj. unfold gap, P_of.
  do 21 (destruct i as [|i]; [cbn in Hi, Hj; injection Hi as <-; injection Hj as <-;
    unfold T_of; cbn [t_base lapse base p_base Nat.eqb];
    try (exfalso; congruence);
    (split; [unfold kelvin, foot; apply Rabs_le; lra|]);
    destruct (Req_EM_T _ 0) as [E|E];
    first [ exfalso; unfold kelvin, foot in E; lra | clear E ];
    unfold Rpower, gR, Rair, psf, kelvin, foot; interval with (i_prec 80)|]). lia.
Qed.


Section Code.
Context {rot : mat3 xr -> mat3 xr}.
Notation N := (XR rot).
Lemma at_base : forall l, 0 < t_base l -> T_of l (base l) = t_base l /\ P_of l (base l) = p_base l.
Proof.
  intros l Ht. assert (E : T_of l (base l) = t_base l) by (unfold T_of; ring). split; [exact E|].
  unfold P_of. destruct (Req_EM_T (lapse l) 0).
  - replace (- gR * (base l - base l) / t_base l) with 0 by (unfold Rdiv; ring). rewrite exp_0. ring.
  - rewrite E. unfold Rdiv at 1. rewrite Rinv_r by lra. unfold Rpower. rewrite ln_1, Rmult_0_r, exp_0. ring.
Qed.
Lemma near : forall f x d e, is_derive f x d -> 0 < e -> locally x (fun y : R => Rabs (f y - f x) < e).
Proof.
  intros f x d e H He.
  assert (C : continuous f x) by (apply (ex_derive_continuous (V := R_NormedModule)); exists d; exact H).
  exact (C (fun y : R => Rabs (y - f x) < e) (locally_ball (f x) (mkposreal e He))).
Qed.
(** At every other boundary between two layers the temperature jumps by less than 0.0003 K
    and the pressure by less than 0.3 per cent.  (Between boundaries there is no jump at all:
    [C12_hydrostatic].) *)
Theorem C12_continuous_partial : exists T P : R -> R,
  (forall a, sa_temperature (N := N) (Fin a) = Ret (Fin (T a)) /\ sa_pressure (N := N) (Fin a) = Ret (Fin (P a))) /\
  forall i l, nth_error layers (S i) = Some l -> i <> 10%nat -> i <> 11%nat ->
    exists d, 0 < d /\ forall a, base l - d < a < base l ->
      Rabs (T a - T (base l)) < 3 / 10000 /\ Rabs (P a - P (base l)) < 3 / 1000 * P (base l).
Proof.
  exists (fun a => T_of (at_altitude a) a), (fun a => P_of (at_altitude a) a). split.
  { intros a. destruct (at_altitude_applies a) as [i H]. split.
    - exact (sa_temperature_fin i _ a H).
    - exact (sa_pressure_fin i _ a H). }
  intros i l' Hj N10 N11.
  destruct (nth_error layers i) as [l|] eqn:Hi.
  2:{ apply nth_error_None in Hi. apply last_layer in Hj. unfold layers in Hi. rewrite map_length in Hi. cbn in Hi. lia. }
  assert (Pos := layers_positive). rewrite Forall_forall in Pos.
  destruct (Pos l (nth_error_In _ _ Hi)) as [P1 T1]. destruct (Pos l' (nth_error_In _ _ Hj)) as [P2 T2].
  destruct (at_base l' T2) as [ET EP].
  assert (A' : applies (S i) l' (base l')).
  { split; [exact Hj|]. split; [right; lra|]. intros j r Hr Hlt. exact (layer_order (S i) j _ _ Hj Hr Hlt). }
  rewrite (at_altitude_unique _ _ _ A'), ET, EP.
  assert (TT := top_positive i l l' Hi Hj).
  destruct (gaps i l l' Hi Hj N10 N11) as [G1 G2].
  assert (Eps : 0 < 1 / 2000 * p_base l') by lra.
  destruct (near _ _ _ (1 / 20000) (T_derive l (base l')) ltac:(lra)) as [d1 L1].
  destruct (near _ _ _ _ (P_derive l (base l') T1 TT) Eps) as [d2 L2].
  assert (Hlt := layer_order i (S i) _ _ Hi Hj (Nat.lt_succ_diag_r i)).
  exists (Rmin (Rmin d1 d2) (base l' - base l)). split.
  { repeat apply Rmin_glb_lt; try apply cond_pos. lra. }
  intros a [Ha Hb].
  assert (M1 := Rmin_l (Rmin d1 d2) (base l' - base l)). assert (M2 := Rmin_r (Rmin d1 d2) (base l' - base l)).
  assert (M3 := Rmin_l d1 d2). assert (M4 := Rmin_r d1 d2).
  assert (A : applies i l a).
  { split; [exact Hi|]. split; [right; lra|]. intros j r Hr Hlt2.
    destruct (Nat.eq_dec j (S i)) as [->|Hne]; [congruence|].
    assert (base l' < base r) by (apply (layer_order (S i) j); auto; lia). lra. }
  rewrite (at_altitude_unique _ _ _ A).
  assert (B1 : Rabs (T_of l a - T_of l (base l')) < 1 / 20000).
  { apply L1. unfold ball. cbn. unfold AbsRing_ball, abs, minus, plus, opp. cbn. apply Rabs_def1; lra. }
  assert (B2 : Rabs (P_of l a - P_of l (base l')) < 1 / 2000 * p_base l').
  { apply L2. unfold ball. cbn. unfold AbsRing_ball, abs, minus, plus, opp. cbn. apply Rabs_def1; lra. }
  assert (G3 : (if Nat.eqb i 12 then 2 / 1000 else 4 / 10000000) * p_base l' <= 2 / 1000 * p_base l')
    by (destruct (Nat.eqb i 12); nra).
  assert (G4 := Rle_trans _ _ _ G2 G3). apply Rabs_le_between in G1, G4. apply Rabs_lt_between in B1, B2.
  split; apply Rabs_def1; lra.
Qed.

(** Base pressures strictly decrease. *)
Lemma p_base_order : forall i j x y, nth_error layers i = Some x -> nth_error layers j = Some y ->
  (i < j)%nat -> p_base y < p_base x.
Proof.
  assert (S : StronglySorted (fun x y => p_base y < p_base x) layers).
  { apply Sorted_StronglySorted; [intros x y z; lra|]. assert (P := psf_pos).
    unfold layers. cbn [map us_customary].
    repeat constructor; cbn [p_base]; apply Rmult_lt_compat_r; try exact P; lra. }
  revert S. generalize layers. intros l H. induction H as [|a l H IH F]; intros i j x y Hi Hj Hlt.
  - destruct i; discriminate.
  - destruct j as [|j]; [lia|]. cbn in Hj. destruct i as [|i].
    + cbn in Hi. injection Hi as <-. rewrite Forall_forall in F. apply F. eapply nth_error_In. exact Hj.
    + cbn in Hi. apply (IH i j); auto. lia.
Qed.
Lemma p_base_max : forall i l a, applies i l a -> i <> O -> P_of l a <= p_base l.
Proof.
  intros i l a H Hne. destruct (applies_positive i l a H) as (PT & PP & PB).
  destruct H as (Hi & Hb & _). destruct Hb as [?|Hb]; [congruence|].
  destruct (at_base l PB) as [ET EP]. destruct Hb as [Hb|Hb].
  - rewrite <- EP. apply Rlt_le. apply P_decreasing; auto. rewrite ET. exact PB.
  - rewrite <- Hb, EP. lra.
Qed.
(** Except from the layer between 108 and 121 km, going up never increases the pressure by
    more than 0.3 per cent; starting below 108 km, by no more than one part per million. *)
Theorem C12_pressure_partial : forall a b i l Pa Pb, a < b -> applies i l a -> i <> 10%nat ->
  sa_pressure (N := N) (Fin a) = Ret (Fin Pa) -> sa_pressure (N := N) (Fin b) = Ret (Fin Pb) ->
  Pb < (1 + 3 / 1000) * Pa /\ ((i < 10)%nat -> Pb < (1 + 1 / 1000000) * Pa).
Proof.
  intros a b i l Pa Pb Hab Ha N10 Ea Eb.
  destruct (C10_selects (rot := rot) b) as (j & l2 & Hb & _).
  rewrite (sa_pressure_fin i l a Ha) in Ea. rewrite (sa_pressure_fin j l2 b Hb) in Eb.
  injection Ea as <-. injection Eb as <-.
  assert (PPa := P_of_pos i l a Ha).
  destruct (Nat.eq_dec i j) as [<-|Hne].
  { assert (E : l2 = l) by (destruct Ha, Hb; congruence). subst l2.
    destruct (applies_positive i l a Ha) as (T1 & P1 & B1). destruct (applies_positive i l b Hb) as (T2 & _ & _).
    assert (P_of l b < P_of l a) by (now apply P_decreasing). split; [|intros _]; lra. }
  assert (Hij : (i < j)%nat).
  { destruct (Nat.lt_trichotomy i j) as [?|[?|H]]; [auto|congruence|exfalso].
    destruct Ha as (A1 & A2 & A3), Hb as (B1 & B2 & B3). assert (b < base l) by (exact (B3 i l A1 H)).
    destruct A2; [lia|lra]. }
  destruct (nth_error layers (S i)) as [l1|] eqn:E1.
  2:{ apply nth_error_None in E1. destruct Hb as [Hb _]. assert (nth_error layers j <> None) by congruence.
      apply nth_error_Some in H. lia. }
  assert (Pj : P_of l2 b <= p_base l2) by (apply (p_base_max j); [exact Hb|lia]).
  assert (Pj1 : p_base l2 <= p_base l1).
  { destruct (Nat.eq_dec j (S i)) as [->|Hn]; [destruct Hb as [Hb _]; rewrite E1 in Hb; injection Hb as ->; lra|].
    apply Rlt_le. destruct Hb as [Hb _]. apply (p_base_order (S i) j); auto. lia. }
  assert (Hi := proj1 Ha). assert (TT := top_positive i l l1 Hi E1).
  destruct (applies_positive i l a Ha) as (T1 & P1 & B1).
  assert (Hlt : a < base l1) by (exact (proj2 (proj2 Ha) (S i) l1 E1 (Nat.lt_succ_diag_r i))).
  assert (D : P_of l (base l1) < P_of l a) by (now apply P_decreasing).
  assert (Pos := layers_positive). rewrite Forall_forall in Pos.
  destruct (Pos l1 (nth_error_In _ _ E1)) as [P2 _].
  destruct (Nat.eq_dec i 11) as [->|N11].
  - (* the drop at 146 km *)
    assert (p_base l1 < P_of l (base l1)).
    { cbn in Hi, E1. injection Hi as <-. injection E1 as <-. unfold P_of.
      unfold T_of; cbn [t_base lapse base p_base].
      destruct (Req_EM_T _ 0) as [E|E]; [exfalso; unfold kelvin, foot in E; lra|].
      unfold Rpower, gR, Rair, psf, kelvin, foot; interval with (i_prec 80). }
    split; [lra|lia].
  - destruct (gaps i l l1 Hi E1 N10 N11) as [_ G].
    assert (G' : (if Nat.eqb i 12 then 2 / 1000 else 4 / 10000000) <= 2 / 1000) by (destruct (Nat.eqb i 12); lra).
    apply Rabs_le_between in G. split; [nra|].
    intros L10. replace (Nat.eqb i 12) with false in G by (symmetry; apply Nat.eqb_neq; lia). nra.
Qed.
End Code.
