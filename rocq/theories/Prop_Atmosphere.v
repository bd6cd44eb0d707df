(** * C10 - C12: the standard atmosphere *)
From Coq Require Import ZArith List Reals Lra Lia Bool Sorting.
From Coquelicot Require Import Coquelicot.
From Coq Require Import List.
From Verif Require Import Num Constants State Tables Config Planet Atmosphere Transformations
  Steering Vehicle RungeKutta Phase Simulation XR XRFacts SpecReal SystemFacts RunFacts PhaseNew
  Prop_Run Prop_Panics.
Import ListNotations.
Local Open Scope R_scope.

(** ** The table in real numbers *)
(** A row: base altitude, pressure, temperature, temperature gradient. *)
Record layer := { base : R; p_base : R; t_base : R; lapse : R }.
Definition foot : R := 3048 / 10000.
Definition kelvin : R := 1 / (18 / 10).
Definition psf : R := 4535924 / 10000000 * (980665 / 100000) / (foot * foot).
(** Gas constant of air, and g0 over it. *)
Definition Rair : R := 831432 / 100 / (289644 / 10000).
Definition gR : R := 980665 / 100000 / Rair.
(** Feet, pounds per square foot, Rankine, Rankine per foot. *)
Definition us_customary (x : R * R * R * R) : layer :=
  let '(h, p, t, l) := x in
  Build_layer (h * foot) (p * psf) (t * kelvin) (l * kelvin / foot).
Definition layers : list layer := map us_customary [
   (0, 21162166 / 10000, 51867 / 100, - (356616 / 100000000));
   (36089239 / 1000, 4726805 / 10000, 38997 / 100, 0);
   (65616797 / 1000, 11434543 / 100000, 38997 / 100, 54863995 / 100000000000);
   (10498687 / 100, 18128948 / 1000000, 41157 / 100, 1536192 / 1000000000);
   (15419948 / 100, 23163263 / 10000000, 48717 / 100, 0);
   (17060368 / 100, 12322603 / 10000000, 48717 / 100, - (10972801 / 10000000000));
   (20013123 / 100, 38032532 / 100000000, 45477 / 100, - (219456 / 100000000));
   (25918635 / 100, 21673064 / 1000000000, 32517 / 100, 0);
   (29115157 / 100, 34333824 / 10000000000, 32517 / 100, 1695385 / 1000000000);
   (32300274 / 100, 62814785 / 100000000000, 37917 / 100, 28345707 / 10000000000);
   (35475359 / 100, 15361733 / 100000000000, 46917 / 100, 56867005 / 10000000000);
   (39640639 / 100, 52676024 / 1000000000000, 64917 / 100, 11443751 / 1000000000);
   (48078104 / 100, 10566108 / 1000000000000, 172917 / 100, 86358208 / 10000000000);
   (51204616 / 100, 77263469 / 10000000000000, 199917 / 100, 57749093 / 10000000000);
   (54321548 / 100, 58405376 / 10000000000000, 217917 / 100, 40610461 / 10000000000);
   (60526845 / 100, 3524603 / 1000000000000, 243117 / 100, 29274135 / 10000000000);
   (72824391 / 100, 14559124 / 10000000000000, 279117 / 100, 23812804 / 10000000000);
   (93989474 / 100, 39418091 / 100000000000000, 329517 / 100, 201526 / 100000000);
   (12346457 / 10, 84380249 / 1000000000000000, 388917 / 100, 16354849 / 10000000000);
   (15207994 / 10, 22945543 / 1000000000000000, 435717 / 100, 11010085 / 10000000000);
   (17987264 / 10, 72259271 / 10000000000000000, 466317 / 100, 73319725 / 100000000000);
   (20687765 / 10, 24958752 / 10000000000000000, 486117 / 100, 0)].

(** Temperature and pressure of a layer's formulas at altitude [a]. *)
Definition T_of (r : layer) (a : R) : R := t_base r + lapse r * (a - base r).
Definition P_of (r : layer) (a : R) : R :=
  if Req_EM_T (lapse r) 0
  then p_base r * exp (- gR * (a - base r) / t_base r)
  else p_base r * Rpower (t_base r / T_of r a) (gR / lapse r).
(** [r] is the [i]-th layer and applies at altitude [a]: it is the last one whose base is
    not above [a] (the first one also applies below its base). *)
Definition applies (i : nat) (r : layer) (a : R) : Prop :=
  nth_error layers i = Some r /\ (i = O \/ base r <= a) /\
  forall j r', nth_error layers j = Some r' -> (i < j)%nat -> a < base r'.

Lemma foot_pos : 0 < foot. Proof. unfold foot. lra. Qed.
Lemma psf_pos : 0 < psf.
Proof. unfold psf, foot. apply Rdiv_lt_0_compat; lra. Qed.
Lemma Rair_pos : 0 < Rair.
Proof. unfold Rair. apply Rdiv_lt_0_compat; lra. Qed.
Lemma gR_pos : 0 < gR.
Proof. unfold gR. apply Rdiv_lt_0_compat; [lra|apply Rair_pos]. Qed.

(** Base altitudes strictly increase. *)
Lemma layers_sorted : StronglySorted (fun x y => base x < base y) layers.
Proof.
  apply Sorted_StronglySorted; [intros x y z; lra|].
  unfold layers. cbn [map us_customary].
  repeat constructor; cbn [base]; unfold foot; lra.
Qed.
Lemma sorted_nth : forall l, StronglySorted (fun x y => base x < base y) l ->
  forall i j x y, nth_error l i = Some x -> nth_error l j = Some y -> (i < j)%nat -> base x < base y.
Proof.
  intros l H. induction H as [|a l H IH F]; intros i j x y Hi Hj Hlt.
  - destruct i; discriminate.
  - destruct j as [|j]; [lia|]. cbn in Hj. destruct i as [|i].
    + cbn in Hi. injection Hi as <-. rewrite Forall_forall in F. apply F. eapply nth_error_In. exact Hj.
    + cbn in Hi. apply (IH i j); auto. lia.
Qed.
Lemma layer_order : forall i j x y, nth_error layers i = Some x -> nth_error layers j = Some y ->
  (i < j)%nat -> base x < base y.
Proof. apply sorted_nth. apply layers_sorted. Qed.

(** Exactly one layer applies. *)
Lemma applies_unique : forall a i r i' r', applies i r a -> applies i' r' a -> i = i' /\ r = r'.
Proof.
  intros a i r i' r' (N1 & B1 & A1) (N2 & B2 & A2).
  assert (i = i').
  { destruct (Nat.lt_trichotomy i i') as [H|[H|H]]; [|exact H|].
    - assert (a < base r') by (apply (A1 i'); auto). destruct B2; [lia|lra].
    - assert (a < base r) by (apply (A2 i); auto). destruct B1; [lia|lra]. }
  subst i'. split; [reflexivity|]. congruence.
Qed.

(** Everything in an applicable layer is positive. *)
Lemma layers_positive : Forall (fun r => 0 < p_base r /\ 0 < t_base r) layers.
Proof.
  assert (F := foot_pos). assert (P := psf_pos). unfold layers. cbn [map us_customary].
  repeat constructor; cbn [p_base t_base]; unfold kelvin; try lra;
    (apply Rmult_lt_0_compat; [lra|exact P]).
Qed.
Lemma T_of_affine : forall r a b, T_of r b = T_of r a + lapse r * (b - a).
Proof. intros r a b. unfold T_of. ring. Qed.
(** With a negative gradient the temperature is still positive at the top of the layer. *)
Lemma top_positive : forall i r r', nth_error layers i = Some r -> nth_error layers (S i) = Some r' ->
  0 < T_of r (base r').
Proof.
  intros i r r' Hi Hj.
  assert (L : (S i < 22)%nat).
  { assert (nth_error layers (S i) <> None) by congruence. apply nth_error_Some in H.
    unfold layers in H. rewrite map_length in H. exact H. }
  unfold layers in Hi, Hj.
  do 21 (destruct i as [|i]; [cbn in Hi, Hj; injection Hi as <-; injection Hj as <-;
    unfold T_of; cbn [t_base lapse base]; unfold kelvin, foot; lra|]). lia.
Qed.
Lemma last_layer : forall i r, nth_error layers i = Some r -> (i < 22)%nat.
Proof.
  intros i r H. assert (nth_error layers i <> None) by congruence. apply nth_error_Some in H0.
  unfold layers in H0. rewrite map_length in H0. exact H0.
Qed.
Lemma first_lapse : forall r, nth_error layers 0 = Some r -> lapse r < 0 /\ base r = 0.
Proof.
  intros r H. cbn in H. injection H as <-. cbn [lapse base]. unfold kelvin, foot. split; [|lra].
  unfold Rdiv. lra.
Qed.
Lemma top_lapse : forall r, nth_error layers 21 = Some r -> lapse r = 0.
Proof. intros r H. cbn in H. injection H as <-. cbn [lapse]. unfold kelvin, foot. lra. Qed.

Lemma applies_positive : forall i r a, applies i r a -> 0 < T_of r a /\ 0 < p_base r /\ 0 < t_base r.
Proof.
  intros i r a (Hi & Hb & Ha).
  assert (Pos := layers_positive). rewrite Forall_forall in Pos.
  destruct (Pos r (nth_error_In _ _ Hi)) as [P T]. split; [|split; assumption].
  assert (Li := last_layer _ _ Hi).
  destruct (Rle_lt_dec 0 (lapse r)) as [L|L].
  - destruct i as [|i]; [destruct (first_lapse r Hi); lra|].
    destruct Hb as [?|Hb]; [discriminate|]. unfold T_of. nra.
  - destruct (Nat.eq_dec i 21) as [->|Hne]; [rewrite (top_lapse r Hi) in L; lra|].
    destruct (nth_error layers (S i)) as [r'|] eqn:E.
    2:{ apply nth_error_None in E. unfold layers in E. rewrite map_length in E. cbn in E. lia. }
    assert (H := top_positive i r r' Hi E). assert (Hlt := Ha (S i) r' E (Nat.lt_succ_diag_r i)).
    rewrite (T_of_affine r (base r') a). nra.
Qed.

(** The applicable layer as a function. *)
Fixpoint select (a : R) (r : layer) (rest : list layer) : layer :=
  match rest with
  | [] => r
  | r' :: rest => if Rlt_dec a (base r') then r else select a r' rest
  end.

Section Code.
Context {rot : mat3 xr -> mat3 xr}.
Notation N := (XR rot).
Definition finrow (r : layer) : row (N := N) := (Fin (base r), Fin (p_base r), Fin (t_base r), Fin (lapse r)).

Lemma table_fin : STD_ATMOS_TABLE (N := N) = map finrow layers.
Proof.
  assert (F := foot_pos).
  assert (KE : KELVIN_PER_RANKIN (N := N) = Fin kelvin).
  { unfold KELVIN_PER_RANKIN. xrs. rewrite xdiv_fin by lra. reflexivity. }
  assert (FE : METER_PER_FOOT (N := N) = Fin foot).
  { unfold METER_PER_FOOT. xrs. reflexivity. }
  assert (PE : PASCAL_PER_PSF (N := N) = Fin psf).
  { unfold PASCAL_PER_PSF, KILOGRAM_PER_POUND, STD_GRAVITY, SQUARE_METER_PER_SQUARE_FOOT. rewrite FE.
    xrs. rewrite xdiv_fin by nra. reflexivity. }
  unfold STD_ATMOS_TABLE, layers, finrow. rewrite KE, FE, PE. cbn [map us_customary base p_base t_base lapse].
  clear FE PE KE. generalize psf kelvin. intros q k. revert F. generalize foot. intros f F.
  xrs. rewrite !xdiv_fin by lra. reflexivity.
Qed.

Lemma nth_table : forall i r, nth_error (STD_ATMOS_TABLE (N := N)) i = Some r ->
  exists l, r = finrow l /\ nth_error layers i = Some l.
Proof.
  intros i r H. rewrite table_fin in H. rewrite nth_error_map in H.
  destruct (nth_error layers i) as [l|]; [|discriminate]. injection H as <-. eauto.
Qed.

(** ** C10 *)
(** The row used at the real altitude [a] is the one that applies. *)
Theorem C10_selects : forall a, exists i l, applies i l a /\ get_table_row (N := N) (Fin a) = Ret (finrow l).
Proof.
  intros a. destruct (C10_total (N := N) (Fin a)) as (i & r & Hr & Hi & Hlo & Hhi).
  destruct (nth_table i r Hi) as [l [-> Hl]]. exists i, l. split; [|exact Hr].
  split; [exact Hl|]. split.
  - destruct i as [|i]; [left; reflexivity|]. right.
    assert (G := Hlo (S i) (finrow l)). cbn [row_alt finrow] in G.
    assert (G2 : Rltb a (base l) = false) by (apply G; [lia|exact Hi]).
    now apply Rltb_iff_false in G2.
  - assert (Hnext : forall r', nth_error layers (S i) = Some r' -> a < base r').
    { intros r' E. assert (G : n_ltb (n := N) (Fin a) (row_alt (finrow r')) = true).
      { apply Hhi. rewrite table_fin, nth_error_map, E. reflexivity. }
      cbn [row_alt finrow] in G. now apply Rltb_iff. }
    intros j r' Hj Hij. destruct (Nat.eq_dec j (S i)) as [->|Hne]; [auto|].
    destruct (nth_error layers (S i)) as [r1|] eqn:E.
    2:{ apply nth_error_None in E. assert (nth_error layers j <> None) by congruence.
        apply nth_error_Some in H. lia. }
    assert (base r1 < base r') by (apply (layer_order (S i) j); auto; lia).
    assert (a < base r1) by auto. lra.
Qed.

(** ** C11 *)
Lemma AIR_fin : AIR_GAS_CONSTANT (N := N) = Fin Rair.
Proof.
  unfold AIR_GAS_CONSTANT, GAS_CONSTANT, AIR_MOLECULAR_WEIGHT. xrs. rewrite xdiv_fin by lra. reflexivity.
Qed.
Lemma sa_temperature_fin : forall i l a, applies i l a -> sa_temperature (N := N) (Fin a) = Ret (Fin (T_of l a)).
Proof.
  intros i l a H. destruct (C10_selects a) as (i' & l' & H' & E).
  destruct (applies_unique a i l i' l' H H') as [<- <-].
  unfold sa_temperature. rewrite E. unfold finrow. cbn [bind]. xrs. reflexivity.
Qed.
Lemma sa_pressure_fin : forall i l a, applies i l a -> sa_pressure (N := N) (Fin a) = Ret (Fin (P_of l a)).
Proof.
  intros i l a H. destruct (C10_selects a) as (i' & l' & H' & E).
  destruct (applies_unique a i l i' l' H H') as [<- <-].
  destruct (applies_positive i l a H) as (PT & PP & PB). assert (PR := Rair_pos).
  unfold sa_pressure. rewrite E. unfold finrow. cbn [bind]. rewrite (sa_temperature_fin i l a H). cbn [bind].
  rewrite AIR_fin. unfold STD_GRAVITY, P_of. xrs. rewrite (xdiv_fin (980665 / 100000) Rair) by lra.
  unfold Reqb. destruct (Req_EM_T (lapse l) 0) as [EL|EL]; cbn [negb].
  - xrs. rewrite xdiv_fin by lra. xrs. reflexivity.
  - rewrite !xdiv_fin by lra. rewrite xpowf_fin by (apply Rdiv_lt_0_compat; assumption).
    xrs. reflexivity.
Qed.
Lemma P_of_pos : forall i l a, applies i l a -> 0 < P_of l a.
Proof.
  intros i l a H. destruct (applies_positive i l a H) as (PT & PP & PB). unfold P_of.
  destruct (Req_EM_T (lapse l) 0); apply Rmult_lt_0_compat; try assumption; [apply exp_pos|].
  unfold Rpower. apply exp_pos.
Qed.

(** Temperature, pressure, density and speed of sound at every real geopotential
    altitude: positive, and related by the ideal gas law. *)
Theorem C11_atmosphere : forall a, exists T P D A,
  sa_temperature (N := N) (Fin a) = Ret (Fin T) /\ sa_pressure (N := N) (Fin a) = Ret (Fin P) /\
  sa_density (N := N) (Fin a) = Ret (Fin D) /\ sa_speed_of_sound (N := N) (Fin a) = Ret (Fin A) /\
  0 < T /\ 0 < P /\ 0 < D /\ 0 < A /\
  P = D * (831432 / 100 / (289644 / 10000)) * T /\
  A * A = 14 / 10 * (831432 / 100 / (289644 / 10000)) * T.
Proof.
  intros a. destruct (C10_selects a) as (i & l & H & _). fold Rair.
  assert (ET := sa_temperature_fin i l a H). assert (EP := sa_pressure_fin i l a H).
  destruct (applies_positive i l a H) as (PT & _ & _). assert (PP := P_of_pos i l a H).
  assert (PR := Rair_pos).
  assert (PTR : 0 < T_of l a * Rair) by (now apply Rmult_lt_0_compat).
  assert (PK : 0 < 14 / 10 * Rair * T_of l a) by (repeat apply Rmult_lt_0_compat; lra).
  exists (T_of l a), (P_of l a), (P_of l a / (T_of l a * Rair)), (sqrt (14 / 10 * Rair * T_of l a)).
  split; [exact ET|]. split; [exact EP|]. split; [|split].
  - unfold sa_density. rewrite ET, EP. cbn [bind]. rewrite AIR_fin. xrs. rewrite xdiv_fin by lra. reflexivity.
  - unfold sa_speed_of_sound. rewrite ET. cbn [bind]. rewrite AIR_fin. unfold AIR_KAPPA. xrs.
    rewrite xsqrt_fin by lra. reflexivity.
  - split; [exact PT|]. split; [exact PP|]. split; [now apply Rdiv_lt_0_compat|].
    split; [now apply sqrt_lt_R0|]. split; [field; lra|]. apply sqrt_sqrt. lra.
Qed.
(** Reported states of a phase with atmosphere. *)
Theorem C11_reported : forall (cs : list (PhaseConfig N)) (p : Phase N) s a v,
  reported cs p s -> at_model (ph_atmosphere p) = StandardAtmosphere1962 ->
  st_altitude_geopotential s = Fin a -> st_velocity_atmosphere s = finv v ->
  exists T P D A,
    st_temperature s = Fin T /\ st_pressure s = Fin P /\ st_density s = Fin D /\
    0 < T /\ 0 < P /\ 0 < D /\ 0 < A /\
    P = D * (831432 / 100 / (289644 / 10000)) * T /\
    A * A = 14 / 10 * (831432 / 100 / (289644 / 10000)) * T /\
    st_mach_number s = Fin (normR v / A) /\
    st_dynamic_pressure s = Fin (D * (normR v * normR v) / 2).
Proof.
  intros cs p s a v H Hm Ha Hv. destruct (C37_reported cs p s H) as [s0 E].
  destruct (C11_atmosphere a) as (T & P & D & A & ET & EP & ED & EA & PT & PP & PD & PA & G1 & G2).
  exists T, P, D, A.
  assert (X1 := e_temperature _ _ _ E). unfold at_temperature in X1. rewrite Hm, Ha, ET in X1. injection X1 as X1.
  assert (X2 := e_pressure _ _ _ E). unfold at_pressure in X2. rewrite Hm, Ha, EP in X2. injection X2 as X2.
  assert (X3 := e_density _ _ _ E). unfold at_density in X3. rewrite Hm, Ha, ED in X3. injection X3 as X3.
  assert (X4 := e_mach_number _ _ _ E). unfold at_mach_number, at_speed_of_sound in X4. rewrite Hm, Ha, EA in X4.
  cbn [bind] in X4. rewrite Hv, norm_fin in X4. injection X4 as X4.
  assert (X5 := e_dynamic_pressure _ _ _ E). unfold at_dynamic_pressure in X5. rewrite <- X3, Hv, norm_fin in X5.
  split; [now rewrite <- X1|]. split; [now rewrite <- X2|]. split; [now rewrite <- X3|].
  repeat (split; [assumption|]). split.
  - rewrite <- X4. apply xdiv_fin. lra.
  - rewrite X5. xrs. f_equal. field.
Qed.

(** ** C12 *)
(** The profiles as real functions. *)
Definition at_altitude (a : R) : layer :=
  match layers with [] => Build_layer 0 0 0 0 | r :: rest => select a r rest end.
Lemma select_spec : forall rest r a, exists i, nth_error (r :: rest) i = Some (select a r rest) /\
  (i = O \/ base (select a r rest) <= a) /\
  (forall r', nth_error (r :: rest) (S i) = Some r' -> a < base r').
Proof.
  induction rest as [|r1 rest IH]; intros r a.
  - exists O. cbn. split; [reflexivity|]. split; [auto|]. discriminate.
  - cbn [select]. destruct (Rlt_dec a (base r1)) as [H|H].
    + exists O. split; [reflexivity|]. split; [auto|]. cbn. intros r' [= <-]. exact H.
    + destruct (IH r1 a) as (i & A & B & C). exists (S i). split; [exact A|]. split; [|exact C].
      right. destruct B as [->|B]; [|exact B]. cbn in A. injection A as A. rewrite <- A. lra.
Qed.
Lemma at_altitude_applies : forall a, exists i, applies i (at_altitude a) a.
Proof.
  intros a. unfold at_altitude. destruct layers as [|r rest] eqn:E; [discriminate E|].
  destruct (select_spec rest r a) as (i & A & B & C). exists i.
  unfold applies. rewrite E. split; [exact A|]. split; [exact B|].
  intros j r' Hj Hij. destruct (Nat.eq_dec j (S i)) as [->|Hne]; [auto|].
  destruct (nth_error (r :: rest) (S i)) as [r1|] eqn:E1.
  2:{ apply nth_error_None in E1. assert (nth_error (r :: rest) j <> None) by congruence.
      apply nth_error_Some in H. lia. }
  assert (base r1 < base r').
  { rewrite <- E in *. apply (layer_order (S i) j); auto. lia. }
  assert (a < base r1) by auto. lra.
Qed.
Lemma at_altitude_unique : forall i r a, applies i r a -> at_altitude a = r.
Proof.
  intros i r a H. destruct (at_altitude_applies a) as [i' H'].
  now destruct (applies_unique a i r i' (at_altitude a) H H').
Qed.

Lemma T_derive : forall r a, is_derive (T_of r) a (lapse r).
Proof. intros r a. unfold T_of. auto_derive; [exact I|ring]. Qed.
Lemma P_derive : forall r a, 0 < t_base r -> 0 < T_of r a ->
  is_derive (P_of r) a (- (P_of r a) * gR / T_of r a).
Proof.
  intros r a Ht HT. unfold P_of, T_of in *. destruct (Req_EM_T (lapse r) 0) as [E|E].
  - rewrite E. auto_derive; [exact I|].
    replace (- gR * (a + - base r) * / t_base r) with (- gR * (a - base r) / t_base r) by (unfold Rdiv; ring).
    generalize (exp (- gR * (a - base r) / t_base r)). intros e. field. lra.
  - unfold Rpower. auto_derive.
    + split; [lra|]. split; [|exact I]. apply Rdiv_lt_0_compat; [exact Ht|]. lra.
    + replace (a + - base r) with (a - base r) by ring.
      unfold Rdiv. generalize (exp (gR * / lapse r * ln (t_base r * / (t_base r + lapse r * (a - base r))))).
      intros e. field. repeat split; lra.
Qed.
Lemma P_decreasing : forall r a b, 0 < p_base r -> 0 < t_base r -> 0 < T_of r a -> 0 < T_of r b -> a < b ->
  P_of r b < P_of r a.
Proof.
  intros r a b Hp Ht Ha Hb Hab. assert (G := gR_pos). unfold P_of.
  destruct (Req_EM_T (lapse r) 0) as [E|E]; apply Rmult_lt_compat_l; try exact Hp; [|unfold Rpower];
    apply exp_increasing.
  - unfold Rdiv. apply Rmult_lt_compat_r; [now apply Rinv_0_lt_compat|]. nra.
  - unfold Rdiv at 2 4. rewrite !ln_mult by (try apply Rinv_0_lt_compat; assumption).
    rewrite !ln_Rinv by assumption.
    assert (D : T_of r b - T_of r a = lapse r * (b - a)) by (unfold T_of; ring).
    destruct (Rlt_dec 0 (lapse r)) as [L|L].
    + assert (ln (T_of r a) < ln (T_of r b)) by (apply ln_increasing; nra).
      assert (0 < gR / lapse r) by (now apply Rdiv_lt_0_compat). nra.
    + assert (ln (T_of r b) < ln (T_of r a)) by (apply ln_increasing; nra).
      assert (gR / lapse r < 0).
      { unfold Rdiv. assert (/ lapse r < 0) by (apply Rinv_lt_0_compat; lra). nra. }
      nra.
Qed.

(** Inside a layer - at altitudes that are not the base of a layer - the temperature
    changes at the layer's gradient and the pressure satisfies the hydrostatic equation. *)
Theorem C12_hydrostatic : exists T P : R -> R,
  (forall a, sa_temperature (N := N) (Fin a) = Ret (Fin (T a)) /\ sa_pressure (N := N) (Fin a) = Ret (Fin (P a))) /\
  forall a i l, applies i l a -> (i = O \/ base l < a) ->
    is_derive T a (lapse l) /\
    is_derive P a (- (P a) * (980665 / 100000) / ((831432 / 100 / (289644 / 10000)) * T a)).
Proof.
  exists (fun a => T_of (at_altitude a) a), (fun a => P_of (at_altitude a) a). split.
  { intros a. destruct (at_altitude_applies a) as [i H]. split.
    - exact (sa_temperature_fin i _ a H).
    - exact (sa_pressure_fin i _ a H). }
  intros a i l H Hs. assert (El := at_altitude_unique i l a H).
  assert (Loc : locally a (fun b => at_altitude b = l)).
  { destruct H as (Hi & Hb & Ha).
    destruct (nth_error layers (S i)) as [r'|] eqn:E.
    - assert (L1 : locally a (fun b => b < base r')).
      { apply (open_lt (base r')). exact (Ha (S i) r' E (Nat.lt_succ_diag_r i)). }
      assert (L2 : locally a (fun b => i = O \/ base l < b)).
      { destruct Hs as [->|Hs]; [apply filter_forall; auto|].
        apply filter_imp with (fun b => base l < b); [auto|]. exact (open_gt (base l) a Hs). }
      generalize (filter_and _ _ L1 L2). apply filter_imp. intros b [B1 B2].
      apply (at_altitude_unique i). split; [exact Hi|]. split.
      + destruct B2 as [?|?]; [auto|right; lra].
      + intros j r2 Hj Hij. destruct (Nat.eq_dec j (S i)) as [->|Hne]; [congruence|].
        assert (base r' < base r2) by (apply (layer_order (S i) j); auto; lia). lra.
    - assert (L2 : locally a (fun b => i = O \/ base l < b)).
      { destruct Hs as [->|Hs]; [apply filter_forall; auto|].
        apply filter_imp with (fun b => base l < b); [auto|]. exact (open_gt (base l) a Hs). }
      generalize L2. apply filter_imp. intros b B2.
      apply (at_altitude_unique i). split; [exact Hi|]. split.
      + destruct B2 as [?|?]; [auto|right; lra].
      + intros j r2 Hj Hij. apply nth_error_None in E. assert (nth_error layers j <> None) by congruence.
        apply nth_error_Some in H. lia. }
  destruct (applies_positive i l a H) as (PT & _ & PB).
  split.
  - apply is_derive_ext_loc with (T_of l); [|apply T_derive].
    generalize Loc. apply filter_imp. intros b ->. reflexivity.
  - apply is_derive_ext_loc with (P_of l).
    { generalize Loc. apply filter_imp. intros b ->. reflexivity. }
    rewrite El. fold Rair.
    replace (- P_of l a * (980665 / 100000) / (Rair * T_of l a)) with (- (P_of l a) * gR / T_of l a).
    + now apply P_derive.
    + unfold gR. assert (PR := Rair_pos). field. lra.
Qed.
(** Between two altitudes of the same layer the pressure strictly decreases. *)
Theorem C12_decreasing_partial : forall a b i l Pa Pb, a < b -> applies i l a -> applies i l b ->
  sa_pressure (N := N) (Fin a) = Ret (Fin Pa) -> sa_pressure (N := N) (Fin b) = Ret (Fin Pb) -> Pb < Pa.
Proof.
  intros a b i l Pa Pb Hab Ha Hb Ea Eb.
  rewrite (sa_pressure_fin i l a Ha) in Ea. rewrite (sa_pressure_fin i l b Hb) in Eb.
  injection Ea as <-. injection Eb as <-.
  destruct (applies_positive i l a Ha) as (T1 & P1 & B1). destruct (applies_positive i l b Hb) as (T2 & _ & _).
  now apply P_decreasing.
Qed.

(** A layer applies from its base to the base of the next one. *)
Lemma applies_between : forall i l a, nth_error layers i = Some l -> (i = O \/ base l <= a) ->
  (forall l', nth_error layers (S i) = Some l' -> a < base l') -> applies i l a.
Proof.
  intros i l a Hi Hb Hn. split; [exact Hi|]. split; [exact Hb|].
  intros j r2 Hj Hij. destruct (Nat.eq_dec j (S i)) as [->|Hne]; [auto|].
  destruct (nth_error layers (S i)) as [r'|] eqn:E.
  - assert (base r' < base r2) by (apply (layer_order (S i) j); auto; lia).
    assert (a < base r') by auto. lra.
  - apply nth_error_None in E. assert (nth_error layers j <> None) by congruence.
    apply nth_error_Some in H. lia.
Qed.

(** The layers used above, at concrete altitudes: sea level, 50 km and 200 km. *)
Example ex_layers : exists l0 l4 l15, applies 0 l0 0 /\ applies 4 l4 50000 /\ applies 15 l15 200000.
Proof.
  destruct (nth_error layers 0) as [l0|] eqn:E0; [|discriminate E0].
  destruct (nth_error layers 4) as [l4|] eqn:E4; [|discriminate E4].
  destruct (nth_error layers 15) as [l15|] eqn:E15; [|discriminate E15].
  exists l0, l4, l15.
  split; [|split]; apply applies_between; try assumption.
  - left. reflexivity.
  - intros l' E'. cbn in E'. injection E' as <-. cbn [base]. unfold foot. lra.
  - right. cbn in E4. injection E4 as <-. cbn [base]. unfold foot. lra.
  - intros l' E'. cbn in E'. injection E' as <-. cbn [base]. unfold foot. lra.
  - right. cbn in E15. injection E15 as <-. cbn [base]. unfold foot. lra.
  - intros l' E'. cbn in E'. injection E' as <-. cbn [base]. unfold foot. lra.
Qed.

(** At 120.8 km the profile jumps: one metre further up the temperature is 31 K lower and
    the pressure more than 15 % higher. *)
Theorem C12_refuted : exists a b Ta Tb Pa Pb, a < b /\ b - a < 1 /\
  sa_temperature (N := N) (Fin a) = Ret (Fin Ta) /\ sa_temperature (N := N) (Fin b) = Ret (Fin Tb) /\
  sa_pressure (N := N) (Fin a) = Ret (Fin Pa) /\ sa_pressure (N := N) (Fin b) = Ret (Fin Pb) /\
  Tb < Ta - 31 /\ 115 / 100 * Pa < Pb.
Proof.
  destruct (nth_error layers 10) as [l10|] eqn:E10; [|discriminate E10].
  destruct (nth_error layers 11) as [l11|] eqn:E11; [|discriminate E11].
  destruct (nth_error layers 12) as [l12|] eqn:E12; [|discriminate E12].
  assert (B12 : base l12 = 48078104 / 100 * foot) by (cbn in E12; injection E12 as <-; reflexivity).
  assert (D10 : base l10 = 35475359 / 100 * foot /\ p_base l10 = 15361733 / 100000000000 * psf /\
                t_base l10 = 46917 / 100 * kelvin /\ lapse l10 = 56867005 / 10000000000 * kelvin / foot)
    by (cbn in E10; injection E10 as <-; repeat split).
  assert (D11 : base l11 = 39640639 / 100 * foot /\ p_base l11 = 52676024 / 1000000000000 * psf /\
                t_base l11 = 64917 / 100 * kelvin)
    by (cbn in E11; injection E11 as <-; repeat split).
  destruct D10 as (B10 & P10 & T10 & L10). destruct D11 as (B11 & P11 & T11).
  set (b := base l11). set (a := b - 1 / 10).
  assert (A10 : applies 10 l10 a).
  { apply applies_between; [exact E10| |].
    - right. unfold a, b. rewrite B10, B11. unfold foot. lra.
    - intros l' E. rewrite E11 in E. injection E as <-. unfold a, b. lra. }
  assert (A11 : applies 11 l11 b).
  { apply applies_between; [exact E11|right; unfold b; lra|].
    intros l' E. rewrite E12 in E. injection E as <-. unfold b. rewrite B11, B12. unfold foot. lra. }
  exists a, b, (T_of l10 a), (T_of l11 b), (P_of l10 a), (P_of l11 b).
  split; [unfold a; lra|]. split; [unfold a; lra|].
  split; [exact (sa_temperature_fin _ _ _ A10)|]. split; [exact (sa_temperature_fin _ _ _ A11)|].
  split; [exact (sa_pressure_fin _ _ _ A10)|]. split; [exact (sa_pressure_fin _ _ _ A11)|].
  assert (Eb : T_of l11 b = t_base l11) by (unfold T_of, b; ring).
  assert (PB : P_of l11 b = p_base l11).
  { unfold P_of. rewrite Eb. unfold b. destruct (Req_EM_T (lapse l11) 0).
    - replace (- gR * (base l11 - base l11) / t_base l11) with 0 by (unfold Rdiv; ring). rewrite exp_0. ring.
    - destruct (applies_positive _ _ _ A11) as (_ & _ & Q). unfold Rdiv at 1. rewrite Rinv_r by lra.
      unfold Rpower. rewrite ln_1, Rmult_0_r, exp_0. ring. }
  rewrite Eb, PB.
  assert (ET : T_of l10 a = (46917 / 100 + 56867005 / 10000000000 * (39640639 / 100 - 35475359 / 100 - 1 / 10 / foot)) * kelvin).
  { unfold T_of, a, b. rewrite T10, L10, B10, B11. assert (F := foot_pos). field. lra. }
  split.
  - rewrite T11, ET. unfold foot, kelvin. lra.
  - rewrite P11. unfold P_of.
    assert (HL : 0 < lapse l10).
    { rewrite L10. apply Rdiv_lt_0_compat; [unfold kelvin; lra|apply foot_pos]. }
    destruct (Req_EM_T (lapse l10) 0) as [E|_]; [lra|]. rewrite P10, T10.
    set (x := 46917 / 100 * kelvin / T_of l10 a).
    assert (Hx : 0 < x < 665 / 1000).
    { unfold x. rewrite ET. split.
      - apply Rdiv_lt_0_compat; unfold kelvin, foot; lra.
      - apply Rmult_lt_reg_r with ((46917 / 100 + 56867005 / 10000000000 * (39640639 / 100 - 35475359 / 100 - 1 / 10 / foot)) * kelvin).
        + unfold kelvin, foot. lra.
        + unfold Rdiv at 1. rewrite Rmult_assoc, Rinv_l by (unfold kelvin, foot; lra). unfold kelvin, foot. lra. }
    assert (Hc : 3 < gR / lapse l10).
    { apply Rmult_lt_reg_r with (lapse l10); [exact HL|]. unfold Rdiv at 1. rewrite Rmult_assoc, Rinv_l by lra.
      rewrite L10. unfold gR, Rair, kelvin, foot. lra. }
    assert (HP : Rpower x (gR / lapse l10) < x * x * x).
    { replace (x * x * x) with (Rpower x 3).
      - unfold Rpower. apply exp_increasing. assert (ln x < 0) by (rewrite <- ln_1; apply ln_increasing; lra). nra.
      - replace 3 with (INR 3) by (cbn; ring). rewrite Rpower_pow by lra. cbn. ring. }
    assert (Hq := psf_pos).
    assert (HX : x * x * x < 665 / 1000 * (665 / 1000) * (665 / 1000)).
    { assert (x * x < 665 / 1000 * (665 / 1000)) by nra. nra. }
    nra.
Qed.
End Code.
