(** * C55: a burn that is to end at a mass ends there

    The end of a phase can be given as a (propellant) mass.  The phase then has to find the moment by
    integrating, overshooting and repeating the step with a shorter step size, at most 21 times.  In
    vacuum it always succeeds, with and without an acceleration limit. *)
From Coq Require Import ZArith List Reals Lra Lia Bool.
From Verif Require Import Num Constants State Tables Config Planet Atmosphere Transformations
  Steering Vehicle RungeKutta Phase Simulation XR XRFacts SpecReal SystemFacts SystemTotal RKFacts RunFacts
  PhaseNew Prop_Run Prop_Tables Prop_Panics Prop_Throttle Prop_Limit Prop_Time Prop_Mass Prop_MassLimited.
Import ListNotations.
Local Open Scope R_scope.

(** ** The mass used by one Runge-Kutta step, for a throttle that depends on the mass only *)
Section Law.
Variables (th : R -> R) (f lam : R).
Definition T1 (m h : R) : R := th (m - h / 2 * th m * f).
Definition T2 (m h : R) : R := th (m - h / 2 * T1 m h * f).
Definition T3 (m h : R) : R := th (m - h * T2 m h * f).
Definition weight (m h : R) : R := th m + 2 * T1 m h + 2 * T2 m h + T3 m h.
Definition used (m h : R) : R := h * f * weight m h / 6.

(** The throttle does not grow when the mass shrinks, and shrinks at most at the rate [lam]. *)
Record throttle_law : Prop := {
  l_flow : 0 < f;
  l_rate : 0 <= lam;
  l_gentle : lam * f <= 1 / 4;
  l_range : forall a, 0 < a -> 0 < th a <= 1;
  l_mono : forall a b, 0 < a <= b -> th a <= th b;
  l_lip : forall a b, 0 < a <= b -> th b - th a <= lam * (b - a) }.
Hypothesis H : throttle_law.
Let c := lam * f.

(** A stage evaluated at the mass [m - h * g h * k * f], [k] = 1/2 or 1. *)
Lemma stage : forall m k (g : R -> R) h h', f < m -> 0 <= h' <= h -> h <= 1 -> 0 <= k <= 1 ->
  0 <= g h -> 0 <= g h' -> g h <= th m -> g h' <= th m -> 0 <= h * g h - h' * g h' <= (h - h') * th m ->
  let G := fun x => th (m - x * k * g x * f) in
  0 <= G h' - G h <= c * k * th m * (h - h') /\ G h <= th m /\ G h' <= th m /\
  th m * (1 - c * k * h) <= G h /\ 0 < G h /\ 0 < G h'.
Proof.
  intros m k g h h' Hm Hh H1 Hk P P' Q Q' D G. unfold G, c.
  assert (F := l_flow H). assert (Z := l_rate H). assert (Y := l_gentle H).
  assert (Pm : 0 < m) by lra. assert (R := l_range H m Pm).
  assert (B : forall x, 0 <= x <= 1 -> 0 <= g x <= th m -> 0 <= x * k * g x * f <= x * k * th m * f /\ x * k * g x * f <= f).
  { intros x X E. assert (0 <= x * k <= 1) by (split; [apply Rmult_le_pos; lra|];
      replace 1 with (1 * 1) by ring; apply Rmult_le_compat; lra).
    assert (0 <= x * k * g x <= x * k * th m)
      by (split; [apply Rmult_le_pos; lra|apply Rmult_le_compat_l; lra]).
    assert (x * k * g x <= 1) by (replace 1 with (1 * 1) by ring; apply Rmult_le_compat; lra).
    split; [split; [apply Rmult_le_pos; lra|apply Rmult_le_compat_r; lra]|].
    replace f with (1 * f) at 2 by ring. apply Rmult_le_compat_r; lra. }
  destruct (B h) as [B1 B2]; [lra|lra|]. destruct (B h') as [B3 B4]; [lra|lra|].
  assert (KF : 0 <= k * f) by (apply Rmult_le_pos; lra).
  assert (E : 0 <= h * k * g h * f - h' * k * g h' * f <= (h - h') * th m * (k * f)).
  { replace (h * k * g h * f - h' * k * g h' * f) with ((h * g h - h' * g h') * (k * f)) by ring.
    split; [apply Rmult_le_pos; lra|apply Rmult_le_compat_r; lra]. }
  assert (L1 := l_mono H (m - h * k * g h * f) (m - h' * k * g h' * f) ltac:(lra)).
  assert (L2 := l_lip H (m - h * k * g h * f) (m - h' * k * g h' * f) ltac:(lra)).
  assert (L3 := l_mono H (m - h * k * g h * f) m ltac:(lra)).
  assert (L4 := l_lip H (m - h * k * g h * f) m ltac:(lra)).
  assert (L5 := l_mono H (m - h' * k * g h' * f) m ltac:(lra)).
  assert (R1 := l_range H (m - h * k * g h * f) ltac:(lra)).
  assert (R2 := l_range H (m - h' * k * g h' * f) ltac:(lra)).
  assert (L6 : lam * (m - h' * k * g h' * f - (m - h * k * g h * f)) <= lam * ((h - h') * th m * (k * f)))
    by (apply Rmult_le_compat_l; lra).
  assert (L7 : lam * (m - (m - h * k * g h * f)) <= lam * (h * k * th m * f)) by (apply Rmult_le_compat_l; lra).
  repeat split; try lra.
Qed.
(** What the next stage needs of the stage before. *)
Lemma product : forall m (g : R -> R) h h', f < m -> 0 <= h' <= h -> h <= 1 ->
  0 <= g h' - g h <= c * (1 / 2) * th m * (h - h') -> g h' <= th m -> th m * (1 - c * (1 / 2) * h) <= g h ->
  0 <= h * g h - h' * g h' <= (h - h') * th m.
Proof.
  intros m g h h' Hm Hh H1 D Q P.
  assert (F := l_flow H). assert (Z := l_rate H). assert (Y := l_gentle H).
  assert (R := l_range H m ltac:(lra)). assert (C0 : 0 <= c) by (apply Rmult_le_pos; lra). fold c in Y.
  split.
  - replace (h * g h - h' * g h') with ((h - h') * g h - h' * (g h' - g h)) by ring.
    assert (c * h <= 1 / 4 * 1) by (apply Rmult_le_compat; lra).
    assert (A1 : th m * (7 / 8) <= g h).
    { apply Rle_trans with (2 := P). apply Rmult_le_compat_l; lra. }
    assert (A2 : h' * (g h' - g h) <= 1 * (1 / 4 * (1 / 2) * th m * (h - h'))).
    { apply Rmult_le_compat; try lra. apply Rle_trans with (1 := proj2 D).
      apply Rmult_le_compat_r; [lra|]. apply Rmult_le_compat_r; lra. }
    assert (A3 : (h - h') * (th m * (7 / 8)) <= (h - h') * g h) by (apply Rmult_le_compat_l; lra).
    assert (0 <= (h - h') * th m) by (apply Rmult_le_pos; lra). lra.
  - assert (h * g h <= h * g h') by (apply Rmult_le_compat_l; lra).
    assert ((h - h') * g h' <= (h - h') * th m) by (apply Rmult_le_compat_l; lra). lra.
Qed.

Lemma weight_law : forall m h h', f < m -> 0 <= h' <= h -> h <= 1 ->
  6 * th m * (1 - c * h / 2) <= weight m h <= 6 * th m /\
  0 <= weight m h' - weight m h <= 3 * c * th m * (h - h').
Proof.
  intros m h h' Hm Hh H1.
  assert (R := l_range H m ltac:(assert (F := l_flow H); lra)).
  assert (Pd : 0 <= (h - h') * th m) by (apply Rmult_le_pos; lra).
  assert (XA := stage m (1 / 2) (fun _ => th m) h h' ltac:(cbv beta; lra) ltac:(cbv beta; lra) ltac:(cbv beta; lra) ltac:(cbv beta; lra) ltac:(cbv beta; lra) ltac:(cbv beta; lra) ltac:(cbv beta; lra) ltac:(cbv beta; lra) ltac:(cbv beta; lra)).
  cbv beta zeta in XA.
  assert (E1 : forall x, th (m - x * (1 / 2) * th m * f) = T1 m x) by (intros; unfold T1; f_equal; field).
  rewrite !E1 in XA. destruct XA as (A1 & A2 & A3 & A4 & A5 & A6).
  assert (P1 := product m (T1 m) h h' Hm Hh H1 A1 A3 A4).
  assert (XB := stage m (1 / 2) (T1 m) h h' ltac:(cbv beta; lra) ltac:(cbv beta; lra) ltac:(cbv beta; lra) ltac:(cbv beta; lra) ltac:(cbv beta; lra) ltac:(cbv beta; lra) ltac:(cbv beta; lra) ltac:(cbv beta; lra) ltac:(cbv beta; lra)).
  cbv beta zeta in XB.
  assert (E2 : forall x, th (m - x * (1 / 2) * T1 m x * f) = T2 m x) by (intros; unfold T2; f_equal; field).
  rewrite !E2 in XB. destruct XB as (B1 & B2 & B3 & B4 & B5 & B6).
  assert (P2 := product m (T2 m) h h' Hm Hh H1 B1 B3 B4).
  assert (XD := stage m 1 (T2 m) h h' ltac:(cbv beta; lra) ltac:(cbv beta; lra) ltac:(cbv beta; lra) ltac:(cbv beta; lra) ltac:(cbv beta; lra) ltac:(cbv beta; lra) ltac:(cbv beta; lra) ltac:(cbv beta; lra) ltac:(cbv beta; lra)).
  cbv beta zeta in XD.
  assert (E3 : forall x, th (m - x * 1 * T2 m x * f) = T3 m x) by (intros; unfold T3; f_equal; field).
  rewrite !E3 in XD. destruct XD as (D1 & D2 & D3 & D4 & D5 & D6). unfold weight. split; split; lra.
Qed.
Lemma used_bounds : forall m h, f < m -> 0 <= h <= 1 ->
  h * (f * th m * (1 - c / 2)) <= used m h <= h * f.
Proof.
  intros m h Hm Hh. assert (F := l_flow H). assert (R := l_range H m ltac:(lra)).
  destruct (weight_law m h h Hm ltac:(lra) ltac:(lra)) as [W _].
  assert (C0 : 0 <= c) by (apply Rmult_le_pos; [apply H|lra]). unfold used.
  assert (P : 0 <= h * f) by (apply Rmult_le_pos; lra).
  assert (Q : 6 * th m * (1 - c / 2) <= weight m h).
  { apply Rle_trans with (2 := proj1 W). apply Rmult_le_compat_l; [lra|].
    assert (c * h <= c * 1) by (apply Rmult_le_compat_l; lra). lra. }
  split.
  - assert (h * f * (6 * th m * (1 - c / 2)) <= h * f * weight m h) by (apply Rmult_le_compat_l; lra). lra.
  - assert (h * f * weight m h <= h * f * 6) by (apply Rmult_le_compat_l; lra). lra.
Qed.
Lemma used_zero : forall m, used m 0 = 0.
Proof. intros. unfold used. field. Qed.
Lemma weight_pos : forall m h, f < m -> 0 <= h <= 1 -> 6 * th m * (1 - c / 2) <= weight m h /\ 0 < weight m h.
Proof.
  intros m h Hm Hh. assert (F := l_flow H). assert (R := l_range H m ltac:(lra)).
  destruct (weight_law m h h Hm ltac:(lra) ltac:(lra)) as [W _].
  assert (C0 : 0 <= c) by (apply Rmult_le_pos; [apply H|lra]). assert (C1 := l_gentle H). fold c in C1.
  assert (Q : 6 * th m * (1 - c / 2) <= weight m h).
  { apply Rle_trans with (2 := proj1 W). apply Rmult_le_compat_l; [lra|].
    assert (c * h <= c * 1) by (apply Rmult_le_compat_l; lra). lra. }
  split; [exact Q|]. apply Rlt_le_trans with (2 := Q). apply Rmult_lt_0_compat; lra.
Qed.

(** Repeating an overshooting step with the secant step size overshoots again, but less. *)
Lemma used_secant : forall m h d, f < m -> 0 <= h <= 1 -> 0 <= d < used m h ->
  let h' := h * d / used m h in
  0 <= h' <= h /\ d <= used m h' <= d + c / (2 - c) * (used m h - d).
Proof.
  intros m h d Hm Hh Hd h'.
  assert (F := l_flow H). assert (R := l_range H m ltac:(lra)).
  assert (C0 : 0 <= c) by (apply Rmult_le_pos; [apply H|lra]). assert (C1 := l_gentle H). fold c in C1.
  assert (Ph : 0 < h).
  { destruct (Rle_lt_or_eq_dec 0 h (proj1 Hh)) as [G|G]; [exact G|]. subst h. rewrite used_zero in Hd. lra. }
  assert (Pu : 0 < used m h) by lra.
  assert (Hh' : 0 <= h' <= h).
  { unfold h', Rdiv. rewrite Rmult_assoc.
    assert (0 <= d * / used m h <= 1).
    { split; [apply Rmult_le_pos; [lra|]; apply Rlt_le, Rinv_0_lt_compat; lra|].
      apply (Rmult_le_reg_r (used m h)); [lra|]. rewrite Rmult_assoc, Rinv_l by lra. lra. }
    split; [apply Rmult_le_pos; lra|]. apply Rle_trans with (h * 1); [apply Rmult_le_compat_l; lra|lra]. }
  split; [exact Hh'|].
  destruct (weight_law m h h' Hm Hh' ltac:(lra)) as [_ W].
  destruct (weight_pos m h Hm Hh) as [Q S].
  set (s := weight m h) in *. set (s' := weight m h') in *.
  assert (Eu : used m h = h * f * s / 6) by reflexivity.
  assert (Ed : d = h' * f * s / 6).
  { unfold h'. rewrite Eu. field. split; lra. }
  assert (Eu' : used m h' = d * (1 + (s' - s) / s)).
  { change (used m h') with (h' * f * s' / 6). rewrite Ed. field. lra. }
  assert (Eh : h - h' = 6 * (used m h - d) / (f * s)).
  { rewrite Eu, Ed. field. split; lra. }
  rewrite Eu'.
  assert (G : 0 <= (s' - s) / s) by (apply Rmult_le_pos; [lra|]; apply Rlt_le, Rinv_0_lt_compat; lra).
  split.
  - assert (0 <= d * ((s' - s) / s)) by (apply Rmult_le_pos; lra). lra.
  - set (e := used m h - d) in *. assert (Pe : 0 < e) by (unfold e; lra).
    assert (A : d * ((s' - s) / s) <= d * (3 * c * th m * (h - h') / s)).
    { apply Rmult_le_compat_l; [lra|]. apply Rmult_le_compat_r; [apply Rlt_le, Rinv_0_lt_compat; lra|]. lra. }
    assert (B : d * (3 * c * th m * (h - h') / s) = h' * (3 * c * th m) * e / s).
    { rewrite Eh, Ed. field. split; lra. }
    assert (D : h' * (3 * c * th m) * e / s <= c / (2 - c) * e).
    { apply (Rmult_le_reg_r (s * (2 - c))); [apply Rmult_lt_0_compat; lra|].
      replace (h' * (3 * c * th m) * e / s * (s * (2 - c))) with ((c * e) * (h' * (3 * th m * (2 - c)))) by (field; lra).
      replace (c / (2 - c) * e * (s * (2 - c))) with ((c * e) * s) by (field; lra).
      apply Rmult_le_compat_l; [apply Rmult_le_pos; lra|].
      apply Rle_trans with (1 * (3 * th m * (2 - c))).
      - apply Rmult_le_compat_r; [|lra]. apply Rmult_le_pos; lra.
      - lra. }
    lra.
Qed.
End Law.

Section Exact.
Context {rot : mat3 xr -> mat3 xr}.
Notation N := (XR rot).

(** ** The throttle in vacuum *)
(** Full throttle without limit, otherwise what the limit allows. *)
Definition throttle_for (L : option R) (F m : R) : R :=
  match L with None => 1 | Some L => Rmin 1 (L * m / F) end.
Definition limit_is (p : Phase N) (L : option R) : Prop :=
  ph_max_acceleration p = match L with None => PInf | Some L => Fin L end.
Lemma stage_throttle : forall (p : Phase N) (s0 s : State N) es L m, at_model (ph_atmosphere p) = NoAtmosphere ->
  engines_are (ph_vehicle p) es -> limit_is p L -> (forall l, L = Some l -> 0 < l) ->
  0 < normR (full_thrust es 0) -> system p s0 = Ret s -> st_mass s = Fin m -> 0 < m ->
  st_throttle s = Fin (throttle_for L (normR (full_thrust es 0)) m).
Proof.
  intros p s0 s es [L|] m Ha He HL PL PF Hs Em Pm; unfold limit_is in HL; cbn [throttle_for].
  - specialize (PL L eq_refl). set (F := normR (full_thrust es 0)) in *.
    assert (Q := eom_equations _ _ _ (proj1 (system_eom _ _ _) Hs)).
    destruct (no_atmosphere_forces _ _ _ Ha Q) as [P A].
    assert (Lm : 0 < L * m) by now apply Rmult_lt_0_compat.
    destruct (C22_largest_throttle (ph_vehicle p) es 0 zeroR L m He) as (th & Et & B & C & D & E);
      [lra|rewrite normR_zeroR; lra|].
    assert (T : st_throttle s = Fin th) by (rewrite (q_throttle _ _ _ Q), HL, Em, P, A; exact Et).
    rewrite T. apply (f_equal Fin).
    assert (LD : forall t, 0 <= t -> load zeroR (full_thrust es 0) t = t * F).
    { intros t Pt. unfold load.
      replace (addR zeroR (scaleR t (full_thrust es 0))) with (scaleR t (full_thrust es 0))
        by (unfold addR, scaleR, zeroR; cbn [vx vy vz]; f_equal; ring).
      rewrite normR_scale, Rabs_pos_eq by exact Pt. reflexivity. }
    assert (Z : L * m / F * F = L * m) by (field; lra).
    unfold Rmin. destruct (Rle_dec 1 (L * m / F)) as [G|G].
    + assert (1 <= th); [|lra]. apply D; [lra|]. rewrite LD by lra. rewrite <- Z. apply Rmult_le_compat_r; lra.
    + rewrite LD in C, E by lra. assert (P0 : 0 < L * m / F) by (apply Rdiv_lt_0_compat; lra).
      assert (Z1 : L * m / F <= th) by (apply D; [lra|]; rewrite LD by lra; lra).
      assert (Z2 : th <= L * m / F) by (apply (Rmult_le_reg_r F); lra). lra.
  - exact (vacuum_throttle p s0 s es m Ha He HL Hs Em Pm).
Qed.
Lemma throttle_for_law : forall L F f, 0 < f -> 0 < F -> (forall l, L = Some l -> 0 < l /\ l * f <= F / 4) ->
  throttle_law (throttle_for L F) f (match L with None => 0 | Some l => l / F end).
Proof.
  intros L F f Pf PF HL.
  destruct L as [l|]; [destruct (HL l eq_refl) as [Pl Hl]; clear HL|]; constructor; cbn [throttle_for]; try (intros; lra).
  - apply Rlt_le, Rdiv_lt_0_compat; lra.
  - apply (Rmult_le_reg_r F); [lra|]. replace (l / F * f * F) with (l * f) by (field; lra). lra.
  - intros a Pa. unfold Rmin. destruct (Rle_dec 1 (l * a / F)); [lra|].
    assert (0 < l * a / F) by (apply Rdiv_lt_0_compat; [now apply Rmult_lt_0_compat|lra]). lra.
  - intros a b [Pa Hab].
    assert (l * a / F <= l * b / F).
    { apply Rmult_le_compat_r; [apply Rlt_le, Rinv_0_lt_compat; lra|]. apply Rmult_le_compat_l; lra. }
    unfold Rmin. destruct (Rle_dec 1 (l * a / F)), (Rle_dec 1 (l * b / F)); lra.
  - intros a b [Pa Hab].
    assert (l * a / F <= l * b / F).
    { apply Rmult_le_compat_r; [apply Rlt_le, Rinv_0_lt_compat; lra|]. apply Rmult_le_compat_l; lra. }
    replace (l / F * (b - a)) with (l * b / F - l * a / F) by (field; lra).
    unfold Rmin. destruct (Rle_dec 1 (l * a / F)), (Rle_dec 1 (l * b / F)); lra.
Qed.

(** ** One attempt *)
Lemma burn_candidate : forall (p : Phase N) es L h m,
  at_model (ph_atmosphere p) = NoAtmosphere -> tables_accepted (ph_vehicle p) ->
  engines_are (ph_vehicle p) es -> Forall (fun e => 0 <= thrust_vac e /\ 0 < isp e) es ->
  limit_is p L -> (forall l, L = Some l -> 0 < l) -> 0 < normR (full_thrust es 0) ->
  ph_stepsize p = Fin h -> 0 <= h <= 1 -> st_mass (ph_state p) = Fin m -> 0 < full_flow es < m ->
  exists s, candidate p = Ret s /\
    st_mass s = Fin (m - used (throttle_for L (normR (full_thrust es 0))) (full_flow es) m h).
Proof.
  intros p es L h m Ha HT He HF HL PL PF Hh Ph Hm Pf.
  assert (Hb : h * full_flow es <= full_flow es).
  { replace (full_flow es) with (1 * full_flow es) at 2 by ring. apply Rmult_le_compat_r; lra. }
  assert (LP : limit_positive p).
  { destruct L as [l|]; [right; exists l; split; [exact HL|now apply PL]|left; exact HL]. }
  destruct (limited_candidate p es h m Ha LP HT He HF Hh (proj1 Ph) Hm) as [s C]; [lra|lra|].
  exists s. split; [exact C|].
  assert (Hi : Forall (fun e => isp e <> 0) es).
  { rewrite Forall_forall in *. intros e He'. destruct (HF e He'). lra. }
  destruct (C25_exact p s es h m He Hi Hh Hm C) as (d0 & d1 & d2 & d3 & t0 & t1 & t2 & t3 & a0 & a1 & a2 & a3
    & (S0 & S1 & S2 & S3) & (E0 & E1 & E2 & E3) & (B0 & B1 & B2 & B3) & (M0 & M1 & M2 & M3) & E).
  assert (TT := fun s0 s m => stage_throttle p s0 s es L m Ha He HL PL PF).
  set (th := throttle_for L (normR (full_thrust es 0))) in *. set (f := full_flow es) in *.
  assert (Bx : forall x y, 0 <= x <= 1 -> 0 <= y <= 1 -> x * y * f <= f).
  { intros x y X Y. assert (x * y <= 1) by (replace 1 with (1 * 1) by ring; apply Rmult_le_compat; lra).
    replace f with (1 * f) at 2 by ring. apply Rmult_le_compat_r; lra. }
  rewrite (TT _ _ _ S0 M0 ltac:(lra)) in E0. injection E0 as <-.
  rewrite (TT _ _ _ S1 M1 ltac:(assert (G := Bx (h / 2) (th m) ltac:(lra) B0); lra)) in E1. injection E1 as <-.
  rewrite (TT _ _ _ S2 M2 ltac:(assert (G := Bx (h / 2) _ ltac:(lra) B1); lra)) in E2. injection E2 as <-.
  rewrite (TT _ _ _ S3 M3 ltac:(assert (G := Bx h _ ltac:(lra) B2); lra)) in E3. injection E3 as <-.
  rewrite E. reflexivity.
Qed.

(** ** The search for the end *)
(** The criterion variable shows the mass minus [off]. *)
Definition weighs (p : Phase N) (v : StateVariable) (off : R) : Prop :=
  v = Mass /\ off = 0 \/ v = PropellantMass /\ ve_structure_mass (ph_vehicle p) = Fin off.
Lemma weighs_value : forall (p : Phase N) s0 (s : State N) v off m, weighs p v off -> system p s0 = Ret s ->
  st_mass s = Fin m -> get_value v s = Fin (m - off).
Proof.
  intros p s0 s v off m [[-> ->]|[-> Ho]] Hs Em; cbn [get_value].
  - rewrite Em. apply (f_equal Fin). ring.
  - apply system_eom in Hs. rewrite (e_propellant_mass _ _ _ Hs), Em, Ho. xrs. reflexivity.
Qed.

(** The data of a burn, and where a phase [q] stands in it. *)
Record burn (p : Phase N) es L v off m1 : Prop := {
  b_atmosphere : at_model (ph_atmosphere p) = NoAtmosphere;
  b_tables : tables_accepted (ph_vehicle p);
  b_engines : engines_are (ph_vehicle p) es;
  b_thrust : Forall (fun e => 0 <= thrust_vac e /\ 0 < isp e) es;
  b_limit : limit_is p L;
  b_gentle : forall l, L = Some l -> 0 < l /\ l * full_flow es <= normR (full_thrust es 0) / 4;
  b_force : 0 < normR (full_thrust es 0);
  b_flow : 0 < full_flow es < m1;
  b_criterion : ph_end_criterion p = (v, Fin (m1 - off));
  b_weighs : weighs p v off }.
Definition gentleness (es : list engine) (L : option R) : R :=
  (match L with None => 0 | Some l => l / normR (full_thrust es 0) end) * full_flow es.
Definition slowest (es : list engine) (L : option R) (m1 : R) : R :=
  full_flow es * throttle_for L (normR (full_thrust es 0)) m1 * (1 - gentleness es L / 2).

Record standing (es : list engine) (L : option R) (v : StateVariable) (off m0 : R) (q : Phase N) (m t h : R) : Prop := {
  s_mass : st_mass (ph_state q) = Fin m;
  s_value : get_value v (ph_state q) = Fin (m - off);
  s_time : st_time_since_event (ph_state q) = Fin t;
  s_step : ph_stepsize q = Fin h;
  s_open : ph_ended q = false }.

Lemma burn_attempt : forall (p q : Phase N) es L v off m1 m0 m t h, burn p es L v off m1 -> same_parameters p q ->
  standing es L v off m0 q m t h -> m1 <= m -> 0 <= h <= 1 ->
  let u := used (throttle_for L (normR (full_thrust es 0))) (full_flow es) m h in
  exists s, candidate q = Ret s /\ st_mass s = Fin (m - u) /\ get_value v s = Fin (m - u - off) /\
    st_time_since_event s = Fin (t + h) /\ h * slowest es L m1 <= u <= h * full_flow es.
Proof.
  intros p q es L v off m1 m0 m t h B P S Hm Hh u.
  assert (P2 := P). destruct P2 as (Pv & _ & Pa & _ & _ & Pl & _ & Pc).
  destruct (burn_candidate q es L h m) as (s & C & M).
  - rewrite Pa; apply B.
  - rewrite Pv; apply B.
  - unfold engines_are. rewrite Pv. apply B.
  - apply B.
  - unfold limit_is. rewrite Pl. apply B.
  - intros l E. now apply (b_gentle _ _ _ _ _ _ B).
  - exact (b_force _ _ _ _ _ _ B).
  - apply S.
  - exact Hh.
  - apply S.
  - assert (F := b_flow _ _ _ _ _ _ B). lra.
  - exists s. split; [exact C|]. split; [exact M|].
    assert (T := candidate_clock q s TimeSinceEvent t h (or_intror eq_refl) C (s_time _ _ _ _ _ _ _ _ _ S) (s_step _ _ _ _ _ _ _ _ _ S)).
    cbn [get_value] in T. split; [|split; [exact T|]].
    + destruct (candidate_eom _ _ C) as [z X]. apply system_eom in X.
      apply (weighs_value q _ s v off _) with (2 := X) (3 := M).
      unfold weighs. rewrite Pv. apply B.
    + assert (F := b_flow _ _ _ _ _ _ B).
      assert (W := throttle_for_law L (normR (full_thrust es 0)) (full_flow es) (proj1 F) (b_force _ _ _ _ _ _ B) (b_gentle _ _ _ _ _ _ B)).
      destruct (used_bounds _ _ _ W m h ltac:(lra) Hh) as [U1 U2]. split; [|exact U2].
      apply Rle_trans with (2 := U1). apply Rmult_le_compat_l; [lra|].
      unfold slowest. change (_ * full_flow es) with (gentleness es L).
      assert (G : gentleness es L <= 1 / 4) by exact (l_gentle _ _ _ W).
      apply Rmult_le_compat_r; [lra|]. apply Rmult_le_compat_l; [lra|]. apply (l_mono _ _ _ W). lra.
Qed.
Lemma slowest_pos : forall (p : Phase N) es L v off m1, burn p es L v off m1 -> 0 < slowest es L m1.
Proof.
  intros p es L v off m1 B. assert (F := b_flow _ _ _ _ _ _ B).
  assert (W := throttle_for_law L (normR (full_thrust es 0)) (full_flow es) (proj1 F) (b_force _ _ _ _ _ _ B) (b_gentle _ _ _ _ _ _ B)).
  assert (G : gentleness es L <= 1 / 4) by exact (l_gentle _ _ _ W).
  assert (R := l_range _ _ _ W m1 ltac:(lra)). unfold slowest.
  apply Rmult_lt_0_compat; [apply Rmult_lt_0_compat; lra|lra].
Qed.

(** What a finished search has reached. *)
Definition reaches (es : list engine) (L : option R) (v : StateVariable) (off m0 m1 m t : R) (r : nat)
    (out : list (State N) * status (Phase N)) : Prop :=
  exists h q m' t', out = (h, Finished q) /\ (length h <= r)%nat /\
    st_mass (ph_state q) = Fin m' /\ get_value v (ph_state q) = Fin (m' - off) /\ Rabs (m' - m1) < 1 / 1000 /\
    st_time_since_event (ph_state q) = Fin t' /\ t <= t' /\ slowest es L m1 * (t' - t) <= m - m' <= full_flow es * (t' - t) /\
    Forall (fun s : State N => exists x, st_mass s = Fin x /\ m1 - 1 / 1000 < x <= m) h.

(** Repetitions of an overshooting step. *)
Lemma burn_retry : forall (p : Phase N) es L v off m1 m0 m t, burn p es L v off m1 -> m1 <= m ->
  forall r fuel (q : Phase N) h, same_parameters p q -> standing es L v off m0 q m t h -> 0 <= h <= 1 ->
  (ph_end_criterion_tries q + r <= 21)%nat -> (r + 1 <= fuel)%nat ->
  let e := used (throttle_for L (normR (full_thrust es 0))) (full_flow es) m h - (m - m1) in
  0 <= e -> e * (gentleness es L / (2 - gentleness es L)) ^ r < 1 / 1000 ->
  reaches es L v off m0 m1 m t (r + 1) (run_loop fuel q).
Proof.
  intros p es L v off m1 m0 m t B Hm.
  assert (F := b_flow _ _ _ _ _ _ B).
  assert (W := throttle_for_law L (normR (full_thrust es 0)) (full_flow es) (proj1 F) (b_force _ _ _ _ _ _ B) (b_gentle _ _ _ _ _ _ B)).
  assert (G0 : 0 <= gentleness es L) by (apply Rmult_le_pos; [apply W|lra]).
  assert (G1 : gentleness es L <= 1 / 4) by exact (l_gentle _ _ _ W).
  set (rho := gentleness es L / (2 - gentleness es L)).
  assert (Prho : 0 <= rho).
  { apply Rmult_le_pos; [lra|]. apply Rlt_le, Rinv_0_lt_compat. lra. }
  induction r as [|r IH]; intros fuel q h P S Hh Ht Hf e Pe He.
  all: destruct fuel as [|fuel]; [lia|]; cbn [run_loop]; rewrite (s_open _ _ _ _ _ _ _ _ _ S).
  all: destruct (burn_attempt p q es L v off m1 m0 m t h B P S Hm Hh) as (s & C & M & V & T & U).
  all: set (u := used (throttle_for L (normR (full_thrust es 0))) (full_flow es) m h) in *.
  all: assert (Ec : ph_end_criterion q = (v, Fin (m1 - off))) by
    (destruct P as (_ & _ & _ & _ & _ & _ & _ & Pc); rewrite Pc; apply B).
  all: rewrite (step_at q s v (m1 - off) (m - u - off) (s_open _ _ _ _ _ _ _ _ _ S) C Ec V).
  all: replace (m - u - off - (m1 - off)) with (- e) by (unfold e; ring); rewrite Rabs_Ropp, Rabs_pos_eq by exact Pe.
  all: assert (Done : forall n, e < 1 / 1000 -> (1 <= n)%nat ->
    reaches es L v off m0 m1 m t n ([s], Finished (set_ph_state (set_ph_ended q true) s))) by
    (intros n Small Hn; exists [s], (set_ph_state (set_ph_ended q true) s), (m - u), (t + h);
     (split; [reflexivity|]); (split; [cbn; lia|]); (split; [exact M|]); (split; [exact V|]);
     (split; [replace (m - u - m1) with (- e) by (unfold e; ring); rewrite Rabs_Ropp, Rabs_pos_eq by exact Pe; exact Small|]);
     (split; [exact T|]); (split; [lra|]); assert (0 <= u) by (unfold e in Pe; lra);
     (split; [split; [replace (t + h - t) with h by ring|replace (t + h - t) with h by ring]; lra|]);
     constructor; [exists (m - u); split; [exact M|unfold e in Small; lra]|constructor]).
  - rewrite Rmult_1_r in He. rewrite Rltb_true by exact He. rewrite run_loop_ended by reflexivity.
    cbn [set_ph_state set_ph_ended ph_state]. apply Done; [exact He|lia].
  - destruct (Rltb e (1 / 1000)) eqn:Small.
    + rewrite run_loop_ended by reflexivity. cbn [set_ph_state set_ph_ended ph_state].
      apply Done; [now apply Rltb_iff|lia].
    + apply Rltb_iff_false in Small.
      assert (Pu : 0 <= m - m1 < u) by (unfold e in Small; lra).
      assert (EA : event_is_active q (ph_state q) s = true).
      { unfold event_is_active. rewrite Ec. cbn [fst snd]. rewrite V, (s_value _ _ _ _ _ _ _ _ _ S). xrs.
        rewrite (Rltb_true (m - u - off)) by lra. apply Rltb_true. lra. }
      rewrite EA.
      destruct (20 <? ph_end_criterion_tries q)%nat eqn:Tr; [apply Nat.ltb_lt in Tr; lia|].
      assert (EG : time_to_go q (ph_state q) s = Fin (h * (m - m1) / u)).
      { unfold time_to_go. rewrite Ec, (s_step _ _ _ _ _ _ _ _ _ S). cbn [fst snd].
        rewrite V, (s_value _ _ _ _ _ _ _ _ _ S). xrs. rewrite xdiv_fin by lra. apply (f_equal Fin). field. split; lra. }
      rewrite EG.
      destruct (used_secant _ _ _ W m h (m - m1) ltac:(lra) Hh Pu) as [H1 H2]. fold u in H1, H2.
      set (h' := h * (m - m1) / u) in *. fold (gentleness es L) in H2. fold rho in H2.
      set (q' := set_ph_end_criterion_tries (set_ph_stepsize q (Fin h')) (ph_end_criterion_tries q + 1)).
      destruct (IH fuel q' h') as (hs & qf & m' & t' & R & Len & A1 & A2 & A3 & A4 & A0 & A5 & A6).
      * destruct P as (P1 & P2 & P3 & P4 & P5 & P6 & P7 & P8). repeat split; assumption.
      * destruct S as [S1 S2 S3 S4 S5]. constructor; [exact S1|exact S2|exact S3|reflexivity|exact S5].
      * lra.
      * change (ph_end_criterion_tries q') with (ph_end_criterion_tries q + 1)%nat. lia.
      * lia.
      * lra.
      * fold rho. apply Rle_lt_trans with (2 := He). cbn [pow]. rewrite <- Rmult_assoc.
        apply Rmult_le_compat_r; [now apply pow_le|]. unfold e. lra.
      * rewrite R. exists (ph_state q' :: hs), qf, m', t'. split; [reflexivity|]. split; [cbn; lia|].
        split; [exact A1|]. split; [exact A2|]. split; [exact A3|]. split; [exact A4|]. split; [exact A0|]. split; [exact A5|].
        constructor; [|exact A6]. exists m. split; [exact (s_mass _ _ _ _ _ _ _ _ _ S)|lra].
Qed.

(** Full steps until one overshoots. *)
Lemma burn_loop : forall (p : Phase N) es L v off m1 m0 r, burn p es L v off m1 -> (r <= 21)%nat ->
  full_flow es * (gentleness es L / (2 - gentleness es L)) ^ r < 1 / 1000 ->
  forall K fuel (q : Phase N) m t, same_parameters p q -> standing es L v off m0 q m t 1 ->
  ph_end_criterion_tries q = 0%nat -> m1 <= m <= m1 + INR K * slowest es L m1 -> (K + r + 1 <= fuel)%nat ->
  reaches es L v off m0 m1 m t (K + r + 1) (run_loop fuel q).
Proof.
  intros p es L v off m1 m0 r B Hr Hrho.
  assert (F := b_flow _ _ _ _ _ _ B). assert (Sp := slowest_pos p es L v off m1 B).
  assert (W := throttle_for_law L (normR (full_thrust es 0)) (full_flow es) (proj1 F) (b_force _ _ _ _ _ _ B) (b_gentle _ _ _ _ _ _ B)).
  assert (G0 : 0 <= gentleness es L) by (apply Rmult_le_pos; [apply W|lra]).
  assert (G1 : gentleness es L <= 1 / 4) by exact (l_gentle _ _ _ W).
  assert (Prho : 0 <= (gentleness es L / (2 - gentleness es L)) ^ r).
  { apply pow_le. apply Rmult_le_pos; [lra|]. apply Rlt_le, Rinv_0_lt_compat. lra. }
  intros K. induction K as [|K IH]; intros fuel q m t P S Tr Hm Hf.
  all: destruct (burn_attempt p q es L v off m1 m0 m t 1 B P S (proj1 Hm) ltac:(lra)) as (s & C & M & V & T & U).
  all: set (u := used (throttle_for L (normR (full_thrust es 0))) (full_flow es) m 1) in *.
  all: destruct (Rle_lt_dec (m - m1) u) as [O|O];
    [assert (Q : reaches es L v off m0 m1 m t (r + 1) (run_loop fuel q)) by
       (apply (burn_retry p es L v off m1 m0 m t B (proj1 Hm) r fuel q 1 P S); fold u; try lra; try lia;
        apply Rle_lt_trans with (2 := Hrho); apply Rmult_le_compat_r; [exact Prho|lra]);
     destruct Q as (hs & qf & m' & t' & R & Len & Q); exists hs, qf, m', t'; split; [exact R|]; split; [lia|exact Q]|].
  - cbn in Hm. lra.
  - destruct fuel as [|fuel]; [lia|]. cbn [run_loop]. rewrite (s_open _ _ _ _ _ _ _ _ _ S).
    assert (Ec : ph_end_criterion q = (v, Fin (m1 - off))) by
      (destruct P as (_ & _ & _ & _ & _ & _ & _ & Pc); rewrite Pc; apply B).
    rewrite (step_at q s v (m1 - off) (m - u - off) (s_open _ _ _ _ _ _ _ _ _ S) C Ec V).
    replace (m - u - off - (m1 - off)) with (m - m1 - u) by ring. rewrite Rabs_pos_eq by lra.
    destruct (Rltb (m - m1 - u) (1 / 1000)) eqn:Small.
    + apply Rltb_iff in Small. rewrite run_loop_ended by reflexivity. cbn [set_ph_state set_ph_ended ph_state].
      exists [s], (set_ph_state (set_ph_ended q true) s), (m - u), (t + 1).
      split; [reflexivity|]. split; [cbn; lia|]. split; [exact M|]. split; [exact V|].
      split; [rewrite Rabs_pos_eq; lra|]. split; [exact T|]. split; [lra|].
      split; [replace (t + 1 - t) with 1 by ring; lra|].
      constructor; [exists (m - u); split; [exact M|lra]|constructor].
    + assert (EA : event_is_active q (ph_state q) s = false).
      { unfold event_is_active. rewrite Ec. cbn [fst snd]. rewrite V, (s_value _ _ _ _ _ _ _ _ _ S). xrs.
        rewrite (Rltb_true (m - u - off)) by lra. apply Rltb_false. lra. }
      rewrite EA. rewrite S_INR in Hm.
      destruct (IH fuel (set_ph_state q s) (m - u) (t + 1)) as (hs & qf & m' & t' & R & Len & A1 & A2 & A3 & A4 & A0 & A5 & A6).
      * destruct P as (P1 & P2 & P3 & P4 & P5 & P6 & P7 & P8). repeat split; assumption.
      * destruct S as [S1 S2 S3 S4 S5]. constructor; [exact M|exact V|exact T|exact S4|exact S5].
      * exact Tr.
      * lra.
      * lia.
      * rewrite R. exists (s :: hs), qf, m', t'. split; [reflexivity|]. split; [cbn; lia|].
        split; [exact A1|]. split; [exact A2|]. split; [exact A3|]. split; [exact A4|].
        split; [lra|]. split; [lra|]. constructor; [exists (m - u); split; [exact M|lra]|].
        revert A6. apply Forall_impl. intros x (y & Y1 & Y2). exists y. split; [exact Y1|lra].
Qed.

Lemma burn_run : forall fuel (cs : list (PhaseConfig N)) (p : Phase N) es L v off m1 m0 r K,
  begins cs p -> burn p es L v off m1 -> (r <= 21)%nat ->
  full_flow es * (gentleness es L / (2 - gentleness es L)) ^ r < 1 / 1000 ->
  st_mass (ph_state p) = Fin m0 -> m1 <= m0 <= m1 + INR K * slowest es L m1 -> (K + r + 1 <= fuel)%nat ->
  reaches es L v off m0 m1 m0 0 (K + r + 1) (run fuel p).
Proof.
  intros fuel cs p es L v off m1 m0 r K Hb B Hr Hrho Hm HK Hf.
  assert (F := b_flow _ _ _ _ _ _ B).
  destruct (limited_system p (ph_state p) es m0 (b_atmosphere _ _ _ _ _ _ B) (b_tables _ _ _ _ _ _ B)
    (b_engines _ _ _ _ _ _ B)) as (s0 & fl & S0 & _); [|apply B|exact Hm|lra|].
  { assert (X := b_limit _ _ _ _ _ _ B). destruct L as [l|]; [right; exists l|now left].
    split; [exact X|]. now apply (b_gentle _ _ _ _ _ _ B). }
  unfold run. rewrite S0.
  destruct (C29_stepsize_is_one cs p Hb) as [H1 H2].
  destruct (C32_counter_starts_at_zero cs p s0 Hb) as [H3 H4].
  destruct (C36_start cs p Hb) as [_ E]. destruct (E s0 S0) as [E1 _].
  destruct (C37_initial _ _ S0) as (_ & _ & _ & _ & E2). rewrite Hm in E2.
  apply (burn_loop p es L v off m1 m0 r B Hr Hrho K fuel (set_ph_state p s0) m0 0); auto.
  - repeat split.
  - constructor; [exact E2| |exact E1|exact H1|exact H4].
    exact (weighs_value p _ s0 v off m0 (b_weighs _ _ _ _ _ _ B) S0 E2).
Qed.

(** ** C55 *)
(** [reach]: the propellant (or total) mass [T] at which the phase is to end, [m1] the total mass then.

    With an acceleration limit [L]: if the fully throttled engines accelerate the vehicle gently, that is
    [L] is at most a quarter of the effective exhaust velocity per second, the phase ends with the mass
    within one gram of the target, after at most [K] full steps and 22 attempts to hit the target.  No
    record shows a mass beyond the target by more than a gram, and the duration of the burn lies between
    the duration at full throttle and the one at the lowest throttle used. *)
Theorem C55_burnout : forall fuel (cs : list (PhaseConfig N)) (p : Phase N) es L v T off m0 K,
  begins cs p -> tables_accepted (ph_vehicle p) -> at_model (ph_atmosphere p) = NoAtmosphere ->
  engines_are (ph_vehicle p) es -> Forall (fun e => 0 <= thrust_vac e /\ 0 < isp e) es ->
  ph_max_acceleration p = Fin L -> 0 < L ->
  let F := normR (full_thrust es 0) in let f := full_flow es in
  0 < F -> L <= F / f / 4 -> 0 < f <= 10 ^ 14 ->
  ph_end_criterion p = (v, Fin T) ->
  v = Mass /\ off = 0 \/ v = PropellantMass /\ ve_structure_mass (ph_vehicle p) = Fin off ->
  st_mass (ph_state p) = Fin m0 ->
  let m1 := T + off in let slow := 7 / 8 * f * Rmin 1 (L * m1 / F) in
  f < m1 <= m0 -> m0 - m1 <= INR K * slow -> (K + 22 <= fuel)%nat ->
  exists h q m t, run fuel p = (h, Finished q) /\ (length h <= K + 22)%nat /\
    st_mass (ph_state q) = Fin m /\ Rabs (m - m1) < 1 / 1000 /\
    get_value v (ph_state q) = Fin (m - off) /\ Rabs (m - off - T) < 1 / 1000 /\
    st_time_since_event (ph_state q) = Fin t /\ slow * t <= m0 - m <= f * t /\
    forall s, In s h -> exists x, st_mass s = Fin x /\ m1 - 1 / 1000 < x <= m0.
Proof.
  intros fuel cs p es L v T off m0 K Hb HT Ha He HF HL PL F f PF Hg Pf Ec Hw Hm m1 slow Hm1 HK Hf.
  assert (Ef : full_flow es = f) by reflexivity.
  assert (G : L * f <= F / 4).
  { apply (Rmult_le_compat_r f) in Hg; [|lra]. replace (F / f / 4 * f) with (F / 4) in Hg by (field; lra). exact Hg. }
  assert (B : burn p es (Some L) v off m1).
  { constructor; auto; try lra.
    - intros l E. injection E as <-. split; [exact PL|exact G].
    - unfold m1. rewrite Ec. apply f_equal, f_equal. ring. }
  assert (W := throttle_for_law (Some L) F f (proj1 Pf) PF (b_gentle _ _ _ _ _ _ B)).
  set (c := gentleness es (Some L)).
  assert (C0 : 0 <= c) by (apply Rmult_le_pos; [apply W|lra]).
  assert (C1 : c <= 1 / 4) by exact (l_gentle _ _ _ W).
  assert (Rr : 0 <= c / (2 - c) <= 1 / 7).
  { split; [apply Rmult_le_pos; [lra|]; apply Rlt_le, Rinv_0_lt_compat; lra|].
    apply (Rmult_le_reg_r (2 - c)); [lra|]. replace (c / (2 - c) * (2 - c)) with c by (field; lra). lra. }
  assert (R := l_range _ _ _ W m1 ltac:(lra)). cbn [throttle_for] in R.
  assert (Sl : slow <= slowest es (Some L) m1).
  { unfold slowest. fold c f F. cbn [throttle_for]. unfold slow.
    replace (7 / 8 * f * Rmin 1 (L * m1 / F)) with (f * Rmin 1 (L * m1 / F) * (7 / 8)) by ring.
    apply Rmult_le_compat_l; [apply Rmult_le_pos; lra|lra]. }
  destruct (burn_run fuel cs p es (Some L) v off m1 m0 21 K Hb B) as (h & q & m & t & E1 & E2 & E3 & E4 & E5 & E6 & E0 & E7 & E8);
    auto; try lia.
  - fold c f. apply Rle_lt_trans with (10 ^ 14 * (1 / 7) ^ 21); [|lra].
    apply Rmult_le_compat; [lra|apply pow_le; lra|lra|]. apply pow_incr. exact Rr.
  - split; [lra|]. assert (INR K * slow <= INR K * slowest es (Some L) m1) by (apply Rmult_le_compat_l; [apply pos_INR|exact Sl]). lra.
  - exists h, q, m, t. split; [exact E1|]. split; [lia|]. split; [exact E3|]. split; [exact E5|].
    split; [exact E4|]. split; [replace (m - off - T) with (m - m1) by (unfold m1; ring); exact E5|].
    split; [exact E6|]. rewrite Rminus_0_r in E7. split.
    + assert (slow * t <= slowest es (Some L) m1 * t) by (apply Rmult_le_compat_r; lra). fold f in E7. lra.
    + rewrite Forall_forall in E8. exact E8.
Qed.
(** Without a limit the second attempt hits the target, and the duration of the burn is the mass used
    divided by the flow, exactly. *)
Theorem C55_burnout_unlimited : forall fuel (cs : list (PhaseConfig N)) (p : Phase N) es v T off m0 K,
  begins cs p -> tables_accepted (ph_vehicle p) -> at_model (ph_atmosphere p) = NoAtmosphere ->
  engines_are (ph_vehicle p) es -> Forall (fun e => 0 <= thrust_vac e /\ 0 < isp e) es ->
  ph_max_acceleration p = PInf ->
  let f := full_flow es in 0 < normR (full_thrust es 0) -> 0 < f ->
  ph_end_criterion p = (v, Fin T) ->
  v = Mass /\ off = 0 \/ v = PropellantMass /\ ve_structure_mass (ph_vehicle p) = Fin off ->
  st_mass (ph_state p) = Fin m0 ->
  let m1 := T + off in f < m1 <= m0 -> m0 - m1 <= INR K * f -> (K + 2 <= fuel)%nat ->
  exists h q m t, run fuel p = (h, Finished q) /\ (length h <= K + 2)%nat /\
    st_mass (ph_state q) = Fin m /\ Rabs (m - m1) < 1 / 1000 /\
    get_value v (ph_state q) = Fin (m - off) /\ Rabs (m - off - T) < 1 / 1000 /\
    st_time_since_event (ph_state q) = Fin t /\ m = m0 - f * t /\
    forall s, In s h -> exists x, st_mass s = Fin x /\ m1 - 1 / 1000 < x <= m0.
Proof.
  intros fuel cs p es v T off m0 K Hb HT Ha He HF HL f PF Pf Ec Hw Hm m1 Hm1 HK Hf.
  assert (Ef : full_flow es = f) by reflexivity.
  assert (B : burn p es None v off m1).
  { constructor; auto; try lra.
    - intros l E. discriminate.
    - unfold m1. rewrite Ec. apply f_equal, f_equal. ring. }
  assert (C0 : gentleness es None = 0) by (unfold gentleness; ring).
  assert (Sl : slowest es None m1 = f).
  { unfold slowest. rewrite C0. cbn [throttle_for]. unfold f. field. }
  destruct (burn_run fuel cs p es None v off m1 m0 1 K Hb B) as (h & q & m & t & E1 & E2 & E3 & E4 & E5 & E6 & E0 & E7 & E8);
    auto; try lia.
  - rewrite C0. replace (0 / (2 - 0)) with 0 by field. cbn [pow]. lra.
  - rewrite Sl. lra.
  - rewrite Sl, Rminus_0_r in E7. fold f in E7. exists h, q, m, t. split; [exact E1|]. split; [lia|]. split; [exact E3|]. split; [exact E5|].
    split; [exact E4|]. split; [replace (m - off - T) with (m - m1) by (unfold m1; ring); exact E5|].
    split; [exact E6|]. split; [lra|]. rewrite Forall_forall in E8. exact E8.
Qed.

(** A burn that is to end with the last propellant never leaves a deficit of more than a gram. *)
Theorem C27_burnout_partial : forall fuel (cs : list (PhaseConfig N)) (p : Phase N) es L ms k K s,
  begins cs p -> tables_accepted (ph_vehicle p) -> at_model (ph_atmosphere p) = NoAtmosphere ->
  engines_are (ph_vehicle p) es -> Forall (fun e => 0 <= thrust_vac e /\ 0 < isp e) es ->
  ph_max_acceleration p = Fin L -> 0 < L ->
  let F := normR (full_thrust es 0) in let f := full_flow es in
  0 < F -> L <= F / f / 4 -> 0 < f <= 10 ^ 14 ->
  ph_end_criterion p = (PropellantMass, Fin 0) -> ve_structure_mass (ph_vehicle p) = Fin ms ->
  st_mass (ph_state p) = Fin (ms + k) -> f < ms -> 0 <= k <= INR K * (7 / 8 * f * Rmin 1 (L * ms / F)) ->
  (K + 22 <= fuel)%nat -> In s (fst (run fuel p)) ->
  exists x, st_propellant_mass s = Fin x /\ - (1 / 1000) < x <= k.
Proof.
  intros fuel cs p es L ms k K s Hb HT Ha He HF HL PL F f PF Hg Pf Ec Hs Hm Hms HK Hf Hin.
  destruct (C55_burnout fuel cs p es L PropellantMass 0 ms (ms + k) K Hb HT Ha He HF HL PL PF Hg Pf Ec (or_intror (conj eq_refl Hs)) Hm)
    as (h & q & m & t & R & _ & _ & _ & _ & _ & _ & _ & A).
  - fold f. lra.
  - fold f F. replace (0 + ms) with ms by ring. lra.
  - exact Hf.
  - rewrite R in Hin. destruct (A s Hin) as (x & Ex & Bx). exists (x - ms).
    rewrite (C26_reported fuel p h _ s R Hin), Ex, Hs. split; [reflexivity|lra].
Qed.
End Exact.

(** ** Non-vacuity: the launch of [ex_limited_burn], to be ended with 8000 of 9000 kg of propellant left *)
Section Example.
Context {rot : mat3 xr -> mat3 xr}.
Notation N := (XR rot).
Definition burnout_config : PhaseConfig N :=
  mkPhaseConfig (N := N) (Some (mkInitConfig (N := N) (Fin 28) (Fin 10) (Fin 90) (Fin 0)))
    (Some (mkVehicleConfig (N := N) (Some (Fin 1000)) (Some (Fin 9000)) None None None None (Some [finE burn_engine])))
    None None None (Some (Fin 50)) None (Some (PropellantMass, Fin 8000)).
Example C55_nonvacuous : exists (p : Phase N) h q x t, begins [burnout_config] p /\ run 30 p = (h, Finished q) /\
  st_propellant_mass (ph_state q) = Fin x /\ Rabs (x - 8000) < 1 / 1000 /\
  st_time_since_event (ph_state q) = Fin t /\ 2 < t /\ (length h <= 30)%nat.
Proof.
  set (c := burnout_config). set (i := mkInitConfig (N := N) (Fin 28) (Fin 10) (Fin 90) (Fin 0)).
  set (q := configured default_phase c).
  assert (Hn : phase_new None c = Ret (phase_init q i)) by (rewrite phase_new_configured; reflexivity).
  set (p := reset (phase_init q i)) in *.
  assert (Hb : begins [c] p) by exact (begins_first c _ Hn).
  assert (FF : full_flow [burn_engine] = 1000000 / (300 * g0)) by (unfold full_flow, burn_engine; cbn; ring).
  assert (FB : 339 < full_flow [burn_engine] < 340).
  { rewrite FF. unfold g0. lra. }
  assert (Hm : st_mass (ph_state p) = Fin 10000).
  { change (Fin (1000 + 9000) = Fin 10000). apply (f_equal Fin). ring. }
  assert (HL : ph_max_acceleration p = Fin 50).
  { change ((if Reqb 50 (- 1) then PInf else Fin 50) = Fin 50). rewrite Reqb_false by lra. reflexivity. }
  assert (NF : normR (full_thrust [burn_engine] 0) = 1000000).
  { unfold full_thrust. cbn [map sumV fold_right burn_engine thrust_vac exit_area].
    replace (addR (scaleR (1000000 - 1 * 0) (axis_of burn_engine)) zeroR) with (scaleR 1000000 (axis_of burn_engine))
      by (unfold addR, scaleR, zeroR; cbn [vx vy vz]; f_equal; ring).
    rewrite normR_scale, C24_axis_unit, Rabs_pos_eq by lra. lra. }
  assert (Hs : ve_structure_mass (ph_vehicle p) = Fin 1000) by reflexivity.
  destruct (C55_burnout 30 [c] p [burn_engine] 50 PropellantMass 8000 1000 10000 8 Hb)
    as (h & r & m & t & R & Len & Em & Bm & Ev & Bv & Et & Bt & _); auto.
  - repeat split; apply C18_default_table_accepted.
  - reflexivity.
  - repeat constructor; cbn; lra.
  - lra.
  - rewrite NF. lra.
  - rewrite NF. replace (1000000 / full_flow [burn_engine]) with (300 * g0) by (rewrite FF; unfold g0; field).
    unfold g0. lra.
  - lra.
  - lra.
  - rewrite NF. rewrite Rmin_right by lra. cbn [INR].
    assert (7 / 8 * 339 * (50 * (8000 + 1000) / 1000000) <= 7 / 8 * full_flow [burn_engine] * (50 * (8000 + 1000) / 1000000)) by lra.
    lra.
  - exists p, h, r, (m - 1000), t. split; [exact Hb|]. split; [exact R|]. split; [exact Ev|].
    split; [exact Bv|]. split; [exact Et|]. split; [|lia].
    apply Rabs_def2 in Bm. assert (999 < full_flow [burn_engine] * t) by lra.
    destruct (Rlt_le_dec 2 t) as [Z|Z]; [exact Z|].
    assert (full_flow [burn_engine] * t <= full_flow [burn_engine] * 2) by (apply Rmult_le_compat_l; lra). lra.
Qed.
End Example.
