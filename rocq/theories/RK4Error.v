(** * Propagation of errors through the Runge-Kutta method for x'' = g(x)

    Real analysis only: a sequence of states, each computed from the one before by an inexact step, stays near the
    sequence of exact steps. *)
From Coq Require Import Reals Lra Lia.
From Coquelicot Require Import Coquelicot.
From Verif Require Import Num XR XRFacts SpecReal Prop_Gravity FieldBounds.
Local Open Scope R_scope.

(** One step of one second of the classical Runge-Kutta method for x'' = g(x), position and velocity. *)
Definition rk4_second (g : vec3 R -> vec3 R) (xv : vec3 R * vec3 R) : vec3 R * vec3 R :=
  let (x, v) := xv in
  let a1 := g x in
  let x2 := addR x (scaleR (1 / 2) v) in let v2 := addR v (scaleR (1 / 2) a1) in let a2 := g x2 in
  let x3 := addR x (scaleR (1 / 2) v2) in let v3 := addR v (scaleR (1 / 2) a2) in let a3 := g x3 in
  let x4 := addR x v3 in let v4 := addR v a3 in let a4 := g x4 in
  (addR x (scaleR (1 / 6) (addR (addR v (scaleR 2 v2)) (addR (scaleR 2 v3) v4))),
   addR v (scaleR (1 / 6) (addR (addR a1 (scaleR 2 a2)) (addR (scaleR 2 a3) a4)))).
(** The exact trajectory from [xv], second by second. *)
Fixpoint flight (g : vec3 R -> vec3 R) (n : nat) (xv : vec3 R * vec3 R) : vec3 R * vec3 R :=
  match n with O => xv | S n => rk4_second g (flight g n xv) end.

Lemma rk4_ext : forall g g' X V, g X = g' X -> g (addR X (scaleR (1 / 2) V)) = g' (addR X (scaleR (1 / 2) V)) ->
  g (addR X (scaleR (1 / 2) (addR V (scaleR (1 / 2) (g X))))) = g' (addR X (scaleR (1 / 2) (addR V (scaleR (1 / 2) (g X))))) ->
  g (addR X (addR V (scaleR (1 / 2) (g (addR X (scaleR (1 / 2) V)))))) = g' (addR X (addR V (scaleR (1 / 2) (g (addR X (scaleR (1 / 2) V)))))) ->
  rk4_second g (X, V) = rk4_second g' (X, V).
Proof. intros g g' X V E1 E2 E3 E4. unfold rk4_second. rewrite <- E1, <- E2, <- E3, <- E4. reflexivity. Qed.

(** ** Distances *)
Definition close (e : R) (a b : vec3 R) : Prop := normR (subR a b) <= e.
Lemma close_add : forall e f a b a' b', close e a b -> close f a' b' -> close (e + f) (addR a a') (addR b b').
Proof.
  unfold close. intros e f a b a' b' H1 H2.
  replace (subR (addR a a') (addR b b')) with (addR (subR a b) (subR a' b')) by (unfold addR, subR; cbn [vx vy vz]; f_equal; ring).
  eapply Rle_trans; [apply norm_add|]. lra.
Qed.
Lemma close_scale : forall k e a b, 0 <= k -> close e a b -> close (k * e) (scaleR k a) (scaleR k b).
Proof.
  unfold close. intros k e a b K H. replace (subR (scaleR k a) (scaleR k b)) with (scaleR k (subR a b)) by (unfold scaleR, subR; cbn [vx vy vz]; f_equal; ring).
  rewrite normR_scale, Rabs_pos_eq by exact K. now apply Rmult_le_compat_l.
Qed.
Lemma close_trans : forall e f a b c, close e a b -> close f b c -> close (e + f) a c.
Proof. unfold close. intros e f a b c H1 H2. eapply Rle_trans; [apply (sub_split a b c)|]. lra. Qed.
Lemma close_le : forall e f a b, close e a b -> e <= f -> close f a b.
Proof. unfold close. intros. lra. Qed.
Lemma close_refl : forall a, close 0 a a.
Proof. intros [a0 a1 a2]. unfold close, normR, subR, dotR. cbn [vx vy vz]. replace ((a0 - a0) * (a0 - a0) + (a1 - a1) * (a1 - a1) + (a2 - a2) * (a2 - a2)) with 0 by ring. rewrite sqrt_0. lra. Qed.
Lemma close_far : forall e a b, close e a b -> normR a - e <= normR b <= normR a + e.
Proof. unfold close. intros e a b H. assert (X := norm_from a b). assert (Y := norm_from b a). rewrite norm_sub_comm in Y. lra. Qed.

Section Step.
Variables (g : vec3 R -> vec3 R) (rho lam ex ev ea : R).
Hypothesis Lip : forall x y, rho <= normR x -> rho <= normR y -> normR (subR (g x) (g y)) <= lam ^ 2 * normR (subR x y).
Hypothesis (Hlam : 0 < lam <= / 10) (Pex : 0 <= ex) (Pev : 0 <= ev) (Pea : 0 <= ea).

(** An inexact step: every operation but the evaluation of [g] may be off by [ex] or [ev], the evaluation by [ea]. *)
Record inexact_second (x v x' v' : vec3 R) (a1 x2 v2 a2 x3 v3 a3 x4 v4 a4 : vec3 R) : Prop := {
  i_a1 : close ea a1 (g x);
  i_x2 : close ex x2 (addR x (scaleR (1 / 2) v));
  i_v2 : close ev v2 (addR v (scaleR (1 / 2) a1));
  i_a2 : close ea a2 (g x2);
  i_x3 : close ex x3 (addR x (scaleR (1 / 2) v2));
  i_v3 : close ev v3 (addR v (scaleR (1 / 2) a2));
  i_a3 : close ea a3 (g x3);
  i_x4 : close ex x4 (addR x v3);
  i_v4 : close ev v4 (addR v a3);
  i_a4 : close ea a4 (g x4);
  i_x : close ex x' (addR x (scaleR (1 / 6) (addR (addR v (scaleR 2 v2)) (addR (scaleR 2 v3) v4))));
  i_v : close ev v' (addR v (scaleR (1 / 6) (addR (addR a1 (scaleR 2 a2)) (addR (scaleR 2 a3) a4)))) }.
Lemma lip_close : forall e x y a, rho <= normR x -> rho <= normR y -> close ea a (g x) -> close e x y -> close (lam ^ 2 * e + ea) a (g y).
Proof.
  intros e x y a Hx Hy Ha H. replace (lam ^ 2 * e + ea) with (ea + lam ^ 2 * e) by ring. apply (close_trans _ _ _ (g x)); [exact Ha|].
  unfold close in *. eapply Rle_trans; [apply Lip; assumption|]. apply Rmult_le_compat_l; [apply pow2_ge_0|exact H].
Qed.
Theorem second_error : forall x v x' v' a1 x2 v2 a2 x3 v3 a3 x4 v4 a4 X V a b,
  inexact_second x v x' v' a1 x2 v2 a2 x3 v3 a3 x4 v4 a4 -> close a x X -> close b v V ->
  rho <= normR x -> rho <= normR x2 -> rho <= normR x3 -> rho <= normR x4 ->
  rho <= normR X -> rho <= normR (addR X (scaleR (1 / 2) V)) -> rho <= normR (addR X (scaleR (1 / 2) (addR V (scaleR (1 / 2) (g X))))) ->
  rho <= normR (addR X (addR V (scaleR (1 / 2) (g (addR X (scaleR (1 / 2) V)))))) ->
  exists a' b', close a' x' (fst (rk4_second g (X, V))) /\ close b' v' (snd (rk4_second g (X, V))) /\
    lam * a' + b' <= exp lam * (lam * a + b) + 11 / 10 * (lam * ex + ev + ea).
Proof.
  intros x v x' v' a1 x2 v2 a2 x3 v3 a3 x4 v4 a4 X V a b I Hx Hv R1 R2 R3 R4 Q1 Q2 Q3 Q4.
  assert (Pa : 0 <= a) by (unfold close in Hx; assert (Z := normR_ge0 (subR x X)); lra).
  assert (Pb : 0 <= b) by (unfold close in Hv; assert (Z := normR_ge0 (subR v V)); lra).
  unfold rk4_second. cbn [fst snd].
  set (A1 := g X) in *. set (X2 := addR X (scaleR (1 / 2) V)) in *. set (V2 := addR V (scaleR (1 / 2) A1)) in *. set (A2 := g X2) in *.
  set (X3 := addR X (scaleR (1 / 2) V2)) in *. set (V3' := addR V (scaleR (1 / 2) A2)) in *. set (A3 := g X3).
  set (X4 := addR X V3') in *. set (V4 := addR V A3). set (A4 := g X4).
  assert (H1 : close (lam ^ 2 * a + ea) a1 A1) by (apply (lip_close a x); auto; apply I).
  set (e1 := lam ^ 2 * a + ea) in *.
  assert (Y2 : close (ex + (a + 1 / 2 * b)) x2 X2).
  { eapply close_trans; [apply I|]. apply close_add; [exact Hx|]. apply close_scale; [lra|exact Hv]. }
  assert (W2 : close (ev + (b + 1 / 2 * e1)) v2 V2).
  { eapply close_trans; [apply I|]. apply close_add; [exact Hv|]. apply close_scale; [lra|exact H1]. }
  set (f2 := ev + (b + 1 / 2 * e1)) in *. set (d2 := ex + (a + 1 / 2 * b)) in *.
  assert (H2 : close (lam ^ 2 * d2 + ea) a2 A2) by (apply (lip_close d2 x2); auto; apply I).
  set (e2 := lam ^ 2 * d2 + ea) in *.
  assert (Y3 : close (ex + (a + 1 / 2 * f2)) x3 X3).
  { eapply close_trans; [apply I|]. apply close_add; [exact Hx|]. apply close_scale; [lra|exact W2]. }
  assert (W3 : close (ev + (b + 1 / 2 * e2)) v3 V3').
  { eapply close_trans; [apply I|]. apply close_add; [exact Hv|]. apply close_scale; [lra|exact H2]. }
  set (f3 := ev + (b + 1 / 2 * e2)) in *. set (d3 := ex + (a + 1 / 2 * f2)) in *.
  assert (H3 : close (lam ^ 2 * d3 + ea) a3 A3) by (apply (lip_close d3 x3); auto; apply I).
  set (e3 := lam ^ 2 * d3 + ea) in *.
  assert (Y4 : close (ex + (a + f3)) x4 X4) by (eapply close_trans; [apply I|]; apply close_add; [exact Hx|exact W3]).
  assert (W4 : close (ev + (b + e3)) v4 V4) by (eapply close_trans; [apply I|]; apply close_add; [exact Hv|exact H3]).
  set (f4 := ev + (b + e3)) in *. set (d4 := ex + (a + f3)) in *.
  assert (H4 : close (lam ^ 2 * d4 + ea) a4 A4) by (apply (lip_close d4 x4); auto; apply I).
  set (e4 := lam ^ 2 * d4 + ea) in *.
  exists (ex + (a + 1 / 6 * ((b + 2 * f2) + (2 * f3 + f4)))), (ev + (b + 1 / 6 * ((e1 + 2 * e2) + (2 * e3 + e4)))).
  split.
  { eapply close_trans; [apply I|]. apply close_add; [exact Hx|]. apply close_scale; [lra|].
    apply close_add; apply close_add; try assumption; apply close_scale; try lra; assumption. }
  split.
  { eapply close_trans; [apply I|]. apply close_add; [exact Hv|]. apply close_scale; [lra|].
    apply close_add; apply close_add; try assumption; apply close_scale; try lra; assumption. }
  clear - Hlam Pex Pev Pea Pa Pb.
  assert (T : 1 + lam + lam ^ 2 / 2 + lam ^ 3 / 6 + lam ^ 4 / 24 <= exp lam).
  { assert (Ex : forall n, sum_f_R0 (fun k => / INR (fact k) * lam ^ k) n <= exp lam).
    { intros n. apply sum_incr.
      - assert (Z := exist_exp lam). unfold exp. destruct (exist_exp lam) as [l Hl]. cbn [proj1_sig]. exact Hl.
      - intros k. apply Rmult_le_pos; [left; apply Rinv_0_lt_compat, INR_fact_lt_0|apply pow_le; lra]. }
    specialize (Ex 4%nat). cbn [sum_f_R0 fact Nat.mul Nat.add INR] in Ex. lra. }
  set (t := lam) in *. 
  assert (E : t * (ex + (a + 1 / 6 * (b + 2 * f2 + (2 * f3 + f4)))) + (ev + (b + 1 / 6 * (e1 + 2 * e2 + (2 * e3 + e4)))) =
    (1 + t + t ^ 2 / 2 + t ^ 3 / 6 + t ^ 4 / 24) * (t * a + b) + (1 + 5 / 6 * t + / 3 * t ^ 2 + / 12 * t ^ 3) * (t * ex)
    + (1 + 5 / 6 * t + / 3 * t ^ 2 + / 12 * t ^ 3) * ev + (1 + 1 / 2 * t + / 6 * t ^ 2 + / 24 * t ^ 3) * ea).
  { unfold f4, e4, d4, e3, f3, d3, e2, f2, d2, e1. fold t. field. }
  rewrite E. clear E e1 f2 d2 e2 f3 d3 e3 f4 d4 e4.
  assert (T2 : t ^ 2 <= / 100) by (replace (/ 100) with ((/ 10) ^ 2) by field; apply pow_incr; lra).
  assert (T3 : t ^ 3 <= / 1000) by (replace (/ 1000) with ((/ 10) ^ 3) by field; apply pow_incr; lra).
  assert (C : forall c y, c <= 11 / 10 -> 0 <= y -> c * y <= 11 / 10 * y) by (intros; now apply Rmult_le_compat_r).
  assert (P1 : 0 <= t * ex) by (apply Rmult_le_pos; lra). assert (P2 : 0 <= t * a + b) by (assert (0 <= t * a) by (apply Rmult_le_pos; lra); lra).
  assert (C1 := C (1 + 5 / 6 * t + / 3 * t ^ 2 + / 12 * t ^ 3) _ ltac:(lra) P1).
  assert (C2 := C (1 + 5 / 6 * t + / 3 * t ^ 2 + / 12 * t ^ 3) _ ltac:(lra) Pev).
  assert (C3 := C (1 + 1 / 2 * t + / 6 * t ^ 2 + / 24 * t ^ 3) _ ltac:(lra) Pea).
  assert (C4 := Rmult_le_compat_r _ _ _ P2 T). lra.
Qed.
End Step.
