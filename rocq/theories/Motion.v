(** * Motion in a field, and how far one step of the Runge-Kutta method is from it

    Real vectors only. The specification of C65: [motion]. *)
From Coq Require Import ZArith List Reals Lra Lia Bool.
From Coquelicot Require Import Coquelicot.
From Coq Require Import List.
From Verif Require Import Num Constants State XR XRFacts SpecReal Prop_Gravity FieldBounds RK4Error.
Import ListNotations.
Local Open Scope R_scope.

(** The curve [x] moves freely in the field [g] from time 0 to time [T]: its velocity is [v], its acceleration is the field.
    The acceleration changes at the rate [j], which itself changes at most at the rate [K]. *)
Definition motion (g : vec3 R -> vec3 R) (T K : R) (x v : R -> vec3 R) : Prop := exists j s : R -> vec3 R,
  forall t, 0 <= t <= T -> is_derive3 x t (v t) /\ is_derive3 v t (g (x t)) /\
    is_derive3 (fun t => g (x t)) t (j t) /\ is_derive3 j t (s t) /\ normR (s t) <= K.

(** ** A curve is near its Taylor polynomials *)
Lemma growth_R : forall (f f' e e' : R -> R) h, (forall t, 0 <= t <= h -> is_derive f t (f' t) /\ is_derive e t (e' t) /\ f' t <= e' t) ->
  f 0 = 0 -> e 0 = 0 -> forall t, 0 <= t <= h -> f t <= e t.
Proof.
  intros f f' e e' h H F0 E0 t Ht. destruct (Rle_lt_or_eq_dec 0 t (proj1 Ht)) as [P|<-]; [|lra].
  assert (D : forall u, 0 <= u <= t -> is_derive (fun u => e u - f u) u (e' u - f' u)).
  { intros u Hu. destruct (H u) as (A & B & _); [lra|]. apply (is_derive_minus e f u (e' u) (f' u)); assumption. }
  destruct (MVT_gen (fun u => e u - f u) 0 t (fun u => e' u - f' u)) as (c & Hc & M).
  - intros u Hu. rewrite Rmin_left, Rmax_right in Hu by lra. apply D. lra.
  - intros u Hu. rewrite Rmin_left, Rmax_right in Hu by lra. apply continuity_pt_filterlim. apply (ex_derive_continuous (fun u => e u - f u)). eexists. apply D. lra.
  - rewrite Rmin_left, Rmax_right in Hc by lra. destruct (H c) as (_ & _ & L); [lra|].
    assert (0 <= (e' c - f' c) * (t - 0)) by (apply Rmult_le_pos; lra). lra.
Qed.
Lemma derive_dot : forall c t v u, is_derive3 c t v -> is_derive (fun t => dotR u (c t)) t (dotR u v).
Proof.
  intros c t v u (A & B & C). unfold dotR.
  apply (is_derive_plus (fun t => vx u * vx (c t) + vy u * vy (c t)) (fun t => vz u * vz (c t)) t (vx u * vx v + vy u * vy v) (vz u * vz v)).
  - apply (is_derive_plus (fun t => vx u * vx (c t)) (fun t => vy u * vy (c t)) t (vx u * vx v) (vy u * vy v)); now apply (is_derive_scal).
  - now apply (is_derive_scal).
Qed.
Lemma growth : forall (f f' : R -> vec3 R) (e e' : R -> R) h, (forall t, 0 <= t <= h -> is_derive3 f t (f' t) /\ is_derive e t (e' t) /\ normR (f' t) <= e' t) ->
  f 0 = zeroR -> e 0 = 0 -> forall t, 0 <= t <= h -> normR (f t) <= e t.
Proof.
  intros f f' e e' h H F0 E0 t Ht. set (u := f t). assert (U := normR_ge0 u).
  destruct (Rle_lt_or_eq_dec 0 (normR u) U) as [P|Z].
  2:{ rewrite <- Z. apply (growth_R (fun _ => 0) (fun _ => 0) e e' h); auto. intros s Hs. destruct (H s Hs) as (_ & B & C).
      split; [apply @is_derive_const|]. split; [exact B|]. assert (X := normR_ge0 (f' s)). lra. }
  apply (Rmult_le_reg_l (normR u)); [exact P|]. rewrite normR_sq. unfold u at 2.
  apply (growth_R (fun t => dotR u (f t)) (fun t => dotR u (f' t)) (fun t => normR u * e t) (fun t => normR u * e' t) h); auto.
  - intros s Hs. destruct (H s Hs) as (A & B & C). split; [now apply derive_dot|]. split; [now apply (is_derive_scal)|].
    assert (X := Rle_trans _ _ _ (Rle_abs _) (cauchy_abs u (f' s))). assert (normR u * normR (f' s) <= normR u * e' s) by (apply Rmult_le_compat_l; assumption). lra.
  - rewrite F0. unfold dotR, zeroR. cbn [vx vy vz]. ring.
  - rewrite E0. ring.
Qed.
Definition poly (p q r w : vec3 R) (s : R) : vec3 R := addR (addR p (scaleR s q)) (addR (scaleR (s ^ 2 / 2) r) (scaleR (s ^ 3 / 6) w)).
Lemma poly_derive : forall p q r w s, is_derive3 (poly p q r w) s (poly q r w zeroR s).
Proof.
  intros [p0 p1 p2] [q0 q1 q2] [r0 r1 r2] [w0 w1 w2] s. unfold is_derive3, poly, addR, scaleR, zeroR. cbn [vx vy vz].
  split; [|split]; (auto_derive; [exact I|field]).
Qed.
Lemma derive_sub : forall c d t v w, is_derive3 c t v -> is_derive3 d t w -> is_derive3 (fun t => subR (c t) (d t)) t (subR v w).
Proof.
  intros c d t v w (A1 & A2 & A3) (B1 & B2 & B3). unfold is_derive3, subR. cbn [vx vy vz]. split; [|split].
  - apply (is_derive_minus (fun t => vx (c t)) (fun t => vx (d t)) t (vx v) (vx w)); assumption.
  - apply (is_derive_minus (fun t => vy (c t)) (fun t => vy (d t)) t (vy v) (vy w)); assumption.
  - apply (is_derive_minus (fun t => vz (c t)) (fun t => vz (d t)) t (vz v) (vz w)); assumption.
Qed.
Lemma sub_self : forall p q r w, subR p (poly p q r w 0) = zeroR.
Proof. intros [p0 p1 p2] [q0 q1 q2] [r0 r1 r2] [w0 w1 w2]. unfold subR, poly, addR, scaleR, zeroR. cbn [vx vy vz]. f_equal; field. Qed.
(** One order is gained by integrating. *)
Lemma taylor : forall (x v : R -> vec3 R) q r w (e e' : R -> R) h, (forall t, 0 <= t <= h -> is_derive3 x t (v t)) ->
  (forall t, 0 <= t <= h -> normR (subR (v t) (poly q r w zeroR t)) <= e' t) -> (forall t, is_derive e t (e' t)) -> e 0 = 0 ->
  forall t, 0 <= t <= h -> normR (subR (x t) (poly (x 0) q r w t)) <= e t.
Proof.
  intros x v q r w e e' h Hx Hv He E0 t Ht.
  apply (growth (fun t => subR (x t) (poly (x 0) q r w t)) (fun t => subR (v t) (poly q r w zeroR t)) e e' h); auto.
  - intros s Hs. split; [|split; [apply He|now apply Hv]]. apply derive_sub; [now apply Hx|apply poly_derive].
  - apply sub_self.
Qed.
Lemma poly_const : forall p t, poly p zeroR zeroR zeroR t = p.
Proof. intros [p0 p1 p2] t. unfold poly, addR, scaleR, zeroR. cbn [vx vy vz]. f_equal; ring. Qed.

(** ** One step *)
Section Step.
Variables (g : vec3 R -> vec3 R) (rho lam W G K : R).
Hypothesis Lip : forall x y, rho <= normR x -> rho <= normR y -> normR (subR (g x) (g y)) <= lam ^ 2 * normR (subR x y).
Hypothesis (Hlam : 0 < lam <= / 10) (PW : 0 <= W) (PG : 0 <= G) (PK : 0 <= K).
Variables x v j s : R -> vec3 R.
Hypothesis Dx : forall t, 0 <= t <= 1 -> is_derive3 x t (v t).
Hypothesis Dv : forall t, 0 <= t <= 1 -> is_derive3 v t (g (x t)).
Hypothesis Da : forall t, 0 <= t <= 1 -> is_derive3 (fun t => g (x t)) t (j t).
Hypothesis Dj : forall t, 0 <= t <= 1 -> is_derive3 j t (s t).
Hypothesis Bs : forall t, 0 <= t <= 1 -> normR (s t) <= K.
Hypothesis Bv : forall t, 0 <= t <= 1 -> normR (v t) <= W.
Hypothesis Ba : forall t, 0 <= t <= 1 -> normR (g (x t)) <= G.
Hypothesis Bx : forall t, 0 <= t <= 1 -> rho <= normR (x t).

Local Notation O := zeroR.
Local Notation L := (lam ^ 2).
Lemma sub_O : forall a, subR a zeroR = a.
Proof. intros [a b c]. unfold subR, zeroR. cbn [vx vy vz]. f_equal; ring. Qed.
Local Ltac der := intros; auto_derive; [exact I|field].
Lemma near_x0 : forall t, 0 <= t <= 1 -> normR (subR (x t) (x 0)) <= W * t.
Proof.
  intros t Ht. rewrite <- (poly_const (x 0) t). apply (taylor x v O O O (fun t => W * t) (fun _ => W) 1); auto; try lra; [|der].
  intros u Hu. rewrite poly_const, sub_O. now apply Bv.
Qed.
Lemma near_a0 : forall t, 0 <= t <= 1 -> normR (subR (g (x t)) (g (x 0))) <= L * W * t.
Proof.
  intros t Ht. eapply Rle_trans; [apply Lip; apply Bx; lra|]. rewrite Rmult_assoc. apply Rmult_le_compat_l; [apply pow2_ge_0|]. now apply near_x0.
Qed.
Lemma near_j0 : forall t, 0 <= t <= 1 -> normR (subR (j t) (j 0)) <= K * t.
Proof.
  intros t Ht. rewrite <- (poly_const (j 0) t). apply (taylor j s O O O (fun t => K * t) (fun _ => K) 1); auto; try lra; [|der].
  intros u Hu. rewrite poly_const, sub_O. now apply Bs.
Qed.
Lemma near_a1 : forall t, 0 <= t <= 1 -> normR (subR (g (x t)) (poly (g (x 0)) (j 0) O O t)) <= K * t ^ 2 / 2.
Proof.
  apply (taylor (fun t => g (x t)) j (j 0) O O (fun t => K * t ^ 2 / 2) (fun t => K * t) 1); auto; try lra; [|der].
  intros u Hu. rewrite poly_const. now apply near_j0.
Qed.
Lemma near_v1 : forall t, 0 <= t <= 1 -> normR (subR (v t) (poly (v 0) (g (x 0)) O O t)) <= L * W * t ^ 2 / 2.
Proof.
  apply (taylor v (fun t => g (x t)) (g (x 0)) O O (fun t => L * W * t ^ 2 / 2) (fun t => L * W * t) 1); auto; try lra; [|der].
  intros u Hu. rewrite poly_const. now apply near_a0.
Qed.
Lemma near_v2 : forall t, 0 <= t <= 1 -> normR (subR (v t) (poly (v 0) (g (x 0)) (j 0) O t)) <= K * t ^ 3 / 6.
Proof.
  apply (taylor v (fun t => g (x t)) (g (x 0)) (j 0) O (fun t => K * t ^ 3 / 6) (fun t => K * t ^ 2 / 2) 1); auto; try lra; [|der].
  exact near_a1.
Qed.
Lemma near_v0 : forall t, 0 <= t <= 1 -> normR (subR (v t) (poly (v 0) O O O t)) <= G * t.
Proof.
  apply (taylor v (fun t => g (x t)) O O O (fun t => G * t) (fun _ => G) 1); auto; try lra; [|der].
  intros u Hu. rewrite poly_const, sub_O. now apply Ba.
Qed.
Lemma near_x1 : forall t, 0 <= t <= 1 -> normR (subR (x t) (poly (x 0) (v 0) O O t)) <= G * t ^ 2 / 2.
Proof.
  apply (taylor x v (v 0) O O (fun t => G * t ^ 2 / 2) (fun t => G * t) 1); auto; try lra; [|der].
  exact near_v0.
Qed.
Lemma near_x2 : forall t, 0 <= t <= 1 -> normR (subR (x t) (poly (x 0) (v 0) (g (x 0)) O t)) <= L * W * t ^ 3 / 6.
Proof.
  apply (taylor x v (v 0) (g (x 0)) O (fun t => L * W * t ^ 3 / 6) (fun t => L * W * t ^ 2 / 2) 1); auto; try lra; [|der].
  exact near_v1.
Qed.
Lemma near_x3 : forall t, 0 <= t <= 1 -> normR (subR (x t) (poly (x 0) (v 0) (g (x 0)) (j 0) t)) <= K * t ^ 4 / 24.
Proof.
  apply (taylor x v (v 0) (g (x 0)) (j 0) (fun t => K * t ^ 4 / 24) (fun t => K * t ^ 3 / 6) 1); auto; try lra; [|der].
  exact near_v2.
Qed.

Lemma nadd : forall a b u w, normR a <= u -> normR b <= w -> normR (addR a b) <= u + w.
Proof. intros a b u w A B. eapply Rle_trans; [apply norm_add|]. lra. Qed.
Lemma nscale : forall k a u, 0 <= k -> normR a <= u -> normR (scaleR k a) <= k * u.
Proof. intros k a u H A. rewrite normR_scale, Rabs_pos_eq by exact H. now apply Rmult_le_compat_l. Qed.

Definition X2 := addR (x 0) (scaleR (1 / 2) (v 0)).
Definition V2 := addR (v 0) (scaleR (1 / 2) (g (x 0))).
Definition A2 := g X2.
Definition X3 := addR (x 0) (scaleR (1 / 2) V2).
Definition V3' := addR (v 0) (scaleR (1 / 2) A2).
Definition A3 := g X3.
Definition X4 := addR (x 0) V3'.
Definition V4 := addR (v 0) A3.
Definition A4 := g X4.
Hypothesis (R2 : rho <= normR X2) (R3 : rho <= normR X3) (R4 : rho <= normR X4).
Local Ltac vec := unfold poly, subR, addR, scaleR, zeroR; cbn [vx vy vz]; f_equal; field.
Lemma stage_2 : normR (subR A2 (g (x (1 / 2)))) <= L * (G / 8).
Proof.
  unfold A2. eapply Rle_trans; [apply Lip; [exact R2|apply Bx; lra]|]. apply Rmult_le_compat_l; [apply pow2_ge_0|].
  assert (H := near_x1 (1 / 2) ltac:(lra)). rewrite norm_sub_comm in H. unfold X2.
  replace (poly (x 0) (v 0) O O (1 / 2)) with (addR (x 0) (scaleR (1 / 2) (v 0))) in H by (generalize (x 0), (v 0); intros [p0 p1 p2] [q0 q1 q2]; vec). lra.
Qed.
Lemma stage_3 : normR (subR A3 (g (x (1 / 2)))) <= L * (G / 8 + L * W / 48).
Proof.
  unfold A3. eapply Rle_trans; [apply Lip; [exact R3|apply Bx; lra]|]. apply Rmult_le_compat_l; [apply pow2_ge_0|].
  assert (H := near_x2 (1 / 2) ltac:(lra)). rewrite norm_sub_comm in H. assert (H2 := Ba 0 ltac:(lra)).
  replace (subR X3 (x (1 / 2))) with (addR (subR (poly (x 0) (v 0) (g (x 0)) O (1 / 2)) (x (1 / 2))) (scaleR (1 / 8) (g (x 0)))).
  2:{ unfold X3, V2. generalize (x 0), (v 0), (g (x 0)), (x (1 / 2)). intros [p0 p1 p2] [q0 q1 q2] [r0 r1 r2] [w0 w1 w2]. vec. }
  eapply Rle_trans; [apply nadd; [exact H|apply nscale; [lra|exact H2]]|]. lra.
Qed.
Lemma stage_4 : normR (subR A4 (g (x 1))) <= L * (5 / 12 * (L * W) + L * (G / 16)).
Proof.
  unfold A4. eapply Rle_trans; [apply Lip; [exact R4|apply Bx; lra]|]. apply Rmult_le_compat_l; [apply pow2_ge_0|].
  assert (H := near_x2 1 ltac:(lra)). rewrite norm_sub_comm in H. assert (H2 := near_a0 (1 / 2) ltac:(lra)). assert (H3 := stage_2).
  replace (subR X4 (x 1)) with (addR (subR (poly (x 0) (v 0) (g (x 0)) O 1) (x 1)) (addR (scaleR (1 / 2) (subR A2 (g (x (1 / 2))))) (scaleR (1 / 2) (subR (g (x (1 / 2))) (g (x 0)))))).
  2:{ unfold X4, V3'. generalize (x 0), (v 0), (g (x 0)), (x 1), A2, (g (x (1 / 2))). intros [p0 p1 p2] [q0 q1 q2] [r0 r1 r2] [w0 w1 w2] [a0 a1 a2] [b0 b1 b2]. vec. }
  eapply Rle_trans; [apply nadd; [exact H|apply nadd; apply nscale; [lra|exact H3|lra|exact H2]]|]. lra.
Qed.
Theorem step_velocity : normR (subR (v 1) (snd (rk4_second g (x 0, v 0)))) <= K / 3 + L / 6 * (G / 2 + 11 / 24 * (L * W) + L * (G / 16)).
Proof.
  unfold rk4_second. cbn [snd]. change (g (addR (x 0) (scaleR (1 / 2) (v 0)))) with A2. change (g (addR (x 0) (scaleR (1 / 2) (addR (v 0) (scaleR (1 / 2) (g (x 0))))))) with A3.
  change (g (addR (x 0) (addR (v 0) (scaleR (1 / 2) A2)))) with A4.
  assert (H := near_v2 1 ltac:(lra)). assert (H2 := near_a1 (1 / 2) ltac:(lra)). assert (H3 := near_a1 1 ltac:(lra)). assert (S2 := stage_2). assert (S3 := stage_3). assert (S4 := stage_4).
  rewrite norm_sub_comm.
  match goal with |- normR ?d <= _ => replace d with
    (addR (addR (subR (poly (v 0) (g (x 0)) (j 0) O 1) (v 1)) (scaleR (1 / 6) (addR (addR (scaleR 2 (subR A2 (g (x (1 / 2))))) (scaleR 2 (subR A3 (g (x (1 / 2)))))) (subR A4 (g (x 1))))))
     (scaleR (1 / 6) (addR (scaleR 4 (subR (g (x (1 / 2))) (poly (g (x 0)) (j 0) O O (1 / 2)))) (subR (g (x 1)) (poly (g (x 0)) (j 0) O O 1))))) end.
  2:{ generalize (v 0), (v 1), (g (x 0)), (j 0), A2, A3, A4, (g (x (1 / 2))), (g (x 1)). intros [? ? ?] [? ? ?] [? ? ?] [? ? ?] [? ? ?] [? ? ?] [? ? ?] [? ? ?] [? ? ?]. vec. }
  rewrite norm_sub_comm in H.
  eapply Rle_trans; [apply nadd; [apply nadd; [exact H|apply nscale; [lra|apply nadd; [apply nadd; apply nscale; [lra|exact S2|lra|exact S3]|exact S4]]]|
    apply nscale; [lra|apply nadd; [apply nscale; [lra|exact H2]|exact H3]]]|]. lra.
Qed.
Theorem step_position : normR (subR (x 1) (fst (rk4_second g (x 0, v 0)))) <= K / 12 + L / 6 * (G / 4 + L * W / 48).
Proof.
  unfold rk4_second. cbn [fst]. change (g (addR (x 0) (scaleR (1 / 2) (v 0)))) with A2. change (g (addR (x 0) (scaleR (1 / 2) (addR (v 0) (scaleR (1 / 2) (g (x 0))))))) with A3.
  assert (H := near_x3 1 ltac:(lra)). assert (H2 := near_a1 (1 / 2) ltac:(lra)). assert (S2 := stage_2). assert (S3 := stage_3).
  rewrite norm_sub_comm.
  match goal with |- normR ?d <= _ => replace d with
    (addR (addR (subR (poly (x 0) (v 0) (g (x 0)) (j 0) 1) (x 1)) (scaleR (1 / 6) (addR (subR A2 (g (x (1 / 2)))) (subR A3 (g (x (1 / 2)))))))
     (scaleR (1 / 6) (scaleR 2 (subR (g (x (1 / 2))) (poly (g (x 0)) (j 0) O O (1 / 2)))))) end.
  2:{ generalize (x 0), (v 0), (x 1), (g (x 0)), (j 0), A2, A3, (g (x (1 / 2))). intros [? ? ?] [? ? ?] [? ? ?] [? ? ?] [? ? ?] [? ? ?] [? ? ?] [? ? ?]. vec. }
  rewrite norm_sub_comm in H.
  eapply Rle_trans; [apply nadd; [apply nadd; [exact H|apply nscale; [lra|apply nadd; [exact S2|exact S3]]]|apply nscale; [lra|apply nscale; [lra|exact H2]]]|]. lra.
Qed.
Theorem step_weighted : lam * normR (subR (x 1) (fst (rk4_second g (x 0, v 0)))) + normR (subR (v 1) (snd (rk4_second g (x 0, v 0)))) <=
  2 / 5 * K + L * (G + L * W) / 10.
Proof.
  assert (A := step_position). assert (B := step_velocity). revert A B. generalize (normR_ge0 (subR (x 1) (fst (rk4_second g (x 0, v 0))))). generalize (normR (subR (x 1) (fst (rk4_second g (x 0, v 0))))) (normR (subR (v 1) (snd (rk4_second g (x 0, v 0))))). intros p q PP A B.
  assert (PL : 0 <= L) by apply pow2_ge_0. assert (LW : 0 <= L * W) by (apply Rmult_le_pos; lra). assert (LG : 0 <= L * G) by (apply Rmult_le_pos; lra).
  assert (L1 : L <= / 100) by (replace (/ 100) with ((/ 10) ^ 2) by field; apply pow_incr; lra).
  assert (LLW : 0 <= L * (L * W)) by (apply Rmult_le_pos; lra).
  assert (C : L * (L * G) <= / 100 * (L * G)) by (apply Rmult_le_compat_r; lra).
  assert (D : lam * p <= / 10 * (K / 12 + L / 6 * (G / 4 + L * W / 48))).
  { apply Rmult_le_compat; [lra|exact PP|lra|exact A]. }
  lra.
Qed.
End Step.
