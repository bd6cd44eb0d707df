(** * Bounds of the gravity field: size and Lipschitz constant

    Real analysis only: how fast the field of a planet changes from place to place outside a sphere. *)
From Coq Require Import Reals Lra Lia.
From Coquelicot Require Import Coquelicot.
From Flocq Require Import Core.
From Verif Require Import Num XR XRFacts SpecReal Prop_Gravity.
Local Open Scope R_scope.

(** ** Vectors *)
Lemma cauchy_abs : forall a b, Rabs (dotR a b) <= normR a * normR b.
Proof.
  intros a b. assert (A := normR_ge0 a). assert (B := normR_ge0 b). apply Rsqr_incr_0_var; [|now apply Rmult_le_pos].
  rewrite <- Rsqr_abs. unfold Rsqr. replace (normR a * normR b * (normR a * normR b)) with (normR a * normR a * (normR b * normR b)) by ring.
  rewrite !normR_sq. destruct a as [a0 a1 a2], b as [b0 b1 b2]. unfold dotR. cbn [vx vy vz].
  assert (X := Rle_0_sqr (a0 * b1 - a1 * b0)). assert (Y := Rle_0_sqr (a0 * b2 - a2 * b0)). assert (Z := Rle_0_sqr (a1 * b2 - a2 * b1)).
  unfold Rsqr in *. lra.
Qed.
Lemma norm_add : forall a b, normR (addR a b) <= normR a + normR b.
Proof.
  intros a b. assert (A := normR_ge0 a). assert (B := normR_ge0 b). apply Rsqr_incr_0_var; [|lra]. unfold Rsqr.
  rewrite normR_sq. assert (C := cauchy_abs a b). apply Rabs_le_inv in C.
  replace (dotR (addR a b) (addR a b)) with (dotR a a + 2 * dotR a b + dotR b b) by (unfold dotR, addR; cbn [vx vy vz]; ring).
  rewrite <- !normR_sq. lra.
Qed.
Lemma norm_sub_comm : forall a b, normR (subR a b) = normR (subR b a).
Proof. intros a b. unfold normR. f_equal. unfold dotR, subR. cbn [vx vy vz]. ring. Qed.
Lemma sub_split : forall a b c, normR (subR a c) <= normR (subR a b) + normR (subR b c).
Proof.
  intros a b c. replace (subR a c) with (addR (subR a b) (subR b c)) by (unfold addR, subR; cbn [vx vy vz]; f_equal; ring). apply norm_add.
Qed.
Lemma norm_from : forall a b, normR a <= normR b + normR (subR a b).
Proof.
  intros a b. assert (E : addR b (subR a b) = a).
  { destruct a as [a0 a1 a2], b as [b0 b1 b2]. unfold addR, subR. cbn [vx vy vz]. f_equal; ring. }
  rewrite <- E at 1. apply norm_add.
Qed.
Lemma norm_diff : forall a b, Rabs (normR a - normR b) <= normR (subR a b).
Proof.
  intros a b. assert (A := norm_from a b). assert (B := norm_from b a). rewrite norm_sub_comm in B. apply Rabs_le. lra.
Qed.
(** A vector is at most twice as long as a bound of its components. *)
Lemma norm_components : forall v e, 0 <= e -> Rabs (vx v) <= e -> Rabs (vy v) <= e -> Rabs (vz v) <= e -> normR v <= 2 * e.
Proof.
  intros v e E A B C. unfold normR. rewrite <- (sqrt_Rsqr (2 * e)) by lra. apply sqrt_le_1_alt. unfold dotR.
  assert (Q : forall t, Rabs t <= e -> t * t <= e * e).
  { intros t H. apply Rsqr_le_abs_1. now rewrite (Rabs_pos_eq e). }
  apply Q in A, B, C. unfold Rsqr. assert (X := Rle_0_sqr e). unfold Rsqr in X. lra.
Qed.
Lemma component_le : forall v : vec3 R, Rabs (vx v) <= normR v /\ Rabs (vy v) <= normR v /\ Rabs (vz v) <= normR v.
Proof.
  intros v. unfold normR. assert (X := Rle_0_sqr (vx v)). assert (Y := Rle_0_sqr (vy v)). assert (Z := Rle_0_sqr (vz v)). unfold Rsqr in *.
  repeat split; (rewrite <- sqrt_Rsqr_abs; apply sqrt_le_1_alt; unfold dotR, Rsqr; lra).
Qed.

(** ** A calculus of Lipschitz bounds: [lip d B K a b] bounds two values of a quantity by [B] and their difference by
    [K] times the (relative) distance [d] *)
Definition lip (d B K a b : R) : Prop := Rabs a <= B /\ Rabs b <= B /\ Rabs (a - b) <= K * d.
Section Lip.
Variable d : R.
Hypothesis Pd : 0 <= d.
Lemma lip_B : forall B K a b, lip d B K a b -> 0 <= B.
Proof. intros B K a b (A & _). assert (X := Rabs_pos a). lra. Qed.
Lemma lip_const : forall m c, Rabs c <= m -> lip d m 0 c c.
Proof. intros m c H. split; [lra|]. split; [lra|]. replace (c - c) with 0 by ring. rewrite Rabs_R0. lra. Qed.
Lemma lip_more : forall B K B' K' a b, lip d B K a b -> B <= B' -> K <= K' -> lip d B' K' a b.
Proof.
  intros B K B' K' a b (A1 & A2 & A3) H1 H2. split; [lra|]. split; [lra|]. eapply Rle_trans; [exact A3|]. now apply Rmult_le_compat_r.
Qed.
Lemma lip_plus : forall B K B' K' a b a' b', lip d B K a b -> lip d B' K' a' b' -> lip d (B + B') (K + K') (a + a') (b + b').
Proof.
  intros B K B' K' a b a' b' (A1 & A2 & A3) (C1 & C2 & C3).
  split; [eapply Rle_trans; [apply Rabs_triang|lra]|]. split; [eapply Rle_trans; [apply Rabs_triang|lra]|].
  replace (a + a' - (b + b')) with ((a - b) + (a' - b')) by ring. eapply Rle_trans; [apply Rabs_triang|]. lra.
Qed.
Lemma lip_opp : forall B K a b, lip d B K a b -> lip d B K (- a) (- b).
Proof.
  intros B K a b (A1 & A2 & A3). split; [now rewrite Rabs_Ropp|]. split; [now rewrite Rabs_Ropp|].
  replace (- a - - b) with (- (a - b)) by ring. now rewrite Rabs_Ropp.
Qed.
Lemma lip_mult : forall B K B' K' a b a' b', lip d B K a b -> lip d B' K' a' b' -> lip d (B * B') (K * B' + B * K') (a * a') (b * b').
Proof.
  intros B K B' K' a b a' b' (A1 & A2 & A3) (C1 & C2 & C3).
  assert (PB : 0 <= B) by (assert (X := Rabs_pos a); lra). assert (PB' : 0 <= B') by (assert (X := Rabs_pos a'); lra).
  assert (M : forall x y X Y, Rabs x <= X -> Rabs y <= Y -> Rabs (x * y) <= X * Y).
  { intros x y X Y HX HY. rewrite Rabs_mult. apply Rmult_le_compat; auto using Rabs_pos. }
  split; [now apply M|]. split; [now apply M|].
  replace (a * a' - b * b') with ((a - b) * a' + b * (a' - b')) by ring. eapply Rle_trans; [apply Rabs_triang|].
  assert (X := M _ _ _ _ A3 C1). assert (Y := M _ _ _ _ A2 C3). lra.
Qed.
Lemma lip_plus_ : forall B K B' K' B2 K2 a b a' b', lip d B K a b -> lip d B' K' a' b' -> B + B' <= B2 -> K + K' <= K2 ->
  lip d B2 K2 (a + a') (b + b').
Proof. intros. eapply lip_more; [eapply lip_plus; eassumption|assumption|assumption]. Qed.
Lemma lip_minus_ : forall B K B' K' B2 K2 a b a' b', lip d B K a b -> lip d B' K' a' b' -> B + B' <= B2 -> K + K' <= K2 ->
  lip d B2 K2 (a - a') (b - b').
Proof. intros. unfold Rminus. eapply lip_more; [eapply lip_plus; [eassumption|apply lip_opp; eassumption]|assumption|assumption]. Qed.
Lemma lip_mult_ : forall B K B' K' B2 K2 a b a' b', lip d B K a b -> lip d B' K' a' b' -> B * B' <= B2 -> K * B' + B * K' <= K2 ->
  lip d B2 K2 (a * a') (b * b').
Proof. intros. eapply lip_more; [eapply lip_mult; eassumption|assumption|assumption]. Qed.
End Lip.

(** ** The field *)
Section Field.
Variables (mu J2 J3 J4 Re rho : R).
Hypothesis (Pmu : 0 < mu) (HJ2 : Rabs J2 <= 1 / 500) (HJ3 : Rabs J3 <= 1 / 10000) (HJ4 : Rabs J4 <= 1 / 10000).
Hypothesis (Prho : 0 < rho) (PRe : 0 < Re) (HRe : Re <= 5 / 4 * rho).
Notation g := (grav mu J2 J3 J4 Re).
(** The inverse-square part. *)
Definition central (x : vec3 R) : vec3 R := scaleR (/ (normR x ^ 3)) x.
Lemma central_lip : forall x y, rho <= normR x -> rho <= normR y -> normR (subR (central x) (central y)) <= 4 / rho ^ 3 * normR (subR x y).
Proof.
  intros x y Hx Hy. assert (D := norm_diff x y). assert (D0 := normR_ge0 (subR x y)). unfold central.
  set (d := normR (subR x y)) in *. set (r := normR x) in *. set (s := normR y) in *.
  assert (E : subR (scaleR (/ r ^ 3) x) (scaleR (/ s ^ 3) y) = addR (scaleR (/ r ^ 3) (subR x y)) (scaleR (/ r ^ 3 - / s ^ 3) y))
    by (unfold addR, subR, scaleR; cbn [vx vy vz]; f_equal; ring).
  rewrite E. eapply Rle_trans; [apply norm_add|]. rewrite !normR_scale. fold d s.
  assert (Q : forall t, rho <= t -> 0 < / t <= / rho) by (intros t H; split; [apply Rinv_0_lt_compat; lra|apply Rinv_le_contravar; lra]).
  assert (Qr := Q r Hx). assert (Qs := Q s Hy).
  set (a := / r) in *. set (b := / s) in *. set (c := / rho) in *.
  assert (R3 : / r ^ 3 = a ^ 3) by (unfold a; field; lra). assert (S3 : / s ^ 3 = b ^ 3) by (unfold b; field; lra). assert (C3 : 4 / rho ^ 3 = 4 * c ^ 3) by (unfold c; field; lra).
  rewrite R3, S3, C3.
  assert (A3 : 0 <= a ^ 3 <= c ^ 3) by (split; [apply pow_le; lra|apply pow_incr; lra]).
  rewrite (Rabs_pos_eq (a ^ 3)) by lra.
  assert (F : Rabs (a ^ 3 - b ^ 3) * s = Rabs (s - r) * (a ^ 3 + a ^ 2 * b + a * b ^ 2)).
  { rewrite <- (Rabs_pos_eq s) at 1 by lra. rewrite <- (Rabs_pos_eq (a ^ 3 + a ^ 2 * b + a * b ^ 2)).
    2:{ assert (0 <= a ^ 2 * b) by (apply Rmult_le_pos; [apply pow_le|]; lra). assert (0 <= a * b ^ 2) by (apply Rmult_le_pos; [|apply pow_le]; lra). lra. }
    rewrite <- !Rabs_mult. f_equal. unfold a, b. field. lra. }
  rewrite F.
  assert (G : a ^ 3 + a ^ 2 * b + a * b ^ 2 <= 3 * c ^ 3).
  { assert (a ^ 2 * b <= c ^ 2 * c) by (apply Rmult_le_compat; [apply pow_le; lra|lra|apply pow_incr; lra|lra]).
    assert (a * b ^ 2 <= c * c ^ 2) by (apply Rmult_le_compat; [lra|apply pow_le; lra|lra|apply pow_incr; lra]). lra. }
  rewrite Rabs_minus_sym in D.
  assert (H1 : Rabs (s - r) * (a ^ 3 + a ^ 2 * b + a * b ^ 2) <= d * (3 * c ^ 3)).
  { apply Rmult_le_compat; [apply Rabs_pos| |exact D|exact G].
    assert (0 <= a ^ 2 * b) by (apply Rmult_le_pos; [apply pow_le|]; lra). assert (0 <= a * b ^ 2) by (apply Rmult_le_pos; [|apply pow_le]; lra). lra. }
  assert (H2 : a ^ 3 * d <= c ^ 3 * d) by (apply Rmult_le_compat_r; lra). lra.
Qed.
(** The part due to the planet's shape, relative to the surface gravity. *)
Definition shape (q w ux uz : R) : R :=
  q * q * ((3 / 2 * J2 * (w * w) * (1 - 5 * (uz * uz)) + 5 / 2 * J3 * (w * w * w) * ((3 - 7 * (uz * uz)) * uz)
    - 35 / 8 * J4 * (w * w * (w * w)) * (9 * (uz * uz * (uz * uz)) - 6 * (uz * uz) + 3 / 7)) * ux).
Definition shape_z (q w uz : R) : R :=
  q * q * (J2 * (w * w) * (3 * uz) + J3 * (w * w * w) * (15 / 2 * (uz * uz) - 3 / 2) + J4 * (w * w * (w * w)) * (35 / 2 * (uz * uz * uz) - 15 / 2 * uz)).
Lemma field_split : forall x, 0 < normR x ->
  let r := normR x in let q := rho / r in
  g x = subR (scaleR (- mu) (central x))
    (scaleR (mu / rho ^ 2) (V3 (shape q (Re / rho * q) (vx x / r) (vz x / r)) (shape q (Re / rho * q) (vy x / r) (vz x / r))
      (shape q (Re / rho * q) (vz x / r) (vz x / r) + shape_z q (Re / rho * q) (vz x / r)))).
Proof.
  intros x H r q. unfold grav, central, pot_r, pot_z, shape, shape_z, subR, scaleR. fold r. cbn [vx vy vz]. unfold q.
  assert (r <> 0) by (unfold r; lra). f_equal; field; lra.
Qed.
Section Pair.
Variables (d q q' w w' u u' v v' : R).
Hypothesis Pd : 0 <= d.
Hypothesis (Hq : lip d 1 1 q q') (HR : lip d (5 / 4) (5 / 4) w w') (Hu : lip d 1 2 u u') (Hv : lip d 1 2 v v').
Local Ltac k := apply lip_const; rewrite ?Rabs_pos_eq; lra.
Lemma p_R2 : lip d (25 / 16) (25 / 8) (w * w) (w' * w').
Proof. apply (lip_mult_ d Pd _ _ _ _ _ _ _ _ _ _ HR HR); lra. Qed.
Lemma p_R3 : lip d (125 / 64) (375 / 64) (w * w * w) (w' * w' * w').
Proof. apply (lip_mult_ d Pd _ _ _ _ _ _ _ _ _ _ p_R2 HR); lra. Qed.
Lemma p_R4 : lip d (625 / 256) (625 / 64) (w * w * (w * w)) (w' * w' * (w' * w')).
Proof. apply (lip_mult_ d Pd _ _ _ _ _ _ _ _ _ _ p_R2 p_R2); lra. Qed.
Lemma p_v2 : lip d 1 4 (v * v) (v' * v').
Proof. apply (lip_mult_ d Pd _ _ _ _ _ _ _ _ _ _ Hv Hv); lra. Qed.
Lemma p_v3 : lip d 1 6 (v * v * v) (v' * v' * v').
Proof. apply (lip_mult_ d Pd _ _ _ _ _ _ _ _ _ _ p_v2 Hv); lra. Qed.
Lemma p_v4 : lip d 1 8 (v * v * (v * v)) (v' * v' * (v' * v')).
Proof. apply (lip_mult_ d Pd _ _ _ _ _ _ _ _ _ _ p_v2 p_v2); lra. Qed.
Lemma c_ : forall c m B K B2 K2 a b, Rabs c <= m -> lip d B K a b -> m * B <= B2 -> m * K <= K2 -> lip d B2 K2 (c * a) (c * b).
Proof. intros. eapply (lip_mult_ d Pd m 0); [now apply lip_const|eassumption|assumption|lra]. Qed.
Lemma k_ : forall c m, Rabs c <= m -> lip d m 0 c c.
Proof. intros. now apply lip_const. Qed.
Local Ltac ab := first [lra | rewrite Rabs_pos_eq; lra | (unfold Rabs; destruct (Rcase_abs _); lra)].
Lemma p_1 : lip d (29 / 1000) (15 / 100) (3 / 2 * J2 * (w * w) * (1 - 5 * (v * v))) (3 / 2 * J2 * (w' * w') * (1 - 5 * (v' * v'))).
Proof.
  assert (A : lip d 6 20 (1 - 5 * (v * v)) (1 - 5 * (v' * v'))).
  { apply (lip_minus_ d Pd 1 0 5 20); [apply k_; ab|apply (c_ 5 5 1 4); [ab|exact p_v2|lra|lra]|lra|lra]. }
  assert (B : lip d (3 / 1000 * (25 / 16)) (3 / 1000 * (25 / 8)) (3 / 2 * J2 * (w * w)) (3 / 2 * J2 * (w' * w'))).
  { apply (c_ (3 / 2 * J2) (3 / 1000) _ _ _ _ _ _ ltac:(rewrite Rabs_mult, (Rabs_pos_eq (3 / 2)) by lra; lra) p_R2); lra. }
  apply (lip_mult_ d Pd _ _ _ _ _ _ _ _ _ _ B A); lra.
Qed.
Lemma p_2 : lip d (5 / 1000) (39 / 1000) (5 / 2 * J3 * (w * w * w) * ((3 - 7 * (v * v)) * v)) (5 / 2 * J3 * (w' * w' * w') * ((3 - 7 * (v' * v')) * v')).
Proof.
  assert (A : lip d 10 28 (3 - 7 * (v * v)) (3 - 7 * (v' * v'))).
  { apply (lip_minus_ d Pd 3 0 7 28); [apply k_; ab|apply (c_ 7 7 1 4); [ab|exact p_v2|lra|lra]|lra|lra]. }
  assert (A2 : lip d 10 48 ((3 - 7 * (v * v)) * v) ((3 - 7 * (v' * v')) * v')) by (apply (lip_mult_ d Pd _ _ _ _ _ _ _ _ _ _ A Hv); lra).
  assert (B : lip d (25 / 100000 * (125 / 64)) (25 / 100000 * (375 / 64)) (5 / 2 * J3 * (w * w * w)) (5 / 2 * J3 * (w' * w' * w'))).
  { apply (c_ (5 / 2 * J3) (25 / 100000) _ _ _ _ _ _ ltac:(rewrite Rabs_mult, (Rabs_pos_eq (5 / 2)) by lra; lra) p_R3); lra. }
  apply (lip_mult_ d Pd _ _ _ _ _ _ _ _ _ _ B A2); lra.
Qed.
Lemma p_3 : lip d (17 / 1000) (169 / 1000) (35 / 8 * J4 * (w * w * (w * w)) * (9 * (v * v * (v * v)) - 6 * (v * v) + 3 / 7))
  (35 / 8 * J4 * (w' * w' * (w' * w')) * (9 * (v' * v' * (v' * v')) - 6 * (v' * v') + 3 / 7)).
Proof.
  assert (A : lip d (15 + 3 / 7) 96 (9 * (v * v * (v * v)) - 6 * (v * v) + 3 / 7) (9 * (v' * v' * (v' * v')) - 6 * (v' * v') + 3 / 7)).
  { apply (lip_plus_ d Pd 15 96 (3 / 7) 0); [|apply k_; ab|lra|lra].
    apply (lip_minus_ d Pd 9 72 6 24); [apply (c_ 9 9 1 8); [ab|exact p_v4|lra|lra]|apply (c_ 6 6 1 4); [ab|exact p_v2|lra|lra]|lra|lra]. }
  assert (B : lip d (4375 / 10000000 * (625 / 256)) (4375 / 10000000 * (625 / 64)) (35 / 8 * J4 * (w * w * (w * w))) (35 / 8 * J4 * (w' * w' * (w' * w')))).
  { apply (c_ (35 / 8 * J4) (4375 / 10000000) _ _ _ _ _ _ ltac:(rewrite Rabs_mult, (Rabs_pos_eq (35 / 8)) by lra; lra) p_R4); lra. }
  apply (lip_mult_ d Pd _ _ _ _ _ _ _ _ _ _ B A); lra.
Qed.
Lemma p_q2 : lip d 1 2 (q * q) (q' * q').
Proof. apply (lip_mult_ d Pd _ _ _ _ _ _ _ _ _ _ Hq Hq); lra. Qed.
Lemma p_shape : lip d (51 / 1000) (57 / 100) (shape q w u v) (shape q' w' u' v').
Proof.
  unfold shape.
  assert (A := lip_plus_ d Pd _ _ _ _ (34 / 1000) (189 / 1000) _ _ _ _ p_1 p_2 ltac:(lra) ltac:(lra)).
  assert (B := lip_minus_ d Pd _ _ _ _ (51 / 1000) (358 / 1000) _ _ _ _ A p_3 ltac:(lra) ltac:(lra)).
  assert (C := lip_mult_ d Pd _ _ _ _ (51 / 1000) (46 / 100) _ _ _ _ B Hu ltac:(lra) ltac:(lra)).
  apply (lip_mult_ d Pd _ _ _ _ _ _ _ _ _ _ p_q2 C); lra.
Qed.
Lemma p_shape_z : lip d (18 / 1000) (14 / 100) (shape_z q w v) (shape_z q' w' v').
Proof.
  unfold shape_z.
  assert (A1 : lip d (1 / 500 * (25 / 16)) (1 / 500 * (25 / 8)) (J2 * (w * w)) (J2 * (w' * w'))) by (apply (c_ _ (1 / 500) _ _ _ _ _ _ HJ2 p_R2); lra).
  assert (A2 : lip d 3 6 (3 * v) (3 * v')) by (apply (c_ 3 3 1 2); [ab|exact Hv|lra|lra]).
  assert (A := lip_mult_ d Pd _ _ _ _ (94 / 10000) (376 / 10000) _ _ _ _ A1 A2 ltac:(lra) ltac:(lra)).
  assert (B1 : lip d (1 / 10000 * (125 / 64)) (1 / 10000 * (375 / 64)) (J3 * (w * w * w)) (J3 * (w' * w' * w'))) by (apply (c_ _ (1 / 10000) _ _ _ _ _ _ HJ3 p_R3); lra).
  assert (B2 : lip d 9 30 (15 / 2 * (v * v) - 3 / 2) (15 / 2 * (v' * v') - 3 / 2)).
  { apply (lip_minus_ d Pd (15 / 2) 30 (3 / 2) 0); [apply (c_ (15 / 2) (15 / 2) 1 4); [ab|exact p_v2|lra|lra]|apply k_; ab|lra|lra]. }
  assert (B := lip_mult_ d Pd _ _ _ _ (18 / 10000) (112 / 10000) _ _ _ _ B1 B2 ltac:(lra) ltac:(lra)).
  assert (C1 : lip d (1 / 10000 * (625 / 256)) (1 / 10000 * (625 / 64)) (J4 * (w * w * (w * w))) (J4 * (w' * w' * (w' * w')))) by (apply (c_ _ (1 / 10000) _ _ _ _ _ _ HJ4 p_R4); lra).
  assert (C2 : lip d 25 120 (35 / 2 * (v * v * v) - 15 / 2 * v) (35 / 2 * (v' * v' * v') - 15 / 2 * v')).
  { apply (lip_minus_ d Pd (35 / 2) 105 (15 / 2) 15); [apply (c_ (35 / 2) (35 / 2) 1 6); [ab|exact p_v3|lra|lra]|apply (c_ (15 / 2) (15 / 2) 1 2); [ab|exact Hv|lra|lra]|lra|lra]. }
  assert (C := lip_mult_ d Pd _ _ _ _ (62 / 10000) (538 / 10000) _ _ _ _ C1 C2 ltac:(lra) ltac:(lra)).
  assert (E := lip_plus_ d Pd _ _ _ _ (112 / 10000) (488 / 10000) _ _ _ _ A B ltac:(lra) ltac:(lra)).
  assert (F := lip_plus_ d Pd _ _ _ _ (18 / 1000) (1026 / 10000) _ _ _ _ E C ltac:(lra) ltac:(lra)).
  apply (lip_mult_ d Pd _ _ _ _ _ _ _ _ _ _ p_q2 F); lra.
Qed.
End Pair.
Lemma basic_q : forall x y, rho <= normR x -> rho <= normR y -> lip (normR (subR x y) / rho) 1 1 (rho / normR x) (rho / normR y).
Proof.
  intros x y Hx Hy. assert (D := norm_diff x y). set (d := normR (subR x y)) in *. set (r := normR x) in *. set (s := normR y) in *.
  assert (Q : forall t, rho <= t -> Rabs (rho / t) <= 1).
  { intros t H. rewrite Rabs_pos_eq by (left; apply Rdiv_lt_0_compat; lra). apply (Rmult_le_reg_r t); [lra|]. unfold Rdiv. rewrite Rmult_assoc, Rinv_l by lra. lra. }
  split; [now apply Q|]. split; [now apply Q|].
  replace (rho / r - rho / s) with ((s - r) / r * (rho / s)) by (field; lra).
  rewrite Rabs_mult. unfold Rdiv at 1. rewrite Rabs_mult, (Rabs_pos_eq (/ r)) by (left; apply Rinv_0_lt_compat; lra).
  assert (I : / r <= / rho) by (apply Rinv_le_contravar; lra). assert (I0 : 0 < / r) by (apply Rinv_0_lt_compat; lra).
  assert (X : Rabs (s - r) * / r <= d * / rho) by (rewrite Rabs_minus_sym; apply Rmult_le_compat; auto using Rabs_pos; lra).
  assert (Y : 0 <= Rabs (s - r) * / r) by (apply Rmult_le_pos; [apply Rabs_pos|lra]).
  replace (1 * (d / rho)) with (d * / rho * 1) by (unfold Rdiv; ring). apply Rmult_le_compat; auto using Rabs_pos.
Qed.
Lemma basic_u : forall x y a b, rho <= normR x -> rho <= normR y -> Rabs a <= normR x -> Rabs b <= normR y ->
  Rabs (a - b) <= normR (subR x y) -> lip (normR (subR x y) / rho) 1 2 (a / normR x) (b / normR y).
Proof.
  intros x y a b Hx Hy Ha Hb Hab. assert (D := norm_diff x y). set (d := normR (subR x y)) in *. set (r := normR x) in *. set (s := normR y) in *.
  assert (Q : forall c t, rho <= t -> Rabs c <= t -> Rabs (c / t) <= 1).
  { intros c t H Hc. unfold Rdiv. rewrite Rabs_mult, (Rabs_pos_eq (/ t)) by (left; apply Rinv_0_lt_compat; lra).
    apply (Rmult_le_reg_r t); [lra|]. rewrite Rmult_assoc, Rinv_l by lra. lra. }
  split; [now apply Q|]. split; [now apply Q|].
  assert (I : / r <= / rho) by (apply Rinv_le_contravar; lra). assert (I0 : 0 < / r) by (apply Rinv_0_lt_compat; lra).
  replace (a / r - b / s) with ((a - b) * / r + (s - r) * / r * (b / s)) by (field; lra).
  eapply Rle_trans; [apply Rabs_triang|]. rewrite !Rabs_mult, (Rabs_pos_eq (/ r)) by lra.
  assert (X1 : Rabs (a - b) * / r <= d * / rho) by (apply Rmult_le_compat; auto using Rabs_pos; lra).
  assert (X2 : Rabs (s - r) * / r <= d * / rho) by (rewrite Rabs_minus_sym; apply Rmult_le_compat; auto using Rabs_pos; lra).
  assert (X3 : Rabs (s - r) * / r * Rabs (b / s) <= d * / rho * 1).
  { apply Rmult_le_compat; auto using Rabs_pos. apply Rmult_le_pos; [apply Rabs_pos|lra]. }
  unfold Rdiv. lra.
Qed.
(** The field changes by at most 6 mu / rho^3 per metre outside the sphere of radius rho. *)
Theorem field_lipschitz : forall x y, rho <= normR x -> rho <= normR y -> normR (subR (g x) (g y)) <= 6 * mu / rho ^ 3 * normR (subR x y).
Proof.
  intros x y Hx Hy. rewrite (field_split x), (field_split y) by lra. cbv zeta.
  assert (Cl := central_lip x y Hx Hy).
  assert (D0 := normR_ge0 (subR x y)).
  assert (Pd : 0 <= normR (subR x y) / rho) by (apply Rmult_le_pos; [exact D0|left; now apply Rinv_0_lt_compat]).
  assert (Hq := basic_q x y Hx Hy).
  assert (HR : lip (normR (subR x y) / rho) (5 / 4) (5 / 4) (Re / rho * (rho / normR x)) (Re / rho * (rho / normR y))).
  { apply (lip_mult_ _ Pd (5 / 4) 0 1 1); [|exact Hq|lra|lra]. apply lip_const. rewrite Rabs_pos_eq by (left; now apply Rdiv_lt_0_compat).
    apply (Rmult_le_reg_r rho); [lra|]. unfold Rdiv at 1. rewrite Rmult_assoc, Rinv_l by lra. lra. }
  destruct (component_le x) as (X1 & X2 & X3). destruct (component_le y) as (Y1 & Y2 & Y3). destruct (component_le (subR x y)) as (Z1 & Z2 & Z3).
  cbn [subR vx vy vz] in Z1, Z2, Z3. fold (subR x y) in Z1, Z2, Z3.
  assert (U1 := basic_u x y _ _ Hx Hy X1 Y1 Z1). assert (U2 := basic_u x y _ _ Hx Hy X2 Y2 Z2). assert (U3 := basic_u x y _ _ Hx Hy X3 Y3 Z3).
  assert (S1 := p_shape _ _ _ _ _ _ _ _ _ Pd Hq HR U1 U3). assert (S2 := p_shape _ _ _ _ _ _ _ _ _ Pd Hq HR U2 U3).
  assert (S3 := p_shape _ _ _ _ _ _ _ _ _ Pd Hq HR U3 U3). assert (S4 := p_shape_z _ _ _ _ _ _ _ Pd Hq HR U3).
  assert (S5 := lip_plus _ _ _ _ _ _ _ _ _ S3 S4). clear S3 S4 U1 U2 U3 X1 X2 X3 Y1 Y2 Y3 Z1 Z2 Z3.
  set (d := normR (subR x y)) in *.
  generalize dependent (shape (rho / normR x) (Re / rho * (rho / normR x)) (vx x / normR x) (vz x / normR x)). intros a1.
  generalize dependent (shape (rho / normR y) (Re / rho * (rho / normR y)) (vx y / normR y) (vz y / normR y)). intros b1 S1.
  generalize dependent (shape (rho / normR x) (Re / rho * (rho / normR x)) (vy x / normR x) (vz x / normR x)). intros a2.
  generalize dependent (shape (rho / normR y) (Re / rho * (rho / normR y)) (vy y / normR y) (vz y / normR y)). intros b2 S2.
  generalize dependent (shape (rho / normR x) (Re / rho * (rho / normR x)) (vz x / normR x) (vz x / normR x) + shape_z (rho / normR x) (Re / rho * (rho / normR x)) (vz x / normR x)). intros a3.
  generalize dependent (shape (rho / normR y) (Re / rho * (rho / normR y)) (vz y / normR y) (vz y / normR y) + shape_z (rho / normR y) (Re / rho * (rho / normR y)) (vz y / normR y)). intros b3 S3.
  assert (E : forall (c1 c2 a b : vec3 R) k m, subR (subR (scaleR k c1) (scaleR m a)) (subR (scaleR k c2) (scaleR m b)) = addR (scaleR k (subR c1 c2)) (scaleR (- m) (subR a b)))
    by (intros; unfold subR, addR, scaleR; cbn [vx vy vz]; f_equal; ring).
  rewrite E. eapply Rle_trans; [apply norm_add|]. rewrite !normR_scale, !Rabs_Ropp, (Rabs_pos_eq mu) by lra.
  assert (P2 : 0 < mu / rho ^ 2) by (apply Rdiv_lt_0_compat; [lra|apply pow_lt; lra]). rewrite Rabs_pos_eq by lra.
  assert (SH : normR (subR (V3 a1 a2 a3) (V3 b1 b2 b3)) <= 2 * (71 / 100 * (d / rho))).
  { apply norm_components; cbn [subR vx vy vz]; try lra; unfold lip in *; lra. }
  assert (T1 : mu * normR (subR (central x) (central y)) <= mu * (4 / rho ^ 3 * d)) by (apply Rmult_le_compat_l; lra).
  assert (T2 : mu / rho ^ 2 * normR (subR (V3 a1 a2 a3) (V3 b1 b2 b3)) <= mu / rho ^ 2 * (2 * (71 / 100 * (d / rho)))) by (apply Rmult_le_compat_l; lra).
  replace (mu * (4 / rho ^ 3 * d)) with (4 * (mu / rho ^ 2 * (d / rho))) in T1 by (field; lra).
  replace (6 * mu / rho ^ 3 * d) with (6 * (mu / rho ^ 2 * (d / rho))) by (field; lra).
  assert (0 <= mu / rho ^ 2 * (d / rho)) by (apply Rmult_le_pos; lra). lra.
Qed.
(** ... and is nowhere there greater than 6/5 mu / rho^2. *)
Theorem field_bound : forall x, rho <= normR x -> normR (g x) <= 6 / 5 * (mu / rho ^ 2).
Proof.
  intros x Hx. rewrite (field_split x) by lra. cbv zeta.
  assert (D0 := normR_ge0 (subR x x)).
  assert (Pd : 0 <= normR (subR x x) / rho) by (apply Rmult_le_pos; [exact D0|left; now apply Rinv_0_lt_compat]).
  assert (Hq := basic_q x x Hx Hx).
  assert (HR : lip (normR (subR x x) / rho) (5 / 4) (5 / 4) (Re / rho * (rho / normR x)) (Re / rho * (rho / normR x))).
  { apply (lip_mult_ _ Pd (5 / 4) 0 1 1); [|exact Hq|lra|lra]. apply lip_const. rewrite Rabs_pos_eq by (left; now apply Rdiv_lt_0_compat).
    apply (Rmult_le_reg_r rho); [lra|]. unfold Rdiv at 1. rewrite Rmult_assoc, Rinv_l by lra. lra. }
  destruct (component_le x) as (X1 & X2 & X3). destruct (component_le (subR x x)) as (Z1 & Z2 & Z3).
  cbn [subR vx vy vz] in Z1, Z2, Z3. fold (subR x x) in Z1, Z2, Z3.
  assert (U1 := basic_u x x _ _ Hx Hx X1 X1 Z1). assert (U2 := basic_u x x _ _ Hx Hx X2 X2 Z2). assert (U3 := basic_u x x _ _ Hx Hx X3 X3 Z3).
  destruct (p_shape _ _ _ _ _ _ _ _ _ Pd Hq HR U1 U3) as [S1 _]. destruct (p_shape _ _ _ _ _ _ _ _ _ Pd Hq HR U2 U3) as [S2 _].
  destruct (p_shape _ _ _ _ _ _ _ _ _ Pd Hq HR U3 U3) as [S3 _]. destruct (p_shape_z _ _ _ _ _ _ _ Pd Hq HR U3) as [S4 _].
  assert (S5 := Rabs_triang (shape (rho / normR x) (Re / rho * (rho / normR x)) (vz x / normR x) (vz x / normR x)) (shape_z (rho / normR x) (Re / rho * (rho / normR x)) (vz x / normR x))).
  assert (E : forall a b, normR (subR a b) <= normR a + normR b).
  { intros a b. replace (subR a b) with (addR a (scaleR (- (1)) b)) by (unfold addR, subR, scaleR; cbn [vx vy vz]; f_equal; ring).
    eapply Rle_trans; [apply norm_add|]. rewrite normR_scale, Rabs_Ropp, Rabs_R1. lra. }
  eapply Rle_trans; [apply E|]. rewrite !normR_scale, Rabs_Ropp, (Rabs_pos_eq mu) by lra.
  assert (P2 : 0 < mu / rho ^ 2) by (apply Rdiv_lt_0_compat; [lra|apply pow_lt; lra]). rewrite Rabs_pos_eq by lra.
  assert (C : mu * normR (central x) <= mu / rho ^ 2).
  { unfold central. rewrite normR_scale. assert (P3 : 0 < normR x ^ 3) by (apply pow_lt; lra). rewrite Rabs_pos_eq by (left; now apply Rinv_0_lt_compat).
    replace (/ normR x ^ 3 * normR x) with (/ normR x ^ 2) by (field; lra). unfold Rdiv. apply Rmult_le_compat_l; [lra|].
    apply Rinv_le_contravar; [apply pow_lt; lra|apply pow_incr; lra]. }
  match goal with |- _ + _ * normR ?v <= _ => assert (SH : normR v <= 2 * (69 / 1000)) end.
  { apply norm_components; cbn [vx vy vz]; lra. }
  assert (T : mu / rho ^ 2 * (2 * (69 / 1000)) <= / 5 * (mu / rho ^ 2)) by lra.
  eapply Rle_trans; [apply Rplus_le_compat; [exact C|apply Rmult_le_compat_l; [lra|exact SH]]|]. lra.
Qed.
End Field.

(** ** Gradients are unique *)
Lemma gradient_unique : forall U r g g', gradient U r g -> gradient U r g' -> g = g'.
Proof.
  intros U r g g' H H'.
  assert (D : forall v, dotR g v = dotR g' v).
  { intros v. assert (C : is_derive3 (fun t => addR r (scaleR t v)) 0 v).
    { assert (L : forall a b : R, is_derive (fun t => a + t * b) 0 b) by (intros a b; auto_derive; [auto|ring]).
      split; [apply L|split; apply L]. }
    assert (E : addR r (scaleR 0 v) = r) by (destruct r as [a b c]; unfold addR, scaleR; cbn [vx vy vz]; f_equal; ring).
    assert (X := H _ 0 v E C). assert (Y := H' _ 0 v E C). apply is_derive_unique in X, Y. congruence. }
  assert (X := D (V3 1 0 0)). assert (Y := D (V3 0 1 0)). assert (Z := D (V3 0 0 1)).
  destruct g as [a b c], g' as [a' b' c']. unfold dotR in X, Y, Z. cbn [vx vy vz] in X, Y, Z. f_equal; lra.
Qed.
