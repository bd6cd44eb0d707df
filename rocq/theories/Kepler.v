(** * Kepler's motion

    Every elliptic motion about a point mass, from any initial state, in closed form but for Kepler's equation. Real
    numbers only. The specification of C67: [energy], [momentum], [semi_major], [eccentricity], [perigee]. *)
From Coq Require Import ZArith List Reals Lra Lia Bool Nsatz.
From Coquelicot Require Import Coquelicot.
From Coq Require Import List.
From Verif Require Import Num Constants State XR XRFacts SpecReal Prop_Gravity FieldBounds RK4Error Motion Prop_MotionNewton.
Import ListNotations.
Local Open Scope R_scope.

(** Energy and angular momentum per unit of mass of a body at [x] with the velocity [v], around a point mass [mu]. *)
Definition energy (mu : R) (x v : vec3 R) : R := dotR v v / 2 - mu / normR x.
Definition momentum (x v : vec3 R) : vec3 R := crossR x v.
(** The ellipse: its semi-major axis, its eccentricity, its smallest and greatest distance from the centre. *)
Definition semi_major (mu : R) (x v : vec3 R) : R := - mu / (2 * energy mu x v).
Definition eccentricity (mu : R) (x v : vec3 R) : R := sqrt (1 - dotR (momentum x v) (momentum x v) / (mu * semi_major mu x v)).
Definition perigee (mu : R) (x v : vec3 R) : R := semi_major mu x v * (1 - eccentricity mu x v).
Definition apogee (mu : R) (x v : vec3 R) : R := semi_major mu x v * (1 + eccentricity mu x v).

(** ** The inverse of a function that increases everywhere *)
Lemma increase : forall (F f : R -> R) m, (forall E, is_derive F E (f E)) -> (forall E, m <= f E) ->
  forall x y, x <= y -> m * (y - x) <= F y - F x.
Proof.
  intros F f m D B x y H. destruct (MVT_gen F x y f) as (c & _ & M).
  - intros u _. apply D.
  - intros u _. apply continuity_pt_filterlim. apply (ex_derive_continuous F). eexists. apply D.
  - rewrite M. apply Rmult_le_compat_r; [lra|apply B].
Qed.
Lemma inverse : forall (F f : R -> R) m, 0 < m -> (forall E, is_derive F E (f E)) -> (forall E, m <= f E) ->
  exists G : R -> R, (forall t, F (G t) = t) /\ (forall E, G (F E) = E) /\ forall t, is_derive G t (/ f (G t)).
Proof.
  intros F f m Pm D B. assert (I := increase F f m D B).
  assert (X : forall t, { E | F E = t }).
  { intros t. set (r := Rabs (t - F 0) / m). assert (P : 0 <= r) by (unfold r; apply Rmult_le_pos; [apply Rabs_pos|left; now apply Rinv_0_lt_compat]).
    assert (Er : m * r = Rabs (t - F 0)) by (unfold r; field; lra).
    assert (L := I (- r) 0 ltac:(lra)). assert (H := I 0 r P). assert (Q1 := Rle_abs (t - F 0)). assert (Q2 := Rle_abs (- (t - F 0))). rewrite Rabs_Ropp in Q2.
    destruct (IVT_gen F (- r) r t) as (E & _ & HE).
    - intros u. apply continuity_pt_filterlim. apply (ex_derive_continuous F). eexists. apply D.
    - rewrite Rmin_left, Rmax_right by lra. lra.
    - exists E. exact HE. }
  assert (X' : exists G, forall t, F (G t) = t) by (exists (fun t => proj1_sig (X t)); intros t; exact (proj2_sig (X t))).
  destruct X' as [G FG]. exists G. clear X.
  assert (Inj : forall x y, m * Rabs (y - x) <= Rabs (F y - F x)).
  { intros x y. destruct (Rle_dec x y) as [H|H].
    - assert (Z := I x y H). assert (0 <= m * (y - x)) by (apply Rmult_le_pos; lra). rewrite !Rabs_pos_eq by lra. exact Z.
    - assert (Z := I y x ltac:(lra)). assert (0 <= m * (x - y)) by (apply Rmult_le_pos; lra). rewrite !Rabs_left1 by lra. lra. }
  split; [exact FG|]. split.
  { intros E. assert (Z := Inj E (G (F E))). rewrite FG in Z. replace (F E - F E) with 0 in Z by ring. rewrite Rabs_R0 in Z.
    assert (A := Rabs_pos (G (F E) - E)). assert (Rabs (G (F E) - E) = 0) by nra. destruct (Req_dec (G (F E) - E) 0) as [Q|Q]; [lra|]. apply Rabs_pos_lt in Q. lra. }
  intros t. apply is_derive_Reals. intros eps Pe. assert (Dt := D (G t)). apply is_derive_Reals in Dt.
  destruct (Dt (eps * m * m)) as (del & Hdel); [apply Rmult_lt_0_compat; [now apply Rmult_lt_0_compat|exact Pm]|].
  assert (Pd : 0 < del * m) by (apply Rmult_lt_0_compat; [apply del|exact Pm]).
  exists (mkposreal _ Pd). intros h Hh Sh. cbn [pos] in Sh.
  set (k := G (t + h) - G t). assert (Fk : F (G t + k) - F (G t) = h) by (unfold k; replace (G t + (G (t + h) - G t)) with (G (t + h)) by ring; rewrite !FG; ring).
  assert (K0 : k <> 0) by (intros Z; rewrite Z, Rplus_0_r in Fk; lra).
  assert (Kd : m * Rabs k <= Rabs h). { rewrite <- Fk. eapply Rle_trans; [|apply (Inj (G t) (G t + k))]. right. f_equal. f_equal. ring. }
  assert (Ks : Rabs k < del). { apply (Rmult_lt_reg_l m); [exact Pm|]. lra. }
  assert (Z := Hdel k K0 Ks). rewrite Fk in Z.
  assert (Q : m <= h / k).
  { destruct (Rlt_dec 0 k) as [Pk|Nk].
    - apply (Rmult_le_reg_r k); [exact Pk|]. unfold Rdiv. rewrite Rmult_assoc, Rinv_l by exact K0. rewrite <- Fk. assert (Y := I (G t) (G t + k) ltac:(lra)). lra.
    - apply (Rmult_le_reg_r (- k)); [lra|]. replace (h / k * - k) with (- h) by (field; exact K0). rewrite <- Fk. assert (Y := I (G t + k) (G t) ltac:(lra)). lra. }
  assert (Fp := B (G t)). set (d := f (G t)) in *. replace (k / h - / d) with ((d - h / k) * (/ d * / (h / k))) by (field; repeat split; lra).
  rewrite Rabs_mult. rewrite Rabs_minus_sym in Z.
  assert (J : 0 < / d * / (h / k) <= / m * / m).
  { split; [apply Rmult_lt_0_compat; apply Rinv_0_lt_compat; lra|]. apply Rmult_le_compat; try (left; apply Rinv_0_lt_compat; lra); apply Rinv_le_contravar; lra. }
  rewrite (Rabs_pos_eq (/ d * / (h / k))) by lra.
  apply Rle_lt_trans with (Rabs (d - h / k) * (/ m * / m)); [apply Rmult_le_compat_l; [apply Rabs_pos|lra]|].
  replace eps with (eps * m * m * (/ m * / m)) by (field; lra). apply Rmult_lt_compat_r; [|exact Z]. apply Rmult_lt_0_compat; now apply Rinv_0_lt_compat.
Qed.

(** ** Lagrange's coefficients *)
Section Identities.
Variables a r0 S C Z : R.
Hypothesis U : C * C + Z * Z = 1.
Let A := r0 - a * (1 - C).
Let G := r0 * Z + S * (1 - C).
Let rr := a + (r0 - a) * C + S * Z.
Let B := rr - a * (1 - C).
Lemma radius_identity : r0 * (A * A) + 2 * A * G * S + G * G * (2 * a - r0) = r0 * (rr * rr).
Proof. unfold B, A, G, rr in *. nsatz. Qed.
Lemma speed_identity : r0 * (a * Z * (a * Z)) - 2 * (a * Z) * B * S + B * B * (2 * a - r0) = r0 * (2 * a * rr - rr * rr).
Proof. unfold B, A, G, rr in *. nsatz. Qed.
Lemma slope_identity : C * rr - Z * (S * C - (r0 - a) * Z) = A.
Proof. unfold B, A, G, rr in *. nsatz. Qed.
Lemma rise_identity : Z * rr - (1 - C) * (S * C - (r0 - a) * Z) = G.
Proof. unfold B, A, G, rr in *. nsatz. Qed.
Lemma area_identity : A * B + a * G * Z = r0 * rr.
Proof. unfold B, A, G, rr in *. nsatz. Qed.
End Identities.

(** ** The motion *)
Lemma lagrange_identity : forall x v, dotR (crossR x v) (crossR x v) = dotR x x * dotR v v - dotR x v * dotR x v.
Proof. intros [a b c] [d e f]. unfold dotR, crossR. cbn [vx vy vz]. ring. Qed.
Lemma combine_derive : forall (f g : R -> R) x0 v0 t df dg, is_derive f t df -> is_derive g t dg ->
  is_derive3 (fun t => addR (scaleR (f t) x0) (scaleR (g t) v0)) t (addR (scaleR df x0) (scaleR dg v0)).
Proof.
  assert (K : forall (f g : R -> R) a b t df dg, is_derive f t df -> is_derive g t dg -> is_derive (fun t => f t * a + g t * b) t (df * a + dg * b)).
  { intros f g a b t df dg Df Dg. apply (is_derive_plus (fun t => f t * a) (fun t => g t * b) t (df * a) (dg * b)).
    - apply (is_derive_ext (fun t => a * f t)); [intros; apply Rmult_comm|]. rewrite Rmult_comm. now apply (is_derive_scal).
    - apply (is_derive_ext (fun t => b * g t)); [intros; apply Rmult_comm|]. rewrite Rmult_comm. now apply (is_derive_scal). }
  intros f g [a b c] [d e h] t df dg Df Dg. unfold is_derive3, addR, scaleR. cbn [vx vy vz]. split; [|split]; now apply K.
Qed.
Lemma combine_dot : forall x v f g f' g', dotR (addR (scaleR f x) (scaleR g v)) (addR (scaleR f' x) (scaleR g' v))
  = f * f' * dotR x x + (f * g' + g * f') * dotR x v + g * g' * dotR v v.
Proof. intros [a b c] [d e h] f g f' g'. unfold dotR, addR, scaleR. cbn [vx vy vz]. ring. Qed.
Lemma combine_cross : forall x v f g f' g', crossR (addR (scaleR f x) (scaleR g v)) (addR (scaleR f' x) (scaleR g' v))
  = scaleR (f * g' - g * f') (crossR x v).
Proof. intros [a b c] [d e h] f g f' g'. unfold crossR, addR, scaleR. cbn [vx vy vz]. f_equal; ring. Qed.
Lemma combine_unit : forall x v, addR (scaleR 1 x) (scaleR 0 v) = x /\ addR (scaleR 0 x) (scaleR 1 v) = v.
Proof. intros [a b c] [d e f]. unfold addR, scaleR. cbn [vx vy vz]. split; f_equal; ring. Qed.
Lemma scale_combine : forall k f g x v, scaleR k (addR (scaleR f x) (scaleR g v)) = addR (scaleR (k * f) x) (scaleR (k * g) v).
Proof. intros k f g [a b c] [d e h]. unfold addR, scaleR. cbn [vx vy vz]. f_equal; ring. Qed.
Lemma comp_derive : forall (c E : R -> R) t dc dE, is_derive c (E t) dc -> is_derive E t dE -> is_derive (fun t => c (E t)) t (dc * dE).
Proof.
  intros c E t dc dE Dc DE. replace (dc * dE) with (scal dE dc) by (unfold scal; cbn; unfold mult; cbn; ring). now apply (is_derive_comp c E).
Qed.

Section Motion.
Variables (mu : R) (x0 v0 : vec3 R).
Hypothesis Pm : 0 < mu.
Hypothesis Nx : x0 <> zeroR.
Hypothesis Bound : energy mu x0 v0 < 0.
Hypothesis Turns : momentum x0 v0 <> zeroR.
Let r0 := normR x0.
Let a := semi_major mu x0 v0.
Let e := eccentricity mu x0 v0.
Let q := sqrt (mu / a).
Let S := dotR x0 v0 / q.
Let fA (E : R) := r0 - a * (1 - cos E).
Let fG (E : R) := r0 * sin E + S * (1 - cos E).
Let rr (E : R) := a + (r0 - a) * cos E + S * sin E.
Let fB (E : R) := rr E - a * (1 - cos E).

Lemma elements : 0 < r0 /\ 0 < a /\ 0 < q /\ a * (q * q) = mu /\ dotR x0 v0 = S * q /\ dotR v0 v0 = q * q * (2 * a / r0 - 1) /\
  0 <= e < 1 /\ (r0 - a) * (r0 - a) + S * S = e * a * (e * a).
Proof.
  assert (P0 := normR_pos _ Nx). fold r0 in P0.
  assert (Pa : 0 < a). { unfold a, semi_major. replace (- mu / (2 * energy mu x0 v0)) with (mu / (2 * - energy mu x0 v0)) by (field; repeat split; apply Rlt_not_eq; lra). apply Rdiv_lt_0_compat; lra. }
  assert (Pq : 0 < q) by (apply sqrt_lt_R0; now apply Rdiv_lt_0_compat).
  assert (Q : q * q = mu / a) by (apply sqrt_sqrt; left; now apply Rdiv_lt_0_compat).
  assert (M : a * (q * q) = mu) by (rewrite Q; field; lra).
  assert (Es : dotR x0 v0 = S * q) by (unfold S; field; lra).
  assert (Ev : dotR v0 v0 = q * q * (2 * a / r0 - 1)).
  { assert (Ee : energy mu x0 v0 = - (mu / (2 * a))) by (unfold a, semi_major; field; lra).
    unfold energy in Ee. fold r0 in Ee. rewrite Q. replace (dotR v0 v0) with (2 * (dotR v0 v0 / 2 - mu / r0) + 2 * (mu / r0)) by (field; lra). rewrite Ee. field. lra. }
  set (h2 := dotR (momentum x0 v0) (momentum x0 v0)).
  assert (Ph : 0 < h2). { unfold h2. rewrite <- normR_sq. assert (Z := normR_pos _ Turns). now apply Rmult_lt_0_compat. }
  assert (E2 : 1 - h2 / (mu * a) = ((r0 - a) * (r0 - a) + S * S) / (a * a)).
  { unfold h2, momentum. rewrite lagrange_identity, <- normR_sq, Es, Ev. fold r0. rewrite <- M. field. repeat split; lra. }
  assert (Pe : 0 <= 1 - h2 / (mu * a)).
  { rewrite E2. apply Rmult_le_pos; [|left; apply Rinv_0_lt_compat; now apply Rmult_lt_0_compat].
    assert (X := Rle_0_sqr (r0 - a)). assert (Y := Rle_0_sqr S). unfold Rsqr in X, Y. lra. }
  assert (Es2 : e * e = 1 - h2 / (mu * a)) by (apply sqrt_sqrt; exact Pe).
  assert (E0 : 0 <= e) by apply sqrt_pos.
  assert (E1 : e < 1).
  { assert (0 < h2 / (mu * a)) by (apply Rdiv_lt_0_compat; [exact Ph|now apply Rmult_lt_0_compat]). nra. }
  repeat split; try assumption.
  replace (e * a * (e * a)) with (e * e * (a * a)) by ring. rewrite Es2, E2. field. lra.
Qed.
Lemma distance_bounds : forall E, a * (1 - e) <= rr E <= a * (1 + e).
Proof.
  intros E. destruct elements as (P0 & Pa & Pq & M & Es & Ev & [E0 E1] & Ee).
  assert (U := sin2_cos2 E). unfold Rsqr in U. set (c := cos E) in *. set (z := sin E) in *.
  assert (K : ((r0 - a) * c + S * z) * ((r0 - a) * c + S * z) <= e * a * (e * a)).
  { rewrite <- Ee. assert (X := Rle_0_sqr ((r0 - a) * z - S * c)). unfold Rsqr in X.
    replace ((r0 - a) * (r0 - a) + S * S) with (((r0 - a) * (r0 - a) + S * S) * (z * z + c * c)) by (rewrite U; ring). lra. }
  assert (P : 0 <= e * a) by (apply Rmult_le_pos; lra). 
  unfold rr. fold c z. assert (L : - (e * a) <= (r0 - a) * c + S * z <= e * a) by (split; nra). lra.
Qed.
Lemma distance_pos : forall E, 0 < rr E.
Proof.
  intros E. destruct elements as (P0 & Pa & _ & _ & _ & _ & [E0 E1] & _). assert (D := distance_bounds E).
  assert (0 < a * (1 - e)) by (apply Rmult_lt_0_compat; lra). lra.
Qed.

(** The position and the velocity as functions of the change [E] of the eccentric anomaly. *)
Definition place (E : R) : vec3 R := addR (scaleR (fA E / r0) x0) (scaleR (fG E / q) v0).
Definition speed (E : R) : vec3 R := addR (scaleR (- (a * q * sin E) / (r0 * rr E)) x0) (scaleR (fB E / rr E) v0).
(** Kepler's equation: the time at which the anomaly has changed by [E]. *)
Definition kepler (E : R) : R := (a * E + S * (1 - cos E) + (r0 - a) * sin E) / q.

Lemma place_norm : forall E, normR (place E) = rr E.
Proof.
  intros E. destruct elements as (P0 & Pa & Pq & M & Es & Ev & _ & _). assert (P := distance_pos E).
  apply Rsqr_inj; [apply normR_ge0|lra|]. unfold Rsqr. rewrite normR_sq. unfold place. rewrite combine_dot, <- normR_sq, Es, Ev. fold r0.
  assert (U := sin2_cos2 E). unfold Rsqr in U. rewrite Rplus_comm in U. assert (I := radius_identity a r0 S (cos E) (sin E) U). fold (fA E) (fG E) (rr E) in I.
  apply (Rmult_eq_reg_l r0); [|lra]. rewrite <- I. field. lra.
Qed.
Lemma speed_square : forall E, dotR (speed E) (speed E) = q * q * (2 * a / rr E - 1).
Proof.
  intros E. destruct elements as (P0 & Pa & Pq & M & Es & Ev & _ & _). assert (P := distance_pos E).
  unfold speed. rewrite combine_dot, <- normR_sq, Es, Ev. fold r0.
  assert (U := sin2_cos2 E). unfold Rsqr in U. rewrite Rplus_comm in U. assert (I := speed_identity a r0 S (cos E) (sin E) U). fold (rr E) in I. fold (fB E) in I.
  replace (q * q * (2 * a / rr E - 1)) with (q * q * (r0 * (2 * a * rr E - rr E * rr E)) / (r0 * (rr E * rr E))) by (field; lra). rewrite <- I. field. lra.
Qed.
Lemma momentum_constant : forall E, momentum (place E) (speed E) = momentum x0 v0.
Proof.
  intros E. destruct elements as (P0 & Pa & Pq & _). assert (P := distance_pos E).
  unfold momentum, place, speed. rewrite combine_cross.
  assert (U := sin2_cos2 E). unfold Rsqr in U. rewrite Rplus_comm in U. assert (I := area_identity a r0 S (cos E) (sin E) U). fold (rr E) in I. fold (fA E) (fG E) (fB E) in I.
  replace (fA E / r0 * (fB E / rr E) - fG E / q * (- (a * q * sin E) / (r0 * rr E))) with ((fA E * fB E + a * fG E * sin E) / (r0 * rr E)) by (field; lra).
  rewrite I. replace (r0 * rr E / (r0 * rr E)) with 1 by (field; lra). destruct (crossR x0 v0) as [b c d]. unfold scaleR. cbn [vx vy vz]. f_equal; ring.
Qed.
Lemma energy_constant : forall E, energy mu (place E) (speed E) = energy mu x0 v0.
Proof.
  intros E. destruct elements as (P0 & Pa & Pq & M & _). assert (P := distance_pos E).
  assert (Ee : energy mu x0 v0 = - (mu / (2 * a))) by (unfold a, semi_major; field; lra). rewrite Ee.
  unfold energy. rewrite speed_square, place_norm, <- M. field. lra.
Qed.
Lemma kepler_derive : forall E, is_derive kepler E (rr E / q).
Proof.
  intros E. destruct elements as (P0 & Pa & Pq & _). unfold kepler, rr. auto_derive; [exact I|]. field. lra.
Qed.
Lemma place_derive : forall (Ec : R -> R) t, is_derive Ec t (q / rr (Ec t)) -> is_derive3 (fun t => place (Ec t)) t (speed (Ec t)).
Proof.
  intros Ec t D. destruct elements as (P0 & Pa & Pq & _). assert (P := distance_pos (Ec t)).
  apply (combine_derive (fun t => fA (Ec t) / r0) (fun t => fG (Ec t) / q)).
  - eapply derive_value; [apply (comp_derive (fun E => fA E / r0) Ec t (- a * sin (Ec t) / r0) (q / rr (Ec t))); [|exact D]|field; lra].
    unfold fA. auto_derive; [exact I|field; lra].
  - eapply derive_value; [apply (comp_derive (fun E => fG E / q) Ec t (fB (Ec t) / q) (q / rr (Ec t))); [|exact D]|field; lra].
    unfold fG, fB, rr. auto_derive; [exact I|field; lra].
Qed.
Lemma speed_derive : forall (Ec : R -> R) t, is_derive Ec t (q / rr (Ec t)) -> is_derive3 (fun t => speed (Ec t)) t (newton mu (place (Ec t))).
Proof.
  intros Ec t D. destruct elements as (P0 & Pa & Pq & M & _). assert (P := distance_pos (Ec t)).
  assert (U' := sin2_cos2 (Ec t)). unfold Rsqr in U'. rewrite Rplus_comm in U'.
  replace (newton mu (place (Ec t))) with (addR (scaleR (- mu / rr (Ec t) ^ 3 * (fA (Ec t) / r0)) x0) (scaleR (- mu / rr (Ec t) ^ 3 * (fG (Ec t) / q)) v0)).
  2:{ unfold newton. rewrite place_norm. unfold place. now rewrite scale_combine. }
  apply (combine_derive (fun t => - (a * q * sin (Ec t)) / (r0 * rr (Ec t))) (fun t => fB (Ec t) / rr (Ec t))).
  - eapply derive_value; [apply (comp_derive (fun E => - (a * q * sin E) / (r0 * rr E)) Ec t (- (a * q) * fA (Ec t) / (r0 * (rr (Ec t) * rr (Ec t)))) (q / rr (Ec t))); [|exact D]|rewrite <- M; field; lra].
    assert (N : rr (Ec t) <> 0) by lra. unfold rr in N. unfold fA, rr. auto_derive; [repeat split; auto; apply Rmult_integral_contrapositive_currified; [lra|exact N]|].
    assert (I := slope_identity a r0 S (cos (Ec t)) (sin (Ec t)) U'). rewrite <- I. field. split; first [exact N|apply Rgt_not_eq; exact P0].
  - eapply derive_value; [apply (comp_derive (fun E => fB E / rr E) Ec t (- a * fG (Ec t) / (rr (Ec t) * rr (Ec t))) (q / rr (Ec t))); [|exact D]|rewrite <- M; field; lra].
    assert (N : rr (Ec t) <> 0) by lra. unfold rr in N. unfold fB, fG, rr. auto_derive; [repeat split; auto|].
    assert (I := rise_identity a r0 S (cos (Ec t)) (sin (Ec t)) U'). rewrite <- I. field. exact N.
Qed.
(** The motion from the state [x0], [v0]: an ellipse with the laws of Kepler. *)
Theorem kepler_motion : exists x v : R -> vec3 R, x 0 = x0 /\ v 0 = v0 /\
  (forall t, is_derive3 x t (v t) /\ is_derive3 v t (newton mu (x t))) /\
  (forall t, perigee mu x0 v0 <= normR (x t) <= apogee mu x0 v0) /\
  (forall t, energy mu (x t) (v t) = energy mu x0 v0 /\ momentum (x t) (v t) = momentum x0 v0) /\
  (forall t, x (t + 2 * PI * sqrt (a ^ 3 / mu)) = x t /\ v (t + 2 * PI * sqrt (a ^ 3 / mu)) = v t).
Proof.
  destruct elements as (P0 & Pa & Pq & M & _ & _ & [E0 E1] & _).
  assert (Pp : 0 < a * (1 - e)) by (apply Rmult_lt_0_compat; lra).
  destruct (inverse kepler (fun E => rr E / q) (a * (1 - e) / q)) as (Ec & F1 & F2 & F3).
  - now apply Rdiv_lt_0_compat.
  - apply kepler_derive.
  - intros E. apply Rmult_le_compat_r; [left; now apply Rinv_0_lt_compat|apply distance_bounds].
  - assert (D : forall t, is_derive Ec t (q / rr (Ec t))).
    { intros t. assert (P := distance_pos (Ec t)). eapply derive_value; [apply F3|field; lra]. }
    assert (Z : Ec 0 = 0).
    { rewrite <- (F2 0) at 2. f_equal. unfold kepler. rewrite cos_0, sin_0. field. lra. }
    assert (R0 : rr 0 = r0) by (unfold rr; rewrite cos_0, sin_0; ring).
    exists (fun t => place (Ec t)), (fun t => speed (Ec t)). cbv beta. rewrite Z. split; [|split; [|split; [|split; [|split]]]].
    + replace (place 0) with (addR (scaleR 1 x0) (scaleR 0 v0)); [apply combine_unit|].
      unfold place, fA, fG. rewrite cos_0, sin_0. f_equal; f_equal; field; lra.
    + replace (speed 0) with (addR (scaleR 0 x0) (scaleR 1 v0)); [apply combine_unit|].
      unfold speed, fB. rewrite R0, cos_0, sin_0. f_equal; f_equal; field; lra.
    + intros t. split; [now apply place_derive|now apply speed_derive].
    + intros t. rewrite place_norm. apply distance_bounds.
    + intros t. split; [apply energy_constant|apply momentum_constant].
    + intros t.
      assert (T : sqrt (a ^ 3 / mu) = a / q).
      { rewrite <- M. replace (a ^ 3 / (a * (q * q))) with (a / q * (a / q)) by (field; lra). apply R_sqrt.sqrt_square. left. now apply Rdiv_lt_0_compat. }
      assert (X : Ec (t + 2 * PI * sqrt (a ^ 3 / mu)) = Ec t + 2 * PI).
      { rewrite <- (F2 (Ec t + 2 * PI)). f_equal. rewrite T. rewrite <- (F1 t) at 1. unfold kepler. rewrite cos_plus, sin_plus, cos_2PI, sin_2PI. field. lra. }
      rewrite X. unfold place, speed, fA, fG, fB, rr. rewrite cos_plus, sin_plus, cos_2PI, sin_2PI.
      replace (cos (Ec t) * 1 - sin (Ec t) * 0) with (cos (Ec t)) by ring. replace (sin (Ec t) * 1 + cos (Ec t) * 0) with (sin (Ec t)) by ring. split; reflexivity.
Qed.
End Motion.
