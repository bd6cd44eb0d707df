(** * C59: ballistic flight stays in its plane

    Without engines and atmosphere the numerical trajectory never leaves the plane of its position and velocity if the
    planet is spherical, nor a plane through the polar axis if it is not. *)
From Coq Require Import ZArith List Reals Lra Lia Bool.
From Coquelicot Require Import Coquelicot.
From Coq Require Import List.
From Verif Require Import Num Constants State Tables Config Planet Atmosphere Transformations
  Steering Vehicle RungeKutta Phase Simulation XR XRFacts SpecReal SystemFacts SystemTotal RKFacts RunFacts
  PhaseNew Prop_Run Prop_Gravity Prop_Mass Prop_Simulation Prop_Mission.
Import ListNotations.
Local Open Scope R_scope.

Section Exact.
Context {rot : mat3 xr -> mat3 xr}.
Notation N := (XR rot).

(** ** Finite results have finite operands *)
Lemma xadd_inv : forall a b x, xadd a b = Fin x -> exists p q, a = Fin p /\ b = Fin q /\ x = p + q.
Proof. intros [p| | |] [q| | |] x H; try discriminate H. injection H as <-. eauto. Qed.
Lemma xsub_inv : forall a b x, xsub a b = Fin x -> exists p q, a = Fin p /\ b = Fin q /\ x = p - q.
Proof. intros [p| | |] [q| | |] x H; try discriminate H. injection H as <-. eauto. Qed.
Lemma inf_sign_not_fin : forall y x, inf_sign y = Fin x -> False.
Proof. intros y x. unfold inf_sign. destruct (Rltb 0 y); [discriminate|]. destruct (Rltb y 0); discriminate. Qed.
Lemma xmul_inv : forall a b x, xmul a b = Fin x -> exists p q, a = Fin p /\ b = Fin q /\ x = p * q.
Proof.
  intros [p| | |] [q| | |] x H; try discriminate H; try (exfalso; exact (inf_sign_not_fin _ _ H)). injection H as <-. eauto.
Qed.
Lemma xdiv_inv : forall a b x, xdiv a b = Fin x -> exists p, a = Fin p /\ b <> NaN /\ b <> Fin 0.
Proof.
  intros [p| | |] [q| | |] x H; try discriminate H; try (exists p; repeat split; try discriminate; fail).
  - exists p. repeat split; [discriminate|]. intros E. injection E as ->. cbn in H. unfold Reqb in H.
    destruct (Req_EM_T 0 0); [exact (inf_sign_not_fin _ _ H)|lra].
  - cbn in H. destruct (Rltb q 0); discriminate.
  - cbn in H. destruct (Rltb q 0); discriminate.
Qed.
Lemma vadd_inv : forall (a b : vec3 N) x, vadd a b = finv x -> exists p q, a = finv p /\ b = finv q /\ x = addR p q.
Proof.
  intros [a0 a1 a2] [b0 b1 b2] [x0 x1 x2] H. unfold vadd, finv in H. cbn [vx vy vz n_add XR] in H. injection H as H0 H1 H2.
  destruct (xadd_inv _ _ _ H0) as (p0 & q0 & -> & -> & ->), (xadd_inv _ _ _ H1) as (p1 & q1 & -> & -> & ->), (xadd_inv _ _ _ H2) as (p2 & q2 & -> & -> & ->).
  exists (V3 p0 p1 p2), (V3 q0 q1 q2). auto.
Qed.
Lemma vscale_inv : forall (k : N) (a : vec3 N) x, vscale k a = finv x -> exists c p, k = Fin c /\ a = finv p /\ x = scaleR c p.
Proof.
  intros k [a0 a1 a2] [x0 x1 x2] H. unfold vscale, finv in H. cbn [vx vy vz n_mul XR] in H. injection H as H0 H1 H2.
  destruct (xmul_inv _ _ _ H0) as (c & p0 & -> & -> & ->), (xmul_inv _ _ _ H1) as (c1 & p1 & E1 & -> & ->), (xmul_inv _ _ _ H2) as (c2 & p2 & E2 & -> & ->).
  injection E1 as <-. injection E2 as <-. exists c, (V3 p0 p1 p2). auto.
Qed.

(** ** Planes *)
(** Every finite value of [v] is orthogonal to [n]. *)
Definition flat (n : vec3 R) (v : vec3 N) : Prop := forall x, v = finv x -> dotR n x = 0.
Lemma flat_add : forall n a b, flat n a -> flat n b -> flat n (vadd a b).
Proof.
  intros n a b A B x H. destruct (vadd_inv _ _ _ H) as (p & q & Ep & Eq & ->). specialize (A p Ep). specialize (B q Eq).
  revert A B. destruct n as [n0 n1 n2], p as [p0 p1 p2], q as [q0 q1 q2]. unfold dotR, addR. cbn [vx vy vz]. lra.
Qed.
Lemma flat_scale : forall n k a, flat n a -> flat n (vscale k a).
Proof.
  intros n k a A x H. destruct (vscale_inv _ _ _ H) as (c & p & _ & Ep & ->). specialize (A p Ep).
  destruct n as [n0 n1 n2], p as [p0 p1 p2]. unfold dotR, scaleR in *. cbn [vx vy vz] in *.
  replace (n0 * (c * p0) + n1 * (c * p1) + n2 * (c * p2)) with (c * (n0 * p0 + n1 * p1 + n2 * p2)) by ring. rewrite A. ring.
Qed.
Lemma flat_zero : forall n, flat n (vzero (N := N)).
Proof.
  intros n x H. rewrite vzero_fin in H. destruct n as [n0 n1 n2], x as [x0 x1 x2]. unfold finv, zeroR in H. cbn [vx vy vz] in H. injection H as <- <- <-.
  unfold dotR. cbn [vx vy vz]. ring.
Qed.

(** ** Gravity *)
Lemma powi2_inv : forall (z : xr) x, powi (N := N) z 2 = Fin x -> exists y, z = Fin y.
Proof.
  intros z x H. unfold powi in H. cbn [Pos.of_nat Pos.succ powi_loop n_mul XR] in H.
  destruct (xmul_inv _ _ _ H) as (p & q & _ & E & _). destruct (xmul_inv _ _ _ E) as (p' & q' & E' & _). eauto.
Qed.
Lemma gravity_inv : forall p Re Rp mu J2 J3 J4 w (v : vec3 N) g, real_planet p Re Rp mu J2 J3 J4 w -> gravity p v = finv g ->
  exists r, v = finv r /\ r <> zeroR.
Proof.
  intros p Re Rp mu0 J2 J3 J4 w v g Hp H.
  assert (Hx : exists x, vx (gravity p v) = Fin x) by (rewrite H; eexists; reflexivity).
  assert (Hy : exists x, vy (gravity p v) = Fin x) by (rewrite H; eexists; reflexivity). clear H.
  unfold gravity in Hx, Hy. cbn [vx vy] in Hx, Hy.
  destruct Hx as [gx Hx], Hy as [gy Hy]. cbn [n_mul n_div n_add n_sub n_neg XR] in Hx, Hy.
  destruct (xmul_inv _ _ _ Hx) as (x1 & x2 & X1 & X2 & _). destruct (xmul_inv _ _ _ Hy) as (y1 & y2 & Y1 & _ & _). clear Hx Hy.
  destruct (xdiv_inv _ _ _ X1) as (x3 & X3 & _ & X5). destruct (xdiv_inv _ _ _ Y1) as (y3 & Y3 & _).
  destruct (xmul_inv _ _ _ X3) as (_ & x4 & _ & X4 & _). destruct (xmul_inv _ _ _ Y3) as (_ & y4 & _ & Y4 & _).
  destruct (xadd_inv _ _ _ X2) as (a1 & _ & A1 & _). destruct (xadd_inv _ _ _ A1) as (a2 & _ & A2 & _).
  destruct (xadd_inv _ _ _ A2) as (_ & a3 & _ & A3 & _). destruct (xmul_inv _ _ _ A3) as (_ & a4 & _ & A4 & _).
  destruct (xsub_inv _ _ _ A4) as (_ & a5 & _ & A5 & _). destruct (xmul_inv _ _ _ A5) as (_ & a6 & _ & A6 & _).
  apply powi2_inv in A6. destruct A6 as [a7 A7]. destruct (xdiv_inv _ _ _ A7) as (z4 & Z4 & _).
  clear - X4 Y4 Z4 X5. destruct v as [a b c]. cbn [vx vy vz] in *. subst a b c. exists (V3 x4 y4 z4). split; [reflexivity|].
  intros E. apply X5. unfold zeroR in E. injection E as -> -> ->.
  assert (Z : norm (N := N) (V3 (Fin 0) (Fin 0) (Fin 0)) = Fin 0).
  { change (V3 (Fin 0) (Fin 0) (Fin 0)) with (finv (V3 0 0 0)). rewrite norm_fin. apply (f_equal Fin). unfold normR, dotR. cbn [vx vy vz].
    replace (0 * 0 + 0 * 0 + 0 * 0) with 0 by ring. apply sqrt_0. }
  transitivity (powi (N := N) (Fin 0) 3); [exact (f_equal (fun r : N => powi r 3) Z)|]. unfold powi. cbn [Pos.of_nat Pos.succ powi_loop n_mul n_lit XR]. cbn. apply (f_equal Fin). ring.
Qed.

(** The planes that gravity does not leave: all for a spherical planet, those through the polar axis for any. *)
Definition kept_by (n : vec3 R) (J2 J3 J4 : R) : Prop := vz n = 0 \/ (J2 = 0 /\ J3 = 0 /\ J4 = 0).
Lemma gravity_flat : forall p Re Rp mu J2 J3 J4 w n (v : vec3 N), real_planet p Re Rp mu J2 J3 J4 w -> kept_by n J2 J3 J4 ->
  flat n v -> flat n (gravity p v).
Proof.
  intros p Re Rp mu0 J2 J3 J4 w n v Hp K F g H. destruct (gravity_inv _ _ _ _ _ _ _ _ _ _ Hp H) as (r & -> & R0).
  specialize (F r eq_refl). assert (Hn := normR_pos _ R0).
  rewrite (gravity_real _ _ _ _ _ _ _ _ r Hp R0) in H.
  assert (E : g = grav mu0 J2 J3 J4 Re r).
  { destruct g as [g0 g1 g2], (grav mu0 J2 J3 J4 Re r) as [h0 h1 h2]. unfold finv in H. cbn [vx vy vz] in H. now injection H as -> -> ->. }
  subst g. clear H.
  assert (D : dotR n (grav mu0 J2 J3 J4 Re r) = pot_r mu0 J2 J3 J4 Re (normR r) (vz r) / normR r * dotR n r + vz n * pot_z mu0 J2 J3 J4 Re (normR r) (vz r)).
  { unfold grav, dotR. cbn [vx vy vz]. field. lra. }
  rewrite D, F. destruct K as [-> |(-> & -> & ->)]; [ring|]. unfold pot_z. field. lra.
Qed.

(** ** Forces *)
Lemma no_forces : forall (p : Phase N) s0 s n Re Rp mu J2 J3 J4 w, ve_engines (ph_vehicle p) = [] -> at_model (ph_atmosphere p) = NoAtmosphere ->
  real_planet (ph_planet p) Re Rp mu J2 J3 J4 w -> kept_by n J2 J3 J4 -> system p s0 = Ret s ->
  flat n (st_position s0) -> flat n (st_acceleration s).
Proof.
  intros p s0 s n Re Rp mu0 J2 J3 J4 w He Hm Hp K H F. apply system_eom in H.
  destruct (no_atmosphere_forces _ _ _ Hm (eom_equations _ _ _ H)) as [_ A].
  rewrite (e_acceleration _ _ _ H). apply flat_add.
  2:{ rewrite (e_gravity _ _ _ H), (e_position _ _ _ H). exact (gravity_flat _ _ _ _ _ _ _ _ _ _ Hp K F). }
  rewrite (e_vehicle_acceleration _ _ _ H), A, (e_thrust _ _ _ H). unfold thrust_force. rewrite He.
  cbn [map]. change (vsum (N := N) []) with (vzero (N := N)). 
  generalize (transpose (inertial_to_body (ph_launch p) (st_euler_angles s))), (st_throttle s), (st_mass s). clear. intros M th m x E.
  assert (Z : forall a : xr, xdiv (xadd (Fin 0) (xmul a (Fin 0))) m = Fin 0 \/ xdiv (xadd (Fin 0) (xmul a (Fin 0))) m = NaN).
  { intros a. assert (Q : xadd (Fin 0) (xmul a (Fin 0)) = Fin 0 \/ xadd (Fin 0) (xmul a (Fin 0)) = NaN).
    { destruct a as [y| | |]; cbn.
      - left. apply (f_equal Fin). ring.
      - unfold inf_sign. rewrite !Rltb_false by lra. now right.
      - unfold inf_sign. rewrite !Rltb_false by lra. now right.
      - now right. }
    destruct Q as [-> | ->]; [|right; destruct m; reflexivity].
    destruct m as [y| | |]; cbn; auto. unfold Reqb. destruct (Req_EM_T y 0).
    - unfold inf_sign. rewrite !Rltb_false by lra. now right.
    - left. apply (f_equal Fin). field. assumption. }
  change (vzero (N := N)) with (finv zeroR) in E. unfold vscale, zeroR, finv, vadd, vdiv in E. cbn [vx vy vz n_mul n_add n_div XR] in E.
  specialize (Z th). revert Z E. generalize (xdiv (xadd (Fin 0) (xmul th (Fin 0))) m). intros q Z E.
  unfold mulv, vdot in E. cbn [vx vy vz n_mul n_add XR] in E.
  assert (W : forall a b c y, xadd (xadd (xmul a q) (xmul b q)) (xmul c q) = Fin y -> y = 0).
  { intros a b c y G. destruct (xadd_inv _ _ _ G) as (u & u3 & G1 & G2 & ->). destruct (xadd_inv _ _ _ G1) as (u1 & u2 & G3 & G4 & ->).
    destruct (xmul_inv _ _ _ G2) as (k1 & l1 & _ & L1 & ->). destruct (xmul_inv _ _ _ G3) as (k2 & l2 & _ & L2 & ->).
    destruct (xmul_inv _ _ _ G4) as (k3 & l3 & _ & L3 & ->). destruct Z as [-> | ->]; [|discriminate].
    injection L1 as <-. injection L2 as <-. injection L3 as <-. ring. }
  destruct x as [x0 x1 x2]. injection E as E0 E1 E2. apply W in E0, E1, E2. subst. unfold dotR. cbn [vx vy vz]. ring.
Qed.

(** ** Steps and phases *)
Section Run.
Variable n : vec3 R.
Variable Re Rp mu0 J2 J3 J4 w : R.
Definition ballistic (p : Phase N) : Prop := ve_engines (ph_vehicle p) = [] /\ at_model (ph_atmosphere p) = NoAtmosphere /\
  real_planet (ph_planet p) Re Rp mu0 J2 J3 J4 w /\ kept_by n J2 J3 J4.
Definition flat_state (s : State N) : Prop := flat n (st_position s) /\ flat n (st_velocity s).
Lemma system_flat : forall (p : Phase N) s0 s, ballistic p -> system p s0 = Ret s -> flat_state s0 ->
  flat_state s /\ flat n (st_acceleration s).
Proof.
  intros p s0 s (A & B & C & D) H [F G]. split; [|exact (no_forces _ _ _ _ _ _ _ _ _ _ _ A B C D H F)].
  apply system_eom in H. split; [rewrite (e_position _ _ _ H)|rewrite (e_velocity _ _ _ H)]; assumption.
Qed.
Lemma from_vec_flat : forall (t : N * N) (v : vec7 N), flat n (v7_pos v) -> flat n (v7_vel v) -> flat_state (from_vec t v).
Proof. intros t v A B. split; assumption. Qed.
Ltac flats := repeat lazymatch goal with
  | |- flat _ (vadd _ _) => apply flat_add
  | |- flat _ (vscale _ _) => apply flat_scale
  | |- flat _ vzero => apply flat_zero
  | |- _ => assumption
  end.
Lemma step_flat : forall (p : Phase N) s h s', ballistic p -> integrator_step (system p) s h = Ret s' -> flat_state s -> flat_state s'.
Proof.
  intros p s h s' B H F. apply integrator_step_inv in H. destruct H as (d0 & d1 & d2 & d3 & H0 & H1 & H2 & H3 & H4).
  unfold rk_sum in H0, H1, H2, H3, H4. cbn [combine map fold_left fst snd] in H0, H1, H2, H3, H4.
  destruct F as [F1 F2].
  assert (X0 : flat_state d0 /\ flat n (st_acceleration d0)).
  { refine (system_flat p _ d0 B H0 _). apply from_vec_flat; cbn [v7_pos v7_vel v7_add v7_scale v7_zero to_primary_vec]; flats. }
  destruct X0 as [[P0 V0] A0].
  assert (X1 : flat_state d1 /\ flat n (st_acceleration d1)).
  { refine (system_flat p _ d1 B H1 _). apply from_vec_flat; cbn [v7_pos v7_vel v7_add v7_scale v7_zero to_primary_vec to_differentials_vector]; flats. }
  destruct X1 as [[P1 V1] A1].
  assert (X2 : flat_state d2 /\ flat n (st_acceleration d2)).
  { refine (system_flat p _ d2 B H2 _). apply from_vec_flat; cbn [v7_pos v7_vel v7_add v7_scale v7_zero to_primary_vec to_differentials_vector]; flats. }
  destruct X2 as [[P2 V2] A2].
  assert (X3 : flat_state d3 /\ flat n (st_acceleration d3)).
  { refine (system_flat p _ d3 B H3 _). apply from_vec_flat; cbn [v7_pos v7_vel v7_add v7_scale v7_zero to_primary_vec to_differentials_vector]; flats. }
  destruct X3 as [[P3 V3'] A3].
  refine (proj1 (system_flat p _ s' B H4 _)). apply from_vec_flat; cbn [v7_pos v7_vel v7_add v7_scale v7_zero to_primary_vec to_differentials_vector]; flats.
Qed.
Lemma same_ballistic : forall p q : Phase N, same_parameters p q -> ballistic p -> ballistic q.
Proof. intros p q S (A & B & C & D). unfold same_parameters in S. unfold ballistic. intuition congruence. Qed.
Lemma chain_flat : forall (p : Phase N) ps, chain p ps -> ballistic p -> flat_state (ph_state p) -> Forall (fun q => flat_state (ph_state q)) ps.
Proof.
  intros p ps C B F.
  assert (G : Forall (fun q => ballistic q /\ flat_state (ph_state q)) ps).
  { apply (chain_ind_inv (fun q => ballistic q /\ flat_state (ph_state q))) with p; auto.
    intros q q' [Bq Fq] _ St. destruct (C32_iteration _ _ St) as [s [Hc [S X]]]. split; [exact (same_ballistic _ _ S Bq)|].
    destruct (attempt_overshoots q); destruct X as [-> _]; [exact Fq|]. exact (step_flat q _ _ s Bq Hc Fq). }
  revert G. apply Forall_impl. tauto.
Qed.
Lemma run_flat : forall fuel (p : Phase N) h st s, ballistic p -> flat_state (ph_state p) -> run fuel p = (h, st) -> In s h -> flat_state s.
Proof.
  intros fuel p h st s B F R Hs. destruct (run_chain _ _ _ _ R) as [[e [_ [-> _]]]|[s0 [ps [Hi [Hc [-> _]]]]]]; [destruct Hs|].
  destruct (system_flat p _ s0 B Hi F) as [F0 _].
  assert (G := chain_flat _ _ Hc (same_ballistic p _ ltac:(repeat split) B) F0).
  apply in_map_iff in Hs. destruct Hs as (q & <- & Hq). rewrite Forall_forall in G. exact (G q Hq).
Qed.
Lemma run_flat_later : forall fuel (p : Phase N) h1 s1 h2 st s, ballistic p -> run fuel p = (h1 ++ s1 :: h2, st) -> In s h2 ->
  flat_state s1 -> flat_state s.
Proof.
  intros fuel p h1 s1 h2 st s B R Hs F. destruct (run_chain _ _ _ _ R) as [[e [_ [E _]]]|[s0 [ps [Hi [Hc [E _]]]]]]; [destruct h1; discriminate|].
  symmetry in E. apply map_eq_app in E. destruct E as (ps1 & ps2 & -> & E1 & E2). destruct ps2 as [|q ps2]; [discriminate|].
  cbn [map] in E2. injection E2 as Eq E2. subst h2.
  assert (B0 : ballistic (set_ph_state p s0)) by (apply (same_ballistic p); [repeat split|exact B]).
  assert (C2 : chain q ps2 /\ ballistic q).
  { clear - Hc B0. revert Hc B0. generalize (set_ph_state p s0). intros p0. revert p0. induction ps1 as [|a ps1 IH]; intros p0 C B0; inversion C as [|? ? ? _ St C']; subst.
    - split; [exact C'|]. destruct (C32_iteration _ _ St) as [s [_ [S _]]]. exact (same_ballistic _ _ S B0).
    - refine (IH _ C' _). destruct (C32_iteration _ _ St) as [s [_ [S _]]]. exact (same_ballistic _ _ S B0). }
  destruct C2 as [C2 Bq]. assert (G := chain_flat _ _ C2 Bq). rewrite Eq in G. specialize (G F).
  apply in_map_iff in Hs. destruct Hs as (q' & <- & Hq). rewrite Forall_forall in G. exact (G q' Hq).
Qed.
End Run.

(** ** C59 *)
Lemma flat_fin : forall n x, flat n (finv x) -> dotR n x = 0.
Proof. intros n x F. exact (F x eq_refl). Qed.
Lemma fin_flat : forall n (v : vec3 N) x, v = finv x -> dotR n x = 0 -> flat n v.
Proof.
  intros n v x -> D y E. destruct x as [x0 x1 x2], y as [y0 y1 y2]. unfold finv in E. cbn [vx vy vz] in E. injection E as -> -> ->. exact D.
Qed.
(** A phase without engines in vacuum. *)
Theorem C59_phase : forall fuel (p : Phase N) h st s n Re Rp mu J2 J3 J4 w r0 v0 r v,
  ve_engines (ph_vehicle p) = [] -> at_model (ph_atmosphere p) = NoAtmosphere ->
  real_planet (ph_planet p) Re Rp mu J2 J3 J4 w -> vz n = 0 \/ (J2 = 0 /\ J3 = 0 /\ J4 = 0) ->
  st_position (ph_state p) = finv r0 -> st_velocity (ph_state p) = finv v0 -> dotR n r0 = 0 -> dotR n v0 = 0 ->
  run fuel p = (h, st) -> In s h -> st_position s = finv r -> st_velocity s = finv v -> dotR n r = 0 /\ dotR n v = 0.
Proof.
  intros fuel p h st s n Re Rp mu0 J2 J3 J4 w r0 v0 r v He Hm Hp K Er Ev Dr Dv R Hs Hr Hv.
  assert (B : ballistic n Re Rp mu0 J2 J3 J4 w p) by (repeat split; assumption).
  assert (F : flat_state n (ph_state p)) by (split; [exact (fin_flat n _ r0 Er Dr)|exact (fin_flat n _ v0 Ev Dv)]).
  destruct (run_flat n Re Rp mu0 J2 J3 J4 w fuel p h st s B F R Hs) as [F1 F2]. split; [exact (F1 r Hr)|exact (F2 v Hv)].
Qed.
Lemma effective_ballistic : forall (cs : list (PhaseConfig N)) i (p : Phase N) n Re Rp mu J2 J3 J4 w, begins (firstn i cs) p ->
  engines_in_effect cs i = [] -> atmosphere_in_effect cs i = false -> planet_data (planet_in_effect cs i) Re Rp mu J2 J3 J4 w ->
  vz n = 0 \/ (J2 = 0 /\ J3 = 0 /\ J4 = 0) -> ballistic n Re Rp mu J2 J3 J4 w p.
Proof.
  intros cs i p n Re Rp mu0 J2 J3 J4 w B He Ha D K. split; [|split; [|split; [|exact K]]].
  - rewrite (f_engines _ _ (C28_effective _ _ B)). exact He.
  - now rewrite (atmosphere_effective _ _ _ B), Ha.
  - unfold real_planet. rewrite (planet_effective _ _ _ B). now apply planet_data_is.
Qed.
Lemma new_state : forall (q : Phase N) c p', phase_new (Some q) c = Ret p' ->
  st_position (ph_state (reset p')) = st_position (ph_state q) /\ st_velocity (ph_state (reset p')) = st_velocity (ph_state q).
Proof.
  intros q c p' H. rewrite phase_new_configured in H. injection H as <-. rewrite DemoExact.reset_position, DemoExact.reset_velocity.
  unfold configured. cbn [ph_state]. destruct (pc_vehicle c) as [v|]; [|split; reflexivity].
  destruct (vc_structure_mass v), (vc_propellant_mass v); split; reflexivity.
Qed.
(** Missions: the plane of the last record before a ballistic phase is the plane of all its records. *)
Theorem C59_simulation : forall (cs : list (PhaseConfig N)) i s' s n Re Rp mu J2 J3 J4 w r' v' r v,
  writes cs i (Some s') s -> engines_in_effect cs i = [] -> atmosphere_in_effect cs i = false ->
  planet_data (planet_in_effect cs i) Re Rp mu J2 J3 J4 w -> vz n = 0 \/ (J2 = 0 /\ J3 = 0 /\ J4 = 0) ->
  st_position s' = finv r' -> st_velocity s' = finv v' -> dotR n r' = 0 -> dotR n v' = 0 ->
  st_position s = finv r -> st_velocity s = finv v -> dotR n r = 0 /\ dotR n v = 0.
Proof.
  intros cs i s' s n Re Rp mu0 J2 J3 J4 w r' v' r v (fuel & ev & st & a & h & b & H & Bl & Hs & a' & Ea) He Ha D K Er Ev Dr Dv Hr Hv.
  destruct (simulate_blocks _ _ _ _ _ _ _ _ H Bl) as [Hi [(-> & _)|(p & st1 & Bp & R & _ & _ & pr & c & p' & Hn & Ep & X)]]; [destruct Hs|].
  destruct X as [[X _]|(a2 & q & -> & X)]; [subst a; destruct a'; discriminate|].
  rewrite Ea in X. apply app_inj_tail in X. destruct X as [_ X]. injection X as ->.
  destruct (new_state _ _ _ Hn) as [Q1 Q2]. rewrite <- Ep in Q1, Q2.
  destruct (effective_ballistic cs i p n _ _ _ _ _ _ _ Bp He Ha D K) as (B1 & B2 & B3 & _).
  exact (C59_phase fuel p h st1 s n _ _ _ _ _ _ _ r' v' r v B1 B2 B3 K (eq_trans Q1 Er) (eq_trans Q2 Ev) Dr Dv R Hs Hr Hv).
Qed.
(** Within a ballistic phase: the plane of any record is the plane of all later ones. *)
Theorem C59_records : forall fuel (cs : list (PhaseConfig N)) ev st a i h1 s1 h2 b s n Re Rp mu J2 J3 J4 w r1 v1 r v,
  simulate fuel cs = (ev, st) -> block ev a i (h1 ++ s1 :: h2) b -> In s h2 ->
  engines_in_effect cs i = [] -> atmosphere_in_effect cs i = false ->
  planet_data (planet_in_effect cs i) Re Rp mu J2 J3 J4 w -> vz n = 0 \/ (J2 = 0 /\ J3 = 0 /\ J4 = 0) ->
  st_position s1 = finv r1 -> st_velocity s1 = finv v1 -> dotR n r1 = 0 -> dotR n v1 = 0 ->
  st_position s = finv r -> st_velocity s = finv v -> dotR n r = 0 /\ dotR n v = 0.
Proof.
  intros fuel cs ev st a i h1 s1 h2 b s n Re Rp mu0 J2 J3 J4 w r1 v1 r v H Bl Hs He Ha D K Er Ev Dr Dv Hr Hv.
  destruct (simulate_blocks _ _ _ _ _ _ _ _ H Bl) as [_ [(X & _)|(p & st1 & Bp & R & _)]]; [destruct h1; discriminate|].
  assert (B := effective_ballistic cs i p n _ _ _ _ _ _ _ Bp He Ha D K).
  destruct (run_flat_later n _ _ _ _ _ _ _ fuel p h1 s1 h2 st1 s B R Hs) as [F1 F2].
  { split; [exact (fin_flat n _ r1 Er Dr)|exact (fin_flat n _ v1 Ev Dv)]. }
  split; [exact (F1 r Hr)|exact (F2 v Hv)].
Qed.
(** In particular a vertical fall on a spherical planet is vertical. *)
Theorem C59_vertical : forall (cs : list (PhaseConfig N)) i s' s Re Rp mu w r' k r v,
  writes cs i (Some s') s -> engines_in_effect cs i = [] -> atmosphere_in_effect cs i = false ->
  planet_data (planet_in_effect cs i) Re Rp mu 0 0 0 w ->
  st_position s' = finv r' -> st_velocity s' = finv (scaleR k r') ->
  st_position s = finv r -> st_velocity s = finv v -> crossR r' r = zeroR /\ crossR r' v = zeroR.
Proof.
  intros cs i s' s Re Rp mu0 w r' k r v W He Ha D Er Ev Hr Hv.
  assert (G : forall n, dotR n r' = 0 -> dotR n r = 0 /\ dotR n v = 0).
  { intros n Dn. apply (C59_simulation cs i s' s n Re Rp mu0 0 0 0 w r' (scaleR k r') r v); auto.
    destruct n as [n0 n1 n2], r' as [a b c]. unfold dotR, scaleR in *. cbn [vx vy vz] in *.
    replace (n0 * (k * a) + n1 * (k * b) + n2 * (k * c)) with (k * (n0 * a + n1 * b + n2 * c)) by ring. rewrite Dn. ring. }
  destruct r' as [a b c].
  destruct (G (V3 0 (- c) b)) as [G1 H1]; [unfold dotR; cbn [vx vy vz]; ring|].
  destruct (G (V3 c 0 (- a))) as [G2 H2]; [unfold dotR; cbn [vx vy vz]; ring|].
  destruct (G (V3 (- b) a 0)) as [G3 H3]; [unfold dotR; cbn [vx vy vz]; ring|].
  clear - G1 G2 G3 H1 H2 H3. destruct r as [x y z], v as [u1 u2 u3]. unfold dotR, crossR, zeroR in *. cbn [vx vy vz] in *. split; f_equal; lra.
Qed.
End Exact.
