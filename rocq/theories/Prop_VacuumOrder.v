(** * C41 for the simulated flight: in vacuum the integrator approximates the exact motion to
    fourth order

    The equations of motion that the simulation evaluates in vacuum (engines at full throttle,
    zonal gravity, attitude steered by primary variables) are smooth, so that the general
    theorem [C41_simulation] applies to the code's own equations. *)
From Coq Require Import ZArith Arith Reals Lra Lia.
From Coquelicot Require Import Coquelicot.
From Coq Require Import List FunctionalExtensionality.
From Verif Require Import Num Constants State Tables Config Planet Atmosphere Transformations
  Steering Vehicle RungeKutta Phase XR XRFacts SpecReal SystemFacts RunFacts PhaseNew Simulation Prop_Run Prop_Panics Prop_Tables Prop_Frames Prop_Gravity
  Prop_Throttle Prop_Limit Prop_Planet Prop_Steering OrderFour SmoothFacts Prop_RK4.
Import ListNotations.
Local Open Scope R_scope.

(** Variables that are smooth functions of the time and the primary state. *)
Definition smooth_variable (v : StateVariable) : bool :=
  match v with
  | Time | TimeSinceEvent | Position1 | Position2 | Position3 | PositionNorm
  | Velocity1 | Velocity2 | Velocity3 | Mass => true
  | _ => false
  end.

Section Vacuum.
Context {rot : mat3 xr -> mat3 xr}.
Notation N := (XR rot).

(** A steered axis: variable and coefficients. *)
Definition smooth_axis (a : axis N) (v : StateVariable) (c0 : R) (c : vec3 R) : Prop :=
  axis_is a v c0 c /\ smooth_variable v = true.
Definition smooth_steering (sg : Steering N) : Prop :=
  (exists v c0 c, smooth_axis (sg_roll sg) v c0 c) /\ (exists v c0 c, smooth_axis (sg_yaw sg) v c0 c) /\
  (exists v c0 c, smooth_axis (sg_pitch sg) v c0 c).

(** Value of a smooth variable. *)
Definition value (v : StateVariable) (t e : R) (r u : vec3 R) (m : R) : R :=
  match v with
  | Time => t | TimeSinceEvent => e
  | Position1 => vx r | Position2 => vy r | Position3 => vz r | PositionNorm => normR r
  | Velocity1 => vx u | Velocity2 => vy u | Velocity3 => vz u | Mass => m
  | _ => 0
  end.

(** The primary variables of a state. *)
Definition primaries (s : State N) (t e : R) (r u : vec3 R) (m : R) : Prop :=
  st_time s = Fin t /\ st_time_since_event s = Fin e /\ st_position s = finv r /\
  st_velocity s = finv u /\ st_mass s = Fin m.

Lemma value_ok : forall (s : State N) t e r u m v, primaries s t e r u m -> smooth_variable v = true ->
  get_value v s = Fin (value v t e r u m).
Proof.
  intros s t e r u m v (Ht & He & Hr & Hu & Hm) Hv.
  destruct v; try discriminate Hv; cbn [get_value value];
    rewrite ?Ht, ?He, ?Hr, ?Hu, ?Hm; try reflexivity. apply norm_fin.
Qed.

(** The acceleration as a real function. *)
Definition angle (a : StateVariable * R * vec3 R) (t e : R) (r u : vec3 R) (m : R) : R :=
  let '(v, c0, c) := a in deg (c0 + Prop_Steering.poly c (value v t e r u m)).
Definition acc (launch : vec3 R) (ro ya pi : StateVariable * R * vec3 R) (T : vec3 R)
    (mu J2 J3 J4 Re : R) (t e : R) (r u : vec3 R) (m : R) : vec3 R :=
  addR (mulvR (transposeR (mulmR (l2b (angle ro t e r u m) (angle ya t e r u m) (angle pi t e r u m))
                                 (i2l (vx launch) (vy launch) (vz launch))))
              (scaleR (/ m) T))
       (grav mu J2 J3 J4 Re r).

Lemma vacuum_system : rot_contract rot -> forall (p : Phase N) s0 es Re Rp mu J2 J3 J4 w launch
    vr cr0 cr vy' cy0 cy vp cp0 cp t e r u m,
  vacuum p -> engines_are (ph_vehicle p) es -> Forall (fun e => isp e <> 0) es ->
  ph_max_acceleration p = PInf -> real_planet (ph_planet p) Re Rp mu J2 J3 J4 w ->
  ph_launch p = finv launch ->
  smooth_axis (sg_roll (ph_steering p)) vr cr0 cr -> smooth_axis (sg_yaw (ph_steering p)) vy' cy0 cy ->
  smooth_axis (sg_pitch (ph_steering p)) vp cp0 cp ->
  primaries s0 t e r u m -> r <> zeroR -> 0 < m ->
  exists s, system p s0 = Ret s /\ primaries s t e r u m /\
    st_acceleration s = finv (acc launch (vr, cr0, cr) (vy', cy0, cy) (vp, cp0, cp) (full_thrust es 0)
                                mu J2 J3 J4 Re t e r u m) /\
    st_massflow s = Fin (- full_flow es).
Proof.
  intros Hrot p s0 es Re Rp mu J2 J3 J4 w launch vr cr0 cr vy' cy0 cy vp cp0 cp t e r u m
    Hvac He Hi HL Hp Hla [Ar Sr] [Ay Sy] [Ap Sp] Hpr Hr Pm.
  assert (Hpr' := Hpr). destruct Hpr' as (P1 & P2 & P3 & P4 & P5).
  destruct (C49_vacuum p s0 es r u m Hvac He HL P3 P4 P5 Pm) as (s & S & Hth & HT & Hva).
  exists s. split; [exact S|]. assert (E := S). apply system_eom in E.
  assert (Q : primaries s t e r u m).
  { unfold primaries. rewrite (e_time _ _ _ E), (e_time_since_event _ _ _ E), (e_position _ _ _ E),
      (e_velocity _ _ _ E), (e_mass _ _ _ E). exact Hpr. }
  split; [exact Q|].
  destruct (C38_reads p s0 s S) as [(view & [V _] & Ev) _].
  assert (L : forall v, smooth_variable v = true -> get_value v view = Fin (value v t e r u m)).
  { intros v Hv. rewrite V by (destruct v; try discriminate Hv; reflexivity). now apply value_ok. }
  assert (A1 := law p s view _ _ vr cr0 cr _ angle_roll Ar Ev (L vr Sr)).
  assert (A2 := law p s view _ _ vy' cy0 cy _ angle_yaw Ay Ev (L vy' Sy)).
  assert (A3 := law p s view _ _ vp cp0 cp _ angle_pitch Ap Ev (L vp Sp)).
  cbn beta in A1, A2, A3.
  assert (Ea : st_euler_angles s = finv (V3 (angle (vr, cr0, cr) t e r u m) (angle (vy', cy0, cy) t e r u m)
                 (angle (vp, cp0, cp) t e r u m))).
  { destruct (st_euler_angles s) as [a b c]. cbn [vx vy vz] in A1, A2, A3. rewrite A1, A2, A3. reflexivity. }
  split.
  - rewrite (e_acceleration _ _ _ E), (e_gravity _ _ _ E), Hla, Ea, Hva, (e_position _ _ _ E), P3,
      (gravity_real _ Re Rp mu J2 J3 J4 w r Hp Hr), (inertial_to_body_real Hrot), transpose_fin, mulv_fin, vadd_fin.
    reflexivity.
  - rewrite (e_massflow _ _ _ E), Hth, (C24_massflow _ es 1 He Hi). apply (f_equal Fin). ring.
Qed.

(** ** Smoothness of the acceleration *)
Section Smoothness.
Variable n : nat.
Variable U : (nat -> R) -> Prop.
Notation sm := (sm n U 4).
Definition smv (F : (nat -> R) -> vec3 R) : Prop :=
  sm (fun z => vx (F z)) /\ sm (fun z => vy (F z)) /\ sm (fun z => vz (F z)).
Definition smm (F : (nat -> R) -> mat3 R) : Prop :=
  smv (fun z => row0 (F z)) /\ smv (fun z => row1 (F z)) /\ smv (fun z => row2 (F z)).
Lemma smv_const : forall v, smv (fun _ => v).
Proof. intros v. split; [|split]; apply sm_const. Qed.
Lemma smv_add : forall F G, smv F -> smv G -> smv (fun z => addR (F z) (G z)).
Proof. intros F G (A & B & C) (A' & B' & C'). split; [|split]; cbn [addR vx vy vz]; now apply sm_plus. Qed.
Lemma smv_scale : forall f G, sm f -> smv G -> smv (fun z => scaleR (f z) (G z)).
Proof. intros f G F (A' & B' & C'). split; [|split]; cbn [scaleR vx vy vz]; now apply sm_mult. Qed.
Lemma sm_dot : forall F G, smv F -> smv G -> sm (fun z => dotR (F z) (G z)).
Proof.
  intros F G (A & B & C) (A' & B' & C'). unfold dotR.
  apply (sm_plus n U 4 (fun z => vx (F z) * vx (G z) + vy (F z) * vy (G z))).
  - apply sm_plus; now apply sm_mult.
  - now apply sm_mult.
Qed.
Lemma smv_mulv : forall M G, smm M -> smv G -> smv (fun z => mulvR (M z) (G z)).
Proof. intros M G (A & B & C) H. split; [|split]; cbn [mulvR vx vy vz]; now apply sm_dot. Qed.
Lemma smm_transpose : forall M, smm M -> smm (fun z => transposeR (M z)).
Proof.
  intros M ((A & B & C) & (D & E & F) & (G & H & I)). unfold smm, smv. cbn [transposeR row0 row1 row2 vx vy vz]. tauto.
Qed.
Lemma smm_mul : forall M P, smm M -> smm P -> smm (fun z => mulmR (M z) (P z)).
Proof.
  intros M P (A & B & C) H. assert (H' := smm_transpose _ H).
  split; [|split]; cbn [mulmR row0 row1 row2];
    [apply (smv_mulv (fun z => transposeR (P z)) (fun z => row0 (M z)))
    |apply (smv_mulv (fun z => transposeR (P z)) (fun z => row1 (M z)))
    |apply (smv_mulv (fun z => transposeR (P z)) (fun z => row2 (M z)))]; assumption.
Qed.
Lemma smm_const : forall m, smm (fun _ => m).
Proof. intros m. split; [|split]; apply smv_const. Qed.
Lemma smm_Rx : forall f, sm f -> smm (fun z => Rx (f z)).
Proof.
  intros f H. unfold smm, smv, Rx; cbn [row0 row1 row2 vx vy vz].
  assert (S := sm_sin n U 4 f H). assert (C := sm_cos n U 4 f H). assert (O := sm_opp n U 4 _ S).
  split; [|split]; (split; [|split]); first [apply sm_const|assumption].
Qed.
Lemma smm_Ry : forall f, sm f -> smm (fun z => Ry (f z)).
Proof.
  intros f H. unfold smm, smv, Ry; cbn [row0 row1 row2 vx vy vz].
  assert (S := sm_sin n U 4 f H). assert (C := sm_cos n U 4 f H). assert (O := sm_opp n U 4 _ S).
  split; [|split]; (split; [|split]); first [apply sm_const|assumption].
Qed.
Lemma smm_Rz : forall f, sm f -> smm (fun z => Rz (f z)).
Proof.
  intros f H. unfold smm, smv, Rz; cbn [row0 row1 row2 vx vy vz].
  assert (S := sm_sin n U 4 f H). assert (C := sm_cos n U 4 f H). assert (O := sm_opp n U 4 _ S).
  split; [|split]; (split; [|split]); first [apply sm_const|assumption].
Qed.
Lemma smm_l2b : forall f g h, sm f -> sm g -> sm h -> smm (fun z => l2b (f z) (g z) (h z)).
Proof.
  intros f g h F G H. unfold l2b.
  apply (smm_mul (fun z => Ry (h z)) (fun z => mulmR (Rz (g z)) (Rx (f z)))); [now apply smm_Ry|].
  apply (smm_mul (fun z => Rz (g z)) (fun z => Rx (f z))); [now apply smm_Rz|now apply smm_Rx].
Qed.
Lemma sm_norm : forall G, smv G -> (forall z, U z -> G z <> zeroR) -> sm (fun z => normR (G z)).
Proof.
  intros G H H0. unfold normR. apply (sm_sqrt n U 4 (fun z => dotR (G z) (G z))); [|now apply sm_dot].
  intros z Hz. rewrite <- normR_sq. assert (P := normR_pos _ (H0 z Hz)). nra.
Qed.

Ltac smt := repeat first
  [ assumption | apply sm_const | apply sm_plus | apply sm_minus | apply sm_opp | apply sm_mult
  | apply sm_pow | apply sm_div ].
Lemma smv_grav : forall mu J2 J3 J4 Re G, smv G -> (forall z, U z -> G z <> zeroR) ->
  smv (fun z => grav mu J2 J3 J4 Re (G z)).
Proof.
  intros mu J2 J3 J4 Re G H H0. assert (Nn := sm_norm G H H0).
  assert (NZ : forall z, U z -> normR (G z) <> 0).
  { intros z Hz. assert (P := normR_pos _ (H0 z Hz)). lra. }
  assert (NP : forall k z, U z -> normR (G z) ^ k <> 0) by (intros; apply pow_nonzero; auto).
  destruct H as (A & B & C). unfold grav, smv. cbn [vx vy vz]. unfold pot_r, pot_z.
  set (f := fun z => normR (G z)) in *.
  assert (Q2 : sm (fun z => f z ^ 2)) by now apply sm_pow.
  assert (Q3 : sm (fun z => f z ^ 3)) by now apply sm_pow.
  assert (Q4 : sm (fun z => f z ^ 4)) by now apply sm_pow.
  assert (I1 : sm (fun z => / f z)) by now apply sm_inv.
  assert (I2 : sm (fun z => / f z ^ 2)) by (apply (sm_inv n U 4 (fun z => f z ^ 2)); [apply (NP 2%nat)|exact Q2]).
  assert (I3 : sm (fun z => / f z ^ 3)) by (apply (sm_inv n U 4 (fun z => f z ^ 3)); [apply (NP 3%nat)|exact Q3]).
  assert (I4 : sm (fun z => / f z ^ 4)) by (apply (sm_inv n U 4 (fun z => f z ^ 4)); [apply (NP 4%nat)|exact Q4]).
  change (fun z => normR (G z)) with f. unfold Rdiv.
  assert (R1 : sm (fun z => Re * / f z)) by smt.
  assert (Z1 : sm (fun z => vz (G z) * / f z)) by smt.
  Ltac sq := repeat match goal with
    | |- SmoothFacts.sm _ _ _ (fun z => _) => first
      [ assumption
      | apply sm_const
      | match goal with
        | |- SmoothFacts.sm ?n ?U ?k (fun z => @?a z + @?b z) => apply (sm_plus n U k a b)
        | |- SmoothFacts.sm ?n ?U ?k (fun z => @?a z - @?b z) => apply (sm_minus n U k a b)
        | |- SmoothFacts.sm ?n ?U ?k (fun z => @?a z * @?b z) => apply (sm_mult n U k a b)
        | |- SmoothFacts.sm ?n ?U ?k (fun z => - @?a z) => apply (sm_opp n U k a)
        | |- SmoothFacts.sm ?n ?U ?k (fun z => @?a z ^ ?m) => apply (sm_pow n U k m a)
        end ]
    end.
  split; [|split]; sq.
Qed.

Lemma sm_value : forall v (t e : (nat -> R) -> R) F G m, sm t -> sm e -> smv F -> smv G -> sm m ->
  (forall z, U z -> F z <> zeroR) -> sm (fun z => value v (t z) (e z) (F z) (G z) (m z)).
Proof.
  intros v t e F G m Ht He HF HG Hm H0. assert (Nn := sm_norm F HF H0).
  destruct HF as (A & B & C). destruct HG as (A' & B' & C').
  destruct v; cbn [value]; first [assumption|apply sm_const].
Qed.
Lemma sm_angle : forall a (t e : (nat -> R) -> R) F G m, sm t -> sm e -> smv F -> smv G -> sm m ->
  (forall z, U z -> F z <> zeroR) -> sm (fun z => angle a (t z) (e z) (F z) (G z) (m z)).
Proof.
  intros [[v c0] c] t e F G m Ht He HF HG Hm H0. unfold angle, deg, Prop_Steering.poly.
  assert (V := sm_value v t e F G m Ht He HF HG Hm H0).
  set (f := fun z => value v (t z) (e z) (F z) (G z) (m z)) in *.
  apply (sm_mult n U 4 (fun z => c0 + (vx c * f z + vy c * f z ^ 2 + vz c * f z ^ 3)) (fun _ => PI / 180));
    [|apply sm_const].
  apply (sm_plus n U 4 (fun _ => c0)); [apply sm_const|].
  apply (sm_plus n U 4 (fun z => vx c * f z + vy c * f z ^ 2) (fun z => vz c * f z ^ 3)).
  - apply (sm_plus n U 4 (fun z => vx c * f z) (fun z => vy c * f z ^ 2)); [now apply sm_scale|].
    apply (sm_scale n U 4 (vy c) (fun z => f z ^ 2)). now apply sm_pow.
  - apply (sm_scale n U 4 (vz c) (fun z => f z ^ 3)). now apply sm_pow.
Qed.
Lemma smv_acc : forall launch ro ya pi T mu J2 J3 J4 Re (t e : (nat -> R) -> R) F G m,
  sm t -> sm e -> smv F -> smv G -> sm m -> (forall z, U z -> F z <> zeroR) -> (forall z, U z -> 0 < m z) ->
  smv (fun z => acc launch ro ya pi T mu J2 J3 J4 Re (t z) (e z) (F z) (G z) (m z)).
Proof.
  intros launch ro ya pi T mu J2 J3 J4 Re t e F G m Ht He HF HG Hm H0 Pm. unfold acc.
  apply (smv_add (fun z => mulvR (transposeR (mulmR
      (l2b (angle ro (t z) (e z) (F z) (G z) (m z)) (angle ya (t z) (e z) (F z) (G z) (m z))
           (angle pi (t z) (e z) (F z) (G z) (m z))) (i2l (vx launch) (vy launch) (vz launch))))
      (scaleR (/ m z) T)) (fun z => grav mu J2 J3 J4 Re (F z))); [|now apply smv_grav].
  apply (smv_mulv (fun z => transposeR (mulmR
      (l2b (angle ro (t z) (e z) (F z) (G z) (m z)) (angle ya (t z) (e z) (F z) (G z) (m z))
           (angle pi (t z) (e z) (F z) (G z) (m z))) (i2l (vx launch) (vy launch) (vz launch))))
      (fun z => scaleR (/ m z) T)).
  - apply smm_transpose.
    apply (smm_mul (fun z => l2b (angle ro (t z) (e z) (F z) (G z) (m z)) (angle ya (t z) (e z) (F z) (G z) (m z))
           (angle pi (t z) (e z) (F z) (G z) (m z))) (fun _ => i2l (vx launch) (vy launch) (vz launch))); [|apply smm_const].
    apply smm_l2b; now apply sm_angle.
  - apply (smv_scale (fun z => / m z) (fun _ => T)); [|apply smv_const].
    apply sm_inv; [|exact Hm]. intros z Hz. specialize (Pm z Hz). lra.
Qed.
End Smoothness.

(** ** The theorem *)
(** [flies p t0 e0 r c v m]: for [|s| < r], [c s], [v s], [m s] are position, velocity and mass of
    an exact motion at [s] seconds from [t0]: their derivatives are the velocity, the acceleration
    and the mass flow that the code's equations of motion report there. *)
Definition flies (p : Phase N) (t0 e0 r : R) (c v : R -> vec3 R) (m : R -> R) : Prop :=
  forall s, Rabs s < r -> exists s0 s' a k,
    primaries s0 (t0 + s) (e0 + s) (c s) (v s) (m s) /\ system p s0 = Ret s' /\
    st_acceleration s' = finv a /\ st_massflow s' = Fin k /\
    is_derive3 c s (v s) /\ is_derive3 v s a /\ is_derive m s k.

Definition vec_of (c v : vec3 R) (m : R) (i : nat) : R :=
  match i with
  | 0 => vx c | 1 => vy c | 2 => vz c | 3 => vx v | 4 => vy v | 5 => vz v | _ => m
  end%nat.

Lemma bound3 : forall (a b : vec3 R) K, Rabs (vx a - vx b) <= K -> Rabs (vy a - vy b) <= K ->
  Rabs (vz a - vz b) <= K -> normR (subR a b) <= 2 * K.
Proof.
  intros a b K Hx Hy Hz. assert (HK : 0 <= K) by (eapply Rle_trans; [apply Rabs_pos|exact Hx]).
  assert (Sq : forall x, Rabs x <= K -> x * x <= K * K).
  { intros x H. assert (P := Rabs_pos x). assert (E : x * x = Rabs x * Rabs x) by (unfold Rabs; destruct (Rcase_abs x); ring).
    rewrite E. nra. }
  apply Sq in Hx, Hy, Hz. apply Rsqr_incr_0; [|apply normR_ge0|lra]. unfold Rsqr. rewrite normR_sq.
  unfold dotR, subR. cbn [vx vy vz]. nra.
Qed.

Lemma away_from_zero : forall r : vec3 R, r <> zeroR -> exists d, 0 < d /\
  forall r', Rabs (vx r' - vx r) < d -> Rabs (vy r' - vy r) < d -> Rabs (vz r' - vz r) < d -> r' <> zeroR.
Proof.
  intros [x y z] H.
  assert (C : x <> 0 \/ y <> 0 \/ z <> 0).
  { destruct (Req_dec x 0) as [->|]; [|tauto]. destruct (Req_dec y 0) as [->|]; [|tauto].
    destruct (Req_dec z 0) as [->|]; [|tauto]. now elim H. }
  destruct C as [C|[C|C]].
  - exists (Rabs x). split; [now apply Rabs_pos_lt|]. intros r' H1 _ _ ->. cbn in H1.
    replace (0 - x) with (- x) in H1 by ring. rewrite Rabs_Ropp in H1. lra.
  - exists (Rabs y). split; [now apply Rabs_pos_lt|]. intros r' _ H1 _ ->. cbn in H1.
    replace (0 - y) with (- y) in H1 by ring. rewrite Rabs_Ropp in H1. lra.
  - exists (Rabs z). split; [now apply Rabs_pos_lt|]. intros r' _ _ H1 ->. cbn in H1.
    replace (0 - z) with (- z) in H1 by ring. rewrite Rabs_Ropp in H1. lra.
Qed.

Theorem C41_vacuum_flight : rot_contract rot ->
  forall (p : Phase N) st es Re Rp mu J2 J3 J4 w launch t0 e0 c v m r,
  vacuum p -> engines_are (ph_vehicle p) es -> Forall (fun e => isp e <> 0) es ->
  ph_max_acceleration p = PInf -> real_planet (ph_planet p) Re Rp mu J2 J3 J4 w ->
  ph_launch p = finv launch -> smooth_steering (ph_steering p) ->
  primaries st t0 e0 (c 0) (v 0) (m 0) -> c 0 <> zeroR -> 0 < m 0 ->
  0 < r -> flies p t0 e0 r c v m ->
  exists M d, 0 < d /\ forall h, Rabs h <= d -> exists s' c' v' m',
    integrator_step (system p) st (Fin h) = Ret s' /\
    primaries s' (t0 + h) (e0 + h) c' v' m' /\
    normR (subR c' (c h)) <= M * Rabs h ^ 5 /\ normR (subR v' (v h)) <= M * Rabs h ^ 5 /\
    Rabs (m' - m h) <= M * Rabs h ^ 5.
Proof.
  intros Hrot p st es Re Rp mu J2 J3 J4 w launch t0 e0 c v m r Hvac He Hi HL Hp Hla
    ((vr & cr0 & cr & Ar) & (vy' & cy0 & cy & Ay) & (vp & cp0 & cp & Ap)) Hst H0 Pm Pr Hf.
  destruct (away_from_zero (c 0) H0) as (d0 & Pd0 & Hd0).
  set (r' := Rmin r (Rmin d0 (m 0))).
  assert (Pr' : 0 < r') by (repeat apply Rmin_glb_lt; auto).
  assert (Lr : r' <= r) by apply Rmin_l.
  assert (Ld : r' <= d0) by (eapply Rle_trans; [apply Rmin_r|apply Rmin_l]).
  assert (Lm : r' <= m 0) by (eapply Rle_trans; [apply Rmin_r|apply Rmin_r]).
  set (y0 := vec_of (c 0) (v 0) (m 0)).
  set (pos := fun y : nat -> R => V3 (y 0%nat) (y 1%nat) (y 2%nat)).
  set (vel := fun y : nat -> R => V3 (y 3%nat) (y 4%nat) (y 5%nat)).
  set (A := acc launch (vr, cr0, cr) (vy', cy0, cy) (vp, cp0, cp) (full_thrust es 0) mu J2 J3 J4 Re).
  set (g := fun (s : R) (y : nat -> R) => vec_of (vel y) (A (t0 + s) (e0 + s) (pos y) (vel y) (y 6%nat)) (- full_flow es)).
  assert (Near : forall y, near 7 r' y0 y -> pos y <> zeroR /\ 0 < y 6%nat).
  { intros y Hy. split.
    - apply Hd0; [assert (K := Hy 0%nat ltac:(lia))|assert (K := Hy 1%nat ltac:(lia))|assert (K := Hy 2%nat ltac:(lia))];
        unfold y0, pos, vec_of in *; cbn [vx vy vz]; lra.
    - assert (K := Hy 6%nat ltac:(lia)). unfold y0, vec_of in K. apply Rabs_def2 in K. lra. }
  assert (Ev : forall s y (s0 : State N), near 7 r' y0 y ->
    primaries s0 (t0 + s) (e0 + s) (pos y) (vel y) (y 6%nat) -> exists s',
    system p s0 = Ret s' /\ primaries s' (t0 + s) (e0 + s) (pos y) (vel y) (y 6%nat) /\
    st_acceleration s' = finv (A (t0 + s) (e0 + s) (pos y) (vel y) (y 6%nat)) /\ st_massflow s' = Fin (- full_flow es)).
  { intros s y s0 Hy Hs0. destruct (Near y Hy) as [K1 K2].
    exact (vacuum_system Hrot p s0 es Re Rp mu J2 J3 J4 w launch vr cr0 cr vy' cy0 cy vp cp0 cp _ _ _ _ _
      Hvac He Hi HL Hp Hla Ar Ay Ap Hs0 K1 K2). }
  assert (Pr2 : 0 < r' / 2) by lra.
  (* the exact motion stays close at first *)
  assert (Cont : exists d1, 0 < d1 /\ forall s, Rabs s < d1 -> near 7 (r' / 2) y0 (vec_of (c s) (v s) (m s))).
  { destruct (Hf 0) as (_ & _ & a & k & _ & _ & _ & _ & (D1 & D2 & D3) & (D4 & D5 & D6) & D7); [rewrite Rabs_R0; lra|].
    assert (K : forall (f : R -> R) l, is_derive f 0 l -> exists d1, 0 < d1 /\ forall s, Rabs s < d1 -> Rabs (f s - f 0) < r' / 2).
    { intros f l D. assert (Cf : continuous f 0) by (apply (ex_derive_continuous (V := R_NormedModule)); eexists; exact D).
      assert (Hl : locally (f 0) (fun y => Rabs (y - f 0) < r' / 2)) by (exists (mkposreal (r' / 2) Pr2); intros y Hy; exact Hy).
      apply Cf in Hl. destruct Hl as [d1 Hd1]. exists d1. split; [apply cond_pos|].
      intros s Hs. apply Hd1. change (Rabs (s - 0) < d1). replace (s - 0) with s by ring. exact Hs. }
    destruct (K _ _ D1) as (x1 & X1 & Y1). destruct (K _ _ D2) as (x2 & X2 & Y2). destruct (K _ _ D3) as (x3 & X3 & Y3).
    destruct (K _ _ D4) as (x4 & X4 & Y4). destruct (K _ _ D5) as (x5 & X5 & Y5). destruct (K _ _ D6) as (x6 & X6 & Y6).
    destruct (K _ _ D7) as (x7 & X7 & Y7).
    exists (Rmin x1 (Rmin x2 (Rmin x3 (Rmin x4 (Rmin x5 (Rmin x6 x7)))))). split; [repeat apply Rmin_glb_lt; auto|].
    intros s Hs.
    assert (M1 := Rmin_l x1 (Rmin x2 (Rmin x3 (Rmin x4 (Rmin x5 (Rmin x6 x7)))))).
    assert (N1 := Rmin_r x1 (Rmin x2 (Rmin x3 (Rmin x4 (Rmin x5 (Rmin x6 x7)))))).
    assert (M2 := Rmin_l x2 (Rmin x3 (Rmin x4 (Rmin x5 (Rmin x6 x7))))).
    assert (N2 := Rmin_r x2 (Rmin x3 (Rmin x4 (Rmin x5 (Rmin x6 x7))))).
    assert (M3 := Rmin_l x3 (Rmin x4 (Rmin x5 (Rmin x6 x7)))).
    assert (N3 := Rmin_r x3 (Rmin x4 (Rmin x5 (Rmin x6 x7)))).
    assert (M4 := Rmin_l x4 (Rmin x5 (Rmin x6 x7))). assert (N4 := Rmin_r x4 (Rmin x5 (Rmin x6 x7))).
    assert (M5 := Rmin_l x5 (Rmin x6 x7)). assert (N5 := Rmin_r x5 (Rmin x6 x7)).
    assert (M6 := Rmin_l x6 x7). assert (N6 := Rmin_r x6 x7).
    intros j Hj. unfold y0.
    destruct j as [|[|[|[|[|[|[|j]]]]]]]; cbn [vec_of];
      [apply Y1|apply Y2|apply Y3|apply Y4|apply Y5|apply Y6|apply Y7|lia]; lra. }
  destruct Cont as (d1 & Pd1 & Hd1).
  set (rr := Rmin r' d1).
  assert (Prr : 0 < rr) by now apply Rmin_glb_lt.
  assert (L1 : rr <= r') by apply Rmin_l. assert (L2 : rr <= d1) by apply Rmin_r.
  assert (Nle : forall y, near 7 rr y0 y -> near 7 r' y0 y) by (intros y Hy; apply (near_le 7 rr r'); auto).
  destruct (C41_simulation (system p) st t0 e0 y0 g rr (fun s => vec_of (c s) (v s) (m s))) as (M & d & Pd & H).
  - exact Prr.
  - apply Hst.
  - apply Hst.
  - destruct Hst as (_ & _ & E1 & E2 & E3). unfold to_primary_vec. rewrite E1, E2, E3. reflexivity.
  - intros s y Hs Hy.
    destruct (Ev s y (from_vec (N := N) (Fin (t0 + s), Fin (e0 + s)) (pack y)) (Nle y Hy)) as (s' & S & Q & Ea & Em).
    { repeat split. }
    exists s'. split; [exact S|]. destruct Q as (_ & _ & _ & Q & _). unfold to_differentials_vector.
    rewrite Q, Ea, Em. reflexivity.
  - intros i Hi7. apply sm_smooth.
    set (U := near 8 rr (vcons 0 y0)).
    assert (HU : forall z, U z -> near 7 rr y0 (fun j => z (S j))).
    { intros z Hz j Hj. apply (Hz (S j)). lia. }
    assert (Sv : smv 8 U (fun z => vel (fun j => z (S j)))).
    { split; [|split]; cbn [vel vx vy vz]; apply sm_coord; lia. }
    assert (Sp : smv 8 U (fun z => pos (fun j => z (S j)))).
    { split; [|split]; cbn [pos vx vy vz]; apply sm_coord; lia. }
    assert (St : sm 8 U 4 (fun z => t0 + z O)).
    { apply (sm_plus 8 U 4 (fun _ => t0) (fun z => z O)); [apply sm_const|apply sm_coord; lia]. }
    assert (Se : sm 8 U 4 (fun z => e0 + z O)).
    { apply (sm_plus 8 U 4 (fun _ => e0) (fun z => z O)); [apply sm_const|apply sm_coord; lia]. }
    assert (Sm : sm 8 U 4 (fun z => z 7%nat)) by (apply sm_coord; lia).
    assert (Sa : smv 8 U (fun z => A (t0 + z O) (e0 + z O) (pos (fun j => z (S j))) (vel (fun j => z (S j))) (z 7%nat))).
    { apply (smv_acc 8 U launch (vr, cr0, cr) (vy', cy0, cy) (vp, cp0, cp) (full_thrust es 0) mu J2 J3 J4 Re
        (fun z => t0 + z O) (fun z => e0 + z O) (fun z => pos (fun j => z (S j))) (fun z => vel (fun j => z (S j))) (fun z => z 7%nat));
        auto; intros z Hz; apply (Near (fun j => z (S j)) (Nle _ (HU z Hz))). }
    destruct Sv as (V1 & V2 & V3'). destruct Sa as (A1 & A2 & A3).
    destruct i as [|[|[|[|[|[|[|i]]]]]]]; [exact V1|exact V2|exact V3'|exact A1|exact A2|exact A3|exact (sm_const 8 U 4 (- full_flow es))|lia].
  - intros i _. reflexivity.
  - intros s Hs i Hi7. destruct (Hf s) as (s0 & s' & a & k & Q & S & Ea & Ek & D1 & D2 & D3); [lra|].
    assert (Ny := near_le 7 (r' / 2) r' _ _ (Hd1 s ltac:(lra)) ltac:(lra)).
    destruct (Ev s (vec_of (c s) (v s) (m s)) s0 Ny) as (s1 & S1 & _ & Ea1 & Ek1).
    { cbn [pos vel vec_of]. destruct (c s), (v s). exact Q. }
    assert (S1' : s1 = s') by congruence. subst s1.
    assert (Ek2 : k = - full_flow es) by congruence. subst k.
    rewrite Ea in Ea1.
    assert (G1 : a = A (t0 + s) (e0 + s) (pos (vec_of (c s) (v s) (m s))) (vel (vec_of (c s) (v s) (m s))) (vec_of (c s) (v s) (m s) 6%nat)).
    { destruct a as [a1 a2 a3].
      destruct (A (t0 + s) (e0 + s) (pos (vec_of (c s) (v s) (m s))) (vel (vec_of (c s) (v s) (m s))) (vec_of (c s) (v s) (m s) 6%nat)) as [b1 b2 b3].
      cbn in Ea1. injection Ea1 as -> -> ->. reflexivity. }
    unfold g. rewrite <- G1. destruct D1 as (K1 & K2 & K3). destruct D2 as (K4 & K5 & K6).
    destruct i as [|[|[|[|[|[|[|i]]]]]]]; [exact K1|exact K2|exact K3|exact K4|exact K5|exact K6|exact D3|lia].
  - (* conclusion: the final evaluation also succeeds when h is small *)
    assert (M0 : 0 <= Rmax M 0) by apply Rmax_r.
    assert (MM : M <= Rmax M 0) by apply Rmax_l.
    set (K := Rmax M 0) in *.
    set (d2 := Rmin d (Rmin (d1 / 2) (Rmin 1 (r' / (2 * (K + 1)))))).
    assert (Pq : 0 < r' / (2 * (K + 1))) by (apply Rdiv_lt_0_compat; lra).
    assert (Pd2 : 0 < d2) by (repeat apply Rmin_glb_lt; lra).
    assert (B1 : d2 <= d) by apply Rmin_l.
    assert (B2 : d2 <= d1 / 2) by (eapply Rle_trans; [apply Rmin_r|apply Rmin_l]).
    assert (B3 : d2 <= 1) by (eapply Rle_trans; [apply Rmin_r|eapply Rle_trans; [apply Rmin_r|apply Rmin_l]]).
    assert (B4 : d2 <= r' / (2 * (K + 1))) by (eapply Rle_trans; [apply Rmin_r|eapply Rle_trans; [apply Rmin_r|apply Rmin_r]]).
    exists (2 * K), d2. split; [exact Pd2|]. intros h Hh.
    destruct (H h ltac:(lra)) as (y & E & B).
    assert (Ph := Rabs_pos h).
    assert (P5 : 0 <= Rabs h ^ 5) by now apply pow_le.
    assert (B' : forall i, (i < 7)%nat -> Rabs (y i - vec_of (c h) (v h) (m h) i) <= K * Rabs h ^ 5).
    { intros i Hi7. eapply Rle_trans; [apply (B i Hi7)|]. now apply Rmult_le_compat_r. }
    assert (Small : K * Rabs h ^ 5 < r' / 2).
    { assert (Q1 : Rabs h ^ 5 <= Rabs h).
      { replace (Rabs h ^ 5) with (Rabs h * Rabs h ^ 4) by ring.
        assert (Q2 : Rabs h ^ 4 <= 1) by (rewrite <- (pow1 4); apply pow_incr; lra).
        assert (0 <= Rabs h ^ 4) by now apply pow_le. nra. }
      assert (Q3 : (K + 1) * (r' / (2 * (K + 1))) = r' / 2) by (field; lra).
      assert (Q4 : (K + 1) * Rabs h <= r' / 2) by (rewrite <- Q3; apply Rmult_le_compat_l; lra).
      destruct (Rle_lt_or_eq_dec 0 (Rabs h) Ph) as [Q5|Q5].
      - nra.
      - rewrite <- Q5. replace (K * 0 ^ 5) with 0 by ring. lra. }
    assert (Ny : near 7 r' y0 y).
    { intros j Hj. assert (Q1 := Hd1 h ltac:(lra) j Hj). assert (Q2 := B' j Hj).
      replace (y j - y0 j) with ((y j - vec_of (c h) (v h) (m h) j) + (vec_of (c h) (v h) (m h) j - y0 j)) by ring.
      eapply Rle_lt_trans; [apply Rabs_triang|]. lra. }
    destruct (Ev h y (from_vec (N := N) (Fin (t0 + h), Fin (e0 + h)) (pack y)) Ny) as (s' & S & Q & _).
    { repeat split. }
    exists s', (pos y), (vel y), (y 6%nat). split; [rewrite E; exact S|]. split; [exact Q|].
    assert (X0 := B' 0%nat ltac:(lia)). assert (X1 := B' 1%nat ltac:(lia)). assert (X2 := B' 2%nat ltac:(lia)).
    assert (X3 := B' 3%nat ltac:(lia)). assert (X4 := B' 4%nat ltac:(lia)). assert (X5 := B' 5%nat ltac:(lia)).
    assert (X6 := B' 6%nat ltac:(lia)). cbn [vec_of] in X0, X1, X2, X3, X4, X5, X6.
    assert (PK : 0 <= K * Rabs h ^ 5) by now apply Rmult_le_pos.
    split; [|split].
    + rewrite Rmult_assoc. apply bound3; assumption.
    + rewrite Rmult_assoc. apply bound3; assumption.
    + lra.
Qed.

(** ** Non-vacuity: a vehicle released from the equator of a planet that rotates at orbital speed
    moves on a circle; the phase that begins meets all hypotheses of the theorem. *)
Definition orbit_config : PhaseConfig N :=
  mkPhaseConfig (N := N) (Some (mkInitConfig (N := N) (Fin 0) (Fin 0) (Fin 90) (Fin 0)))
    (Some (mkVehicleConfig (N := N) (Some (Fin 1)) None None None None None None)) None
    (Some (Custom (N := N) (Fin 1) (Fin 1) (Fin 1, Fin 0, Fin 0, Fin 0) (Fin 1))) None None None None.
Definition circle (s : R) : vec3 R := V3 (cos s) (sin s) 0.
Definition circle' (s : R) : vec3 R := V3 (- sin s) (cos s) 0.
Lemma circle_norm : forall s, normR (circle s) = 1.
Proof.
  intros s. unfold normR, dotR, circle. cbn [vx vy vz].
  replace (cos s * cos s + sin s * sin s + 0 * 0) with (Rsqr (sin s) + Rsqr (cos s)) by (unfold Rsqr; ring).
  rewrite sin2_cos2. apply sqrt_1.
Qed.
Lemma circle_nz : forall s, circle s <> zeroR.
Proof. intros s E. assert (H := circle_norm s). rewrite E, normR_zeroR in H. lra. Qed.
Example C41_vacuum_flight_nonvacuous : rot_contract rot -> exists (p : Phase N) launch,
  begins [orbit_config] p /\ vacuum p /\ engines_are (ph_vehicle p) [] /\ ph_max_acceleration p = PInf /\
  real_planet (ph_planet p) 1 1 1 0 0 0 1 /\ ph_launch p = finv launch /\ smooth_steering (ph_steering p) /\
  primaries (ph_state p) 0 0 (circle 0) (circle' 0) 1 /\ flies p 0 0 1 circle circle' (fun _ => 1).
Proof.
  intros Hrot.
  set (q := configured default_phase orbit_config).
  assert (Hn : phase_new None orbit_config = Ret (phase_init q (mkInitConfig (N := N) (Fin 0) (Fin 0) (Fin 90) (Fin 0)))).
  { rewrite phase_new_configured. reflexivity. }
  set (p := reset (phase_init q (mkInitConfig (N := N) (Fin 0) (Fin 0) (Fin 90) (Fin 0)))) in *.
  assert (HR : radii (ph_planet q) 1 1) by (repeat split; lra).
  destruct (phase_init_fin q 1 1 1 0 0 90 (Fin 0) HR eq_refl ltac:(lra)) as (A & B & C).
  assert (D0 : deg 0 = 0) by (unfold deg; field).
  assert (G0 : atan (1 / 1 * (1 / 1) * (1 / 1 * (1 / 1)) * tan (deg 0)) = 0).
  { rewrite D0, tan_0, Rmult_0_r. apply atan_0. }
  rewrite G0, D0 in A, B. rewrite G0, D0 in C. rewrite sin_0, cos_0 in A, B.
  replace (1 / 1 * (1 / 1) - 1) with 0 in A, B by field.
  replace (1 + 0 * (0 * 0)) with 1 in A, B by ring. rewrite sqrt_1 in A, B.
  assert (A' : st_position (ph_state p) = finv (circle 0)).
  { change (st_position (ph_state p)) with (st_position (ph_state (phase_init q (mkInitConfig (N := N) (Fin 0) (Fin 0) (Fin 90) (Fin 0))))).
    rewrite A. unfold circle. rewrite cos_0, sin_0. apply (f_equal finv). unfold scaleR. cbn [vx vy vz]. f_equal; field. }
  assert (B' : st_velocity (ph_state p) = finv (circle' 0)).
  { change (st_velocity (ph_state p)) with (st_velocity (ph_state (phase_init q (mkInitConfig (N := N) (Fin 0) (Fin 0) (Fin 90) (Fin 0))))).
    rewrite B. unfold circle'. rewrite cos_0, sin_0. apply (f_equal finv). unfold crossR, scaleR. cbn [vx vy vz]. f_equal; field. }
  assert (Hvac : vacuum p).
  { constructor; [reflexivity|exists zeroR; reflexivity|exists 0; reflexivity|exists 1; reflexivity|].
    repeat split; apply C18_default_table_accepted. }
  assert (Hp : real_planet (ph_planet p) 1 1 1 0 0 0 1) by reflexivity.
  assert (Sd : forall a : axis N, a = axis_init default_axis (@n_lit N 0 0) -> smooth_axis a Time 0 zeroR).
  { intros a ->. split; [|reflexivity]. split; [reflexivity|]. split; [|reflexivity].
    cbn [axis_init ax_c0]. change (@n_lit N 0 0) with (Fin 0). rewrite to_degrees_fin. apply (f_equal Fin). ring. }
  exists p, (V3 0 0 (deg 90)).
  split; [exact (begins_first orbit_config _ Hn)|]. split; [exact Hvac|]. split; [reflexivity|].
  split; [reflexivity|]. split; [exact Hp|]. split; [exact C|].
  split. { split; [|split]; do 3 eexists; apply Sd; reflexivity. }
  split.
  { split; [reflexivity|]. split; [reflexivity|]. split; [exact A'|]. split; [exact B'|].
    change (Fin (0 + 1) = Fin 1). apply (f_equal Fin). ring. }
  intros s _.
  destruct (vacuum_system Hrot p (from_vec (N := N) (Fin (0 + s), Fin (0 + s)) (pack (vec_of (circle s) (circle' s) 1)))
    [] 1 1 1 0 0 0 1 (V3 0 0 (deg 90)) Time 0 zeroR Time 0 zeroR Time 0 zeroR (0 + s) (0 + s) (circle s) (circle' s) 1
    Hvac eq_refl (Forall_nil _) eq_refl Hp C (Sd _ eq_refl) (Sd _ eq_refl) (Sd _ eq_refl)) as (s' & S & _ & Ea & Ek).
  { repeat split. }
  { apply circle_nz. }
  { lra. }
  do 2 eexists. exists (V3 (- cos s) (- sin s) 0), 0.
  split; [|split; [exact S|]]; [repeat split|].
  split. { rewrite Ea. apply (f_equal finv). unfold acc.
    assert (Z : scaleR (/ 1) (full_thrust [] 0) = zeroR) by (unfold scaleR, full_thrust, zeroR; cbn; f_equal; ring).
    rewrite Z.
    assert (Z' : forall M, mulvR M zeroR = zeroR) by (intros M; unfold mulvR, dotR, zeroR; cbn [vx vy vz]; f_equal; ring).
    rewrite Z'. unfold grav, addR, zeroR, pot_r, pot_z. rewrite circle_norm. unfold circle; cbn [vx vy vz]. f_equal; field. }
  split. { rewrite Ek. apply (f_equal Fin). cbn. ring. }
  split; [|split].
  - unfold is_derive3, circle, circle'; cbn [vx vy vz]. split; [|split].
    + auto_derive; [exact I|ring].
    + auto_derive; [exact I|ring].
    + auto_derive; [exact I|ring].
  - unfold is_derive3, circle'; cbn [vx vy vz]. split; [|split].
    + auto_derive; [exact I|ring].
    + auto_derive; [exact I|ring].
    + auto_derive; [exact I|ring].
  - auto_derive; [exact I|ring].
Qed.
End Vacuum.
