(** * C57 in exact arithmetic: an event at which nothing changes is invisible *)
From Coq Require Import ZArith Reals Lra Lia Bool.
From Coq Require Import List.
From Verif Require Import Num XR XRFacts Constants State Tables Config Planet Atmosphere Transformations
  Steering Vehicle RungeKutta Phase Simulation SystemFacts RKFacts RunFacts PhaseNew
  Prop_Run SystemTotal Prop_Tables Prop_Panics Prop_Steering Prop_Split.
Import ListNotations.

Section Generic.
Context {N : Num}.
Local Open Scope num_scope.
Lemma begins_tables : forall (cs : list (PhaseConfig N)) (p : Phase N), begins cs p -> Forall configured_tables_accepted cs ->
  tables_accepted (ph_vehicle p).
Proof.
  intros cs p H. induction H as [c p H|cs p fuel h q c p' Hb IH Hr Hn]; intros T.
  - apply (phase_new_tables None c p H); [discriminate|]. now inversion T.
  - apply Forall_app in T. destruct T as [T1 T2]. apply (phase_new_tables (Some q) c p' Hn); [|now inversion T2].
    intros q0 E. injection E as <-. rewrite (run_vehicle _ _ _ _ Hr). now apply IH.
Qed.
Lemma begins_good : forall (cs : list (PhaseConfig N)) (p : Phase N), begins cs p -> Forall configured_tables_accepted cs ->
  steady (last_configured (within (@pc_vehicle N) (@vc_drag_coeff N)) cs default_table) ->
  steady (last_configured (within (@pc_vehicle N) (@vc_lift_coeff N)) cs default_table) ->
  steady (last_configured (within (@pc_vehicle N) (@vc_side_force_coeff N)) cs default_table) ->
  (forall v, In v (steering_variables (ph_steering p)) -> late v = false) -> good p.
Proof.
  intros cs p B T S1 S2 S3 G. assert (E := C28_effective cs p B). destruct (C29_stepsize_is_one cs p B) as [H1 H2].
  constructor; try assumption.
  - destruct B; reflexivity.
  - destruct B; reflexivity.
  - now apply (begins_tables cs).
  - rewrite <- (f_drag_coeff _ _ E) in S1. rewrite <- (f_lift_coeff _ _ E) in S2. rewrite <- (f_side_force_coeff _ _ E) in S3.
    unfold steady in *. rewrite Forall_forall in S1, S2, S3.
    intros v Hv. unfold vehicle_variables in Hv. rewrite !in_app_iff in Hv. destruct Hv as [Hv|[Hv|Hv]]; auto.
Qed.
Lemma configured_elsewhere : forall A (f : PhaseConfig N -> option A) cs T c d, f (lasting T c) = f c ->
  last_configured f (cs ++ [lasting T c]) d = last_configured f (cs ++ [c]) d.
Proof. intros A f cs T c d H. unfold last_configured. rewrite !fold_left_app. cbn [fold_left]. rewrite H. reflexivity. Qed.
End Generic.

Section Exact.
Context {rot : mat3 xr -> mat3 xr}.
Notation N := (XR rot).
Local Open Scope R_scope.

(** ** Specification *)
(** An angle that turns at a constant rate since the last event, or stays. *)
Definition uniform (a : StateVariable * vec3 N) : Prop :=
  (exists r, a = (TimeSinceEvent, V3 (Fin r) (Fin 0) (Fin 0))) \/ a = (Time, V3 (Fin 0) (Fin 0) (Fin 0)).

(** ** Proof *)
Lemma exact_counts : forall M, counts (N := N) (fun k => Fin (INR k)) M.
Proof.
  intros M. constructor.
  - reflexivity.
  - intros k _. xrs. rewrite S_INR. reflexivity.
  - xrs. unfold Rltb. rewrite Rminus_diag_eq, Rabs_R0 by reflexivity. destruct (Rlt_dec _ _) as [|L]; [reflexivity|]. exfalso. apply L. lra.
  - intros k H. xrs. unfold Rltb. destruct (Rlt_dec _ _) as [L|]; [|reflexivity]. exfalso.
    assert (INR (S k) + 1 <= INR M) by (rewrite <- S_INR; apply le_INR; lia). apply Rabs_def2 in L. lra.
  - intros k H. xrs. unfold Rltb.
    assert (INR (S k) + 1 <= INR M) by (rewrite <- S_INR; apply le_INR; lia).
    assert (INR (S k) = INR k + 1) by apply S_INR.
    destruct (Rlt_dec (INR (S k)) (INR k)); [lra|]. destruct (Rlt_dec _ _); [lra|reflexivity].
Qed.
Definition fin (x : xr) : Prop := exists r, x = Fin r.
(** The clocks of a flight and of the same flight [n] seconds after an event, at time [ts]. *)
Definition shifted (n : nat) (ts t x y : N) : Prop :=
  (exists r, x = Fin (r + INR n) /\ y = Fin r) /\ (fin ts \/ ~ fin t).
Lemma unit_degrees : forall c : xr, xmul (xmul c (Fin (PI / 180))) (Fin (180 / PI)) = c.
Proof.
  assert (P := PI_RGT_0).
  assert (A : 0 < PI / 180) by lra. assert (B : 0 < 180 / PI) by (apply Rdiv_lt_0_compat; lra).
  intros [r| | |]; cbn [xmul].
  - apply (f_equal Fin). field. lra.
  - unfold inf_sign, Rltb. destruct (Rlt_dec 0 (PI / 180)); [|lra]. cbn [xmul]. unfold inf_sign, Rltb. destruct (Rlt_dec 0 (180 / PI)); [reflexivity|lra].
  - unfold inf_sign, Rltb. destruct (Rlt_dec 0 (- (PI / 180))); [lra|]. destruct (Rlt_dec (- (PI / 180)) 0); [|lra].
    cbn [xmul]. unfold inf_sign, Rltb. destruct (Rlt_dec 0 (- (180 / PI))); [lra|]. destruct (Rlt_dec (- (180 / PI)) 0); [reflexivity|lra].
  - reflexivity.
Qed.
Lemma degrees_radians : forall c : N, to_degrees (to_radians c) = c.
Proof.
  intros c. assert (P := PI_RGT_0). unfold to_degrees, to_radians. xrs. rewrite !xdiv_fin by lra. apply unit_degrees.
Qed.
Lemma inf_sign_1 : inf_sign 1 = PInf.
Proof. unfold inf_sign, Rltb. destruct (Rlt_dec 0 1); [reflexivity|lra]. Qed.
Lemma inf_sign_m1 : inf_sign (Ropp 1) = NInf.
Proof. unfold inf_sign, Rltb. destruct (Rlt_dec 0 (Ropp 1)); [lra|]. destruct (Rlt_dec (Ropp 1) 0); [reflexivity|lra]. Qed.
Lemma inf_sign_0 : forall x, x = 0 -> inf_sign x = NaN.
Proof. intros x ->. unfold inf_sign, Rltb. destruct (Rlt_dec 0 0); [lra|reflexivity]. Qed.
(** The polynomial of a uniform axis. *)
Lemma linear_value : forall (c0 : N) v r t, calc_coeff (Fin t : N) (mkAxis v c0 (V3 (Fin r) (Fin 0) (Fin 0))) = xadd c0 (Fin (r * t)).
Proof.
  intros c0 v r t. unfold calc_coeff, sum. cbn [ax_c0 ax_c vx vy vz fold_left]. xrs.
  destruct c0; cbn [xmul xadd]; rewrite ?inf_sign_1, ?inf_sign_m1; cbn [xadd]; try reflexivity. apply (f_equal Fin). ring.
Qed.
Lemma constant_value : forall (c0 t : N) v, fin t -> calc_coeff t (mkAxis v c0 (V3 (Fin 0) (Fin 0) (Fin 0))) = c0.
Proof.
  intros c0 t v [r ->]. rewrite linear_value. destruct c0; cbn [xadd]; try reflexivity. apply (f_equal Fin). ring.
Qed.
Lemma constant_lost : forall (c0 t : N) v, ~ fin t -> calc_coeff t (mkAxis v c0 (V3 (Fin 0) (Fin 0) (Fin 0))) = NaN.
Proof.
  intros c0 t v H.
  assert (A : forall k, (0 < k < 4)%nat -> xmul (Fin 0) (powi t k) = NaN).
  { intros k Hk. assert (k = 1 \/ k = 2 \/ k = 3)%nat as [-> |[-> | ->]] by lia;
      destruct t as [r| | |]; try (exfalso; apply H; eexists; reflexivity); xrs;
      repeat (rewrite ?inf_sign_1, ?inf_sign_m1, ?(inf_sign_0 0), ?(inf_sign_0 (- 0)) by lra; cbn [xmul]; rewrite ?Rmult_0_l); try reflexivity. }
  unfold calc_coeff, sum. cbn [ax_c0 ax_c vx vy vz fold_left].
  change (@n_mul N) with xmul. rewrite !A by lia. xrs. destruct (xmul c0 _); reflexivity.
Qed.

Lemma axis_smooth : forall (a : axis N) n (s v v' : State N), uniform (ax_var a, ax_c a) ->
  st_time_since_event s = Fin (INR n) -> st_time v = st_time v' ->
  shifted n (st_time s) (st_time v) (st_time_since_event v) (st_time_since_event v') ->
  let a' := axis_init a (to_radians (calc_coeff (get_value (ax_var a) s) a)) in
  calc_coeff (get_value (ax_var a) v) a = calc_coeff (get_value (ax_var a') v') a'.
Proof.
  intros [w c0 co] n s v v' U T E [(r & X & Y) Z]. unfold axis_init. cbn [ax_var ax_c0 ax_c] in *. rewrite degrees_radians.
  destruct U as [[q U]|U]; injection U as -> ->; cbn [get_value].
  - rewrite X, Y, T, !linear_value. destruct c0; cbn [xadd]; try reflexivity. apply (f_equal Fin). ring.
  - rewrite <- E. assert (D : fin (st_time v) \/ ~ fin (st_time v)).
    { destruct (st_time v); [left; eexists; reflexivity|right|right|right]; intros [x Hx]; discriminate. }
    destruct D as [D|D]; [|rewrite !constant_lost by exact D; reflexivity].
    destruct Z as [Z|Z]; [|contradiction]. rewrite (constant_value _ (st_time v)), (constant_value _ (st_time s)), (constant_value _ (st_time v)) by assumption. reflexivity.
Qed.
Lemma steering_smooth : forall n (p : Phase N),
  uniform (ax_var (sg_roll (ph_steering p)), ax_c (sg_roll (ph_steering p))) ->
  uniform (ax_var (sg_yaw (ph_steering p)), ax_c (sg_yaw (ph_steering p))) ->
  uniform (ax_var (sg_pitch (ph_steering p)), ax_c (sg_pitch (ph_steering p))) ->
  smooth_event (Fin (INR n) : N) p.
Proof.
  intros n p U1 U2 U3 s Ts Fix. exists (shifted n (st_time s)).
  assert (St : forall d t x y, shifted n (st_time s) t x y -> shifted n (st_time s) (xadd t (Fin d)) (xadd x (Fin d)) (xadd y (Fin d))).
  { intros d t x y [(r & -> & ->) Z]. split; [exists (r + d); split; cbn [xadd]; apply (f_equal Fin); ring|].
    destruct Z as [Z|Z]; [left; exact Z|right]. intros [q Hq]. apply Z. destruct t; try discriminate. eexists; reflexivity. }
  split; [|split; [|split]].
  - intros c [<-|[<-|[<-|[]]]] t x y H; xrs; cbn [xmul]; apply St; exact H.
  - intros t x y H. apply (St 1). exact H.
  - split; [exists 0; split; [rewrite Ts; apply (f_equal Fin); ring|reflexivity]|].
    destruct (st_time s); [left; eexists; reflexivity|right|right|right]; intros [q Hq]; discriminate.
  - apply system_eom, eom_equations in Fix. assert (Q := q_euler_angles _ _ _ Fix).
    intros v v' E Z. unfold steering_euler_angles. rewrite Q. unfold steering_euler_angles, steering_init. cbn [sg_roll sg_yaw sg_pitch vx vy vz].
    assert (B : forall a : axis N, uniform (ax_var a, ax_c a) -> get_value (ax_var a) (before_attitude s s) = get_value (ax_var a) s).
    { intros a [[r U]|U]; injection U as -> _; reflexivity. }
    rewrite !B by assumption.
    rewrite (axis_smooth (sg_roll (ph_steering p)) n s v v' U1 Ts E Z), (axis_smooth (sg_yaw (ph_steering p)) n s v v' U2 Ts E Z),
      (axis_smooth (sg_pitch (ph_steering p)) n s v v' U3 Ts E Z). reflexivity.
Qed.

(** ** C57 *)
(** Take any sequence of phases in which some phase [c], with steady tables and axes that stay or turn at a
    constant rate since the last event, lasts [n + m] seconds.  Replace it by two: [c] for [n] seconds and a phase that
    configures nothing but its duration of [m] seconds.  Nothing changes: the same records are written, with
    the same values except for the time since the last event, the simulation ends in the same way, and the later phases fly the
    same trajectory.  The event puts no mark on the flight. *)
Theorem C57_event : forall n m fuel (cs1 : list (PhaseConfig N)) (c : PhaseConfig N) cs2,
  (0 < n)%nat -> (0 < m)%nat -> (n + m <= fuel)%nat ->
  Forall configured_tables_accepted (cs1 ++ [c]) ->
  steady (last_configured (within (@pc_vehicle N) (@vc_drag_coeff N)) (cs1 ++ [c]) default_table) ->
  steady (last_configured (within (@pc_vehicle N) (@vc_lift_coeff N)) (cs1 ++ [c]) default_table) ->
  steady (last_configured (within (@pc_vehicle N) (@vc_side_force_coeff N)) (cs1 ++ [c]) default_table) ->
  uniform (last_configured (within (@pc_steering N) (@sc_roll N)) (cs1 ++ [c]) (Time, V3 (Fin 0) (Fin 0) (Fin 0))) ->
  uniform (last_configured (within (@pc_steering N) (@sc_yaw N)) (cs1 ++ [c]) (Time, V3 (Fin 0) (Fin 0) (Fin 0))) ->
  uniform (last_configured (within (@pc_steering N) (@sc_pitch N)) (cs1 ++ [c]) (Time, V3 (Fin 0) (Fin 0) (Fin 0))) ->
  (cs2 = [] \/ exists c' r, cs2 = c' :: r /\ pc_end_criterion c' <> None) ->
  same_flight (simulate fuel (cs1 ++ lasting (Fin (INR (n + m)) : N) c :: cs2))
    (simulate fuel (cs1 ++ lasting (Fin (INR n) : N) c :: lasting (Fin (INR m) : N) unchanged :: cs2)).
Proof.
  intros n m fuel cs1 c cs2 Hn Hm Hf T D1 D2 D3 U1 U2 U3 Hc. unfold simulate.
  apply (sim_split (fun k => Fin (INR k) : N) n m fuel cs2 c (exact_counts n) (exact_counts m) (exact_counts (n + m)) Hn Hm Hf Hc cs1 []);
    [left; split; reflexivity|].
  cbn [app]. intros p B. assert (E := C28_effective _ _ B).
  assert (V1 := f_roll _ _ E). assert (V2 := f_yaw _ _ E). assert (V3' := f_pitch _ _ E).
  rewrite configured_elsewhere in V1, V2, V3' by reflexivity.
  rewrite <- (configured_elsewhere _ _ cs1 (Fin (INR n) : N)) in D1 by reflexivity.
  rewrite <- (configured_elsewhere _ _ cs1 (Fin (INR n) : N)) in D2 by reflexivity.
  rewrite <- (configured_elsewhere _ _ cs1 (Fin (INR n) : N)) in D3 by reflexivity.
  assert (W1 : uniform (ax_var (sg_roll (ph_steering p)), ax_c (sg_roll (ph_steering p)))) by (rewrite V1; exact U1).
  assert (W2 : uniform (ax_var (sg_yaw (ph_steering p)), ax_c (sg_yaw (ph_steering p)))) by (rewrite V2; exact U2).
  assert (W3 : uniform (ax_var (sg_pitch (ph_steering p)), ax_c (sg_pitch (ph_steering p)))) by (rewrite V3'; exact U3).
  split; [|now apply steering_smooth].
  apply (begins_good _ _ B); try assumption.
  - apply Forall_app in T. destruct T as [T1 T2]. apply Forall_app. split; [exact T1|]. constructor; [|constructor].
    inversion T2 as [|? ? T3 _]. exact T3.
  - assert (L : forall a : axis N, uniform (ax_var a, ax_c a) -> late (ax_var a) = false).
    { intros a [[r U]|U]; injection U as -> _; reflexivity. }
    intros v [<-|[<-|[<-|[]]]]; apply L; assumption.
Qed.
End Exact.
