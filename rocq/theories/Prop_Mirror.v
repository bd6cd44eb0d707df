(** * C64: north and south are mirror images *)
From Coq Require Import ZArith List Reals Lra Lia Bool Classical_Prop.
From Verif Require Import Num Constants State Tables Config Planet Atmosphere Transformations
  Steering Vehicle RungeKutta Phase Simulation XR XRFacts SpecReal SystemFacts RKFacts RunFacts PhaseNew
  Prop_Run SystemTotal TablesFacts Prop_Tables Prop_Panics Prop_Time Prop_Planet Prop_Gravity Prop_Frames Prop_Atmosphere Prop_Interp Prop_Aero
  Prop_Throttle Prop_Steering Prop_Limit Prop_Real Prop_RealSim Prop_Longitude.
Import ListNotations.
Local Open Scope R_scope.

(** ** Specification *)
(** Variables that are the same on both sides of the equator: all but the polar components of vectors in
    the inertial and the planet frame, the lateral components of vectors in the body frame, and the roll
    and yaw angles. *)
Definition even (v : StateVariable) : bool :=
  match v with
  | Position3 | PositionPlanet3 | Velocity3 | VelocityPlanet3 | VelocityAtmosphere3 | Acceleration3
  | GravityAcceleration3 | ThrustForceBody2 | AeroForceBody2 | VehicleAccelerationBody2
  | EulerAnglesRoll | EulerAnglesYaw => false
  | _ => true
  end.

Section Exact.
Context {rot : mat3 xr -> mat3 xr}.
Notation N := (XR rot).

(** The mirror image of a vector in the equatorial plane (for vectors of the inertial and the planet
    frame), and in the plane of symmetry of the vehicle (for vectors of the body frame). *)
Definition below (v : vec3 N) : vec3 N := V3 (vx v) (vy v) (n_neg (vz v)).
Definition left_right (v : vec3 N) : vec3 N := V3 (vx v) (n_neg (vy v)) (vz v).
(** Roll and yaw change their sense. *)
Definition mirror_angles (e : vec3 N) : vec3 N := V3 (n_neg (vx e)) (n_neg (vy e)) (vz e).

(** The mirror image of a state. *)
Record mirrored (s s' : State N) : Prop := {
  mi_time : st_time s' = st_time s;
  mi_time_since_event : st_time_since_event s' = st_time_since_event s;
  mi_position : st_position s' = below (st_position s);
  mi_position_planet : st_position_planet s' = below (st_position_planet s);
  mi_altitude : st_altitude s' = st_altitude s;
  mi_altitude_geopotential : st_altitude_geopotential s' = st_altitude_geopotential s;
  mi_velocity : st_velocity s' = below (st_velocity s);
  mi_velocity_planet : st_velocity_planet s' = below (st_velocity_planet s);
  mi_velocity_atmosphere : st_velocity_atmosphere s' = below (st_velocity_atmosphere s);
  mi_acceleration : st_acceleration s' = below (st_acceleration s);
  mi_thrust_force_body : st_thrust_force_body s' = left_right (st_thrust_force_body s);
  mi_aero_force_body : st_aero_force_body s' = left_right (st_aero_force_body s);
  mi_vehicle_acceleration_body : st_vehicle_acceleration_body s' = left_right (st_vehicle_acceleration_body s);
  mi_gravity_acceleration : st_gravity_acceleration s' = below (st_gravity_acceleration s);
  mi_mass : st_mass s' = st_mass s;
  mi_propellant_mass : st_propellant_mass s' = st_propellant_mass s;
  mi_massflow : st_massflow s' = st_massflow s;
  mi_temperature : st_temperature s' = st_temperature s;
  mi_pressure : st_pressure s' = st_pressure s;
  mi_density : st_density s' = st_density s;
  mi_mach_number : st_mach_number s' = st_mach_number s;
  mi_dynamic_pressure : st_dynamic_pressure s' = st_dynamic_pressure s;
  mi_alpha : st_alpha s' = st_alpha s;
  mi_euler_angles : st_euler_angles s' = mirror_angles (st_euler_angles s);
  mi_throttle : st_throttle s' = st_throttle s }.

(** The mirror image of a mission: the launch site is at the opposite latitude and the azimuth is counted
    from the other pole; the zonal coefficient J3, which is odd, changes its sign; the wind is reflected;
    engines are canted to the other side, the side force acts to the other side, and roll and yaw are
    steered in the other sense. *)
Definition mirror_site (i : InitConfig N) : InitConfig N :=
  mkInitConfig (N := N) (n_neg (ic_latitude i)) (ic_longitude i) (n_sub (n := N) (Fin 180) (ic_azimuth i)) (ic_altitude i).
Definition mirror_planet_config (p : PlanetConfig N) : PlanetConfig N :=
  match p with
  | Spherical => Spherical
  | Fisher1960 => Fisher1960
  | Smithsonian => Custom (pl_equatorial_radius (N := N) EARTH_SMITHSONIAN) (pl_polar_radius (N := N) EARTH_SMITHSONIAN)
      (let '(mu, J2, J3, J4) := pl_gravitational_parameters (N := N) EARTH_SMITHSONIAN in (mu, J2, n_neg J3, J4))
      (pl_rotation_rate (N := N) EARTH_SMITHSONIAN)
  | Custom Re Rp (mu, J2, J3, J4) w => Custom Re Rp (mu, J2, n_neg J3, J4) w
  end.
Definition mirror_engine (e : Engine N) : Engine N :=
  mkEngine (fst (en_incidence e), n_neg (snd (en_incidence e))) (en_thrust_vac e) (en_isp_vac e) (en_exit_area e).
Definition negate_table (t : Table N) : Table N :=
  match t with
  | D1 (mkT1 x d i) => D1 (mkT1 x (map (@n_neg N) d) i)
  | D2 (mkT2 x y d i) => D2 (mkT2 x y (map (map (@n_neg N)) d) i)
  | D3 (mkT3 x y z d i) => D3 (mkT3 x y z (map (map (map (@n_neg N))) d) i)
  end.
Definition mirror_vehicle_config (v : VehicleConfig N) : VehicleConfig N :=
  mkVehicleConfig (vc_structure_mass v) (vc_propellant_mass v) (vc_reference_area v) (vc_drag_coeff v)
    (vc_lift_coeff v) (option_map negate_table (vc_side_force_coeff v)) (option_map (map mirror_engine) (vc_engines v)).
Definition opposite_sense (a : StateVariable * vec3 N) : StateVariable * vec3 N := (fst a, vneg (snd a)).
Definition mirror_steering_config (s : SteeringConfig N) : SteeringConfig N :=
  mkSteeringConfig (option_map opposite_sense (sc_roll s)) (option_map opposite_sense (sc_yaw s)) (sc_pitch s).
Definition mirror_config (c : PhaseConfig N) : PhaseConfig N :=
  mkPhaseConfig (option_map mirror_site (pc_init c)) (option_map mirror_vehicle_config (pc_vehicle c))
    (option_map mirror_steering_config (pc_steering c)) (option_map mirror_planet_config (pc_planet_model c))
    (option_map (fun a : AtmosphereConfig N => mkAtmosphereConfig (ac_enabled a) (option_map below (ac_wind a))) (pc_atmosphere c))
    (pc_max_acceleration c) (pc_stepsize c) (pc_end_criterion c).

(** The mirror image of the output. *)
Definition mirrored_event (e e' : event N) : Prop :=
  match e, e' with
  | EPhase i, EPhase j => i = j
  | ERecord s, ERecord s' => mirrored s s'
  | _, _ => False
  end.
Definition mirrored_status (st st' : status (Phase N)) : Prop :=
  match st, st' with
  | Finished q, Finished q' => mirrored (ph_state q) (ph_state q')
  | Running q, Running q' => mirrored (ph_state q) (ph_state q')
  | Aborted e, Aborted e' => e = e'
  | _, _ => False
  end.

(** Configurations that do not tell north from south: steering, tables and the end criterion use even
    variables only. *)
Record no_hemisphere (c : PhaseConfig N) : Prop := {
  nh_tables : opt (fun v : VehicleConfig N =>
      opt (fun t => Forall (fun x => even x = true) (table_variables t)) (vc_drag_coeff v) /\
      opt (fun t => Forall (fun x => even x = true) (table_variables t)) (vc_lift_coeff v) /\
      opt (fun t => Forall (fun x => even x = true) (table_variables t)) (vc_side_force_coeff v)) (pc_vehicle c);
  nh_steering : opt (fun s : SteeringConfig N => opt (fun x : StateVariable * vec3 N => even (fst x) = true) (sc_roll s) /\
      opt (fun x : StateVariable * vec3 N => even (fst x) = true) (sc_yaw s) /\
      opt (fun x : StateVariable * vec3 N => even (fst x) = true) (sc_pitch s)) (pc_steering c);
  nh_criterion : opt (fun e : StateVariable * N => even (fst e) = true) (pc_end_criterion c) }.

(** ** Proof *)
Lemma inf_sign_neg : forall x, inf_sign (- x) = xneg (inf_sign x).
Proof.
  intros x. unfold inf_sign, Rltb. repeat destruct (Rlt_dec _ _); try reflexivity; exfalso; lra.
Qed.
Lemma xneg_neg : forall a, xneg (xneg a) = a.
Proof. intros [x| | |]; try reflexivity. cbn [xneg]. now rewrite Ropp_involutive. Qed.
Lemma xneg_add : forall a b, xadd (xneg a) (xneg b) = xneg (xadd a b).
Proof. intros [x| | |] [y| | |]; try reflexivity. cbn [xadd xneg]. apply (f_equal Fin). ring. Qed.
Lemma xneg_sub : forall a b, xsub (xneg a) (xneg b) = xneg (xsub a b).
Proof. intros [x| | |] [y| | |]; try reflexivity. cbn [xsub xneg]. apply (f_equal Fin). ring. Qed.
Lemma xneg_mul_l : forall a b, xmul (xneg a) b = xneg (xmul a b).
Proof.
  intros [x| | |] [y| | |]; try reflexivity; cbn [xmul xneg].
  - apply (f_equal Fin). ring.
  - apply inf_sign_neg.
  - apply inf_sign_neg.
  - apply inf_sign_neg.
  - rewrite <- inf_sign_neg, Ropp_involutive. reflexivity.
Qed.
Lemma xneg_mul_r : forall a b, xmul a (xneg b) = xneg (xmul a b).
Proof.
  intros [x| | |] [y| | |]; try reflexivity; cbn [xmul xneg].
  - apply (f_equal Fin). ring.
  - apply inf_sign_neg.
  - rewrite <- inf_sign_neg, Ropp_involutive. reflexivity.
  - apply inf_sign_neg.
  - rewrite <- !inf_sign_neg, ?Ropp_involutive. reflexivity.
Qed.
Lemma xneg_mul : forall a b, xmul (xneg a) (xneg b) = xmul a b.
Proof. intros a b. now rewrite xneg_mul_l, xneg_mul_r, xneg_neg. Qed.
Lemma xneg_div : forall a b, xdiv (xneg a) b = xneg (xdiv a b).
Proof.
  intros [x| | |] [y| | |]; try reflexivity; cbn [xdiv xneg].
  - destruct (Reqb y 0) eqn:E; [apply inf_sign_neg|]. cbn [xneg]. apply (f_equal Fin). unfold Rdiv. ring.
  - apply (f_equal Fin). ring.
  - apply (f_equal Fin). ring.
  - destruct (Rltb y 0); reflexivity.
  - destruct (Rltb y 0); reflexivity.
Qed.
Lemma xneg_0 : xneg (Fin 0) = Fin 0.
Proof. cbn [xneg]. apply (f_equal Fin). ring. Qed.
Lemma xneg_eqb0 : forall a, xeqb (xneg a) (Fin 0) = xeqb a (Fin 0).
Proof.
  intros [x| | |]; try reflexivity. cbn [xneg xeqb]. unfold Reqb. repeat destruct (Req_EM_T _ _); try reflexivity; exfalso; lra.
Qed.

Lemma norm_below : forall v : vec3 N, norm (below v) = norm v.
Proof. intros v. unfold norm, norm_squared, vdot, below. cbn [vx vy vz n_mul n_neg XR]. rewrite xneg_mul. reflexivity. Qed.
Lemma norm_left_right : forall v : vec3 N, norm (left_right v) = norm v.
Proof. intros v. unfold norm, norm_squared, vdot, left_right. cbn [vx vy vz n_mul n_neg XR]. rewrite xneg_mul. reflexivity. Qed.
Lemma dot_left_right : forall u v : vec3 N, vdot (left_right u) (left_right v) = vdot u v.
Proof. intros u v. unfold vdot, left_right. cbn [vx vy vz n_mul n_neg XR]. rewrite xneg_mul. reflexivity. Qed.
Lemma below_add : forall u v : vec3 N, vadd (below u) (below v) = below (vadd u v).
Proof. intros u v. unfold vadd, below. cbn [vx vy vz n_add n_neg XR]. rewrite xneg_add. reflexivity. Qed.
Lemma below_sub : forall u v : vec3 N, vsub (below u) (below v) = below (vsub u v).
Proof. intros u v. unfold vsub, below. cbn [vx vy vz n_sub n_neg XR]. rewrite xneg_sub. reflexivity. Qed.
Lemma below_scale : forall k (v : vec3 N), vscale k (below v) = below (vscale k v).
Proof. intros k v. unfold vscale, below. cbn [vx vy vz n_mul n_neg XR]. rewrite xneg_mul_r. reflexivity. Qed.
Lemma left_right_add : forall u v : vec3 N, vadd (left_right u) (left_right v) = left_right (vadd u v).
Proof. intros u v. unfold vadd, left_right. cbn [vx vy vz n_add n_neg XR]. rewrite xneg_add. reflexivity. Qed.
Lemma left_right_scale : forall k (v : vec3 N), vscale k (left_right v) = left_right (vscale k v).
Proof. intros k v. unfold vscale, left_right. cbn [vx vy vz n_mul n_neg XR]. rewrite xneg_mul_r. reflexivity. Qed.
Lemma left_right_scale_r : forall k (v : vec3 N), vscale_r (left_right v) k = left_right (vscale_r v k).
Proof. intros k v. unfold vscale_r, left_right. cbn [vx vy vz n_mul n_neg XR]. rewrite xneg_mul_l. reflexivity. Qed.
Lemma left_right_div : forall k (v : vec3 N), vdiv (left_right v) k = left_right (vdiv v k).
Proof. intros k v. unfold vdiv, left_right. cbn [vx vy vz n_div n_neg XR]. rewrite xneg_div. reflexivity. Qed.
Lemma below_zero : below vzero = vzero.
Proof. unfold below, vzero. cbn [vx vy vz n_neg XR]. change (@n_lit N 0 0) with (Fin 0). rewrite xneg_0. reflexivity. Qed.
Lemma left_right_zero : left_right vzero = vzero.
Proof. unfold left_right, vzero. cbn [vx vy vz n_neg XR]. change (@n_lit N 0 0) with (Fin 0). rewrite xneg_0. reflexivity. Qed.
Lemma mirror_angles_zero : mirror_angles vzero = vzero.
Proof. unfold mirror_angles, vzero. cbn [vx vy vz n_neg XR]. change (@n_lit N 0 0) with (Fin 0). rewrite xneg_0. reflexivity. Qed.
(** On real vectors. *)
Definition flip (v : vec3 R) : vec3 R := V3 (vx v) (vy v) (- vz v).
Definition side (v : vec3 R) : vec3 R := V3 (vx v) (- vy v) (vz v).
Lemma below_fin : forall v, below (finv v) = finv (flip v).
Proof. reflexivity. Qed.
Lemma left_right_fin : forall v, left_right (finv v) = finv (side v).
Proof. reflexivity. Qed.
Lemma flip_norm : forall v, normR (flip v) = normR v.
Proof. intros [x y z]. unfold normR, dotR, flip. cbn [vx vy vz]. f_equal. ring. Qed.
Lemma flip_nonzero : forall v, v <> zeroR -> flip v <> zeroR.
Proof. intros v H E. apply (f_equal normR) in E. rewrite flip_norm, normR_zeroR in E. assert (K := normR_pos v H). lra. Qed.
Lemma flip_Rz : forall t v, mulvR (Rz t) (flip v) = flip (mulvR (Rz t) v).
Proof. intros t [x y z]. unfold flip, mulvR, dotR, Rz. cbn [vx vy vz row0 row1 row2]. f_equal; ring. Qed.
Lemma flip_spin : forall u v w,
  subR (flip u) (crossR (V3 0 0 w) (flip v)) = flip (subR u (crossR (V3 0 0 w) v)).
Proof. intros [x y z] [x' y' z'] w. unfold flip, subR, crossR. cbn [vx vy vz]. f_equal; ring. Qed.
Lemma flip_add : forall u v, flip (addR u v) = addR (flip u) (flip v).
Proof. intros [x y z] [x' y' z']. unfold flip, addR. cbn [vx vy vz]. f_equal; ring. Qed.
Lemma cos_pi_minus : forall a, cos (PI - a) = - cos a.
Proof. intros a. rewrite cos_minus, cos_PI, sin_PI. ring. Qed.
Lemma sin_pi_minus : forall a, sin (PI - a) = sin a.
Proof. intros a. rewrite sin_minus, cos_PI, sin_PI. ring. Qed.
Lemma i2l_mirror : forall lat long az v, mulvR (i2l (- lat) long (PI - az)) (flip v) = side (mulvR (i2l lat long az) v).
Proof.
  intros lat long az [x y z]. unfold i2l. rewrite !mulvR_mulmR. unfold side, flip, mulvR, dotR, Rx, Ry, Rz. cbn [vx vy vz row0 row1 row2].
  rewrite ?cos_neg, ?sin_neg, ?cos_pi_minus, ?sin_pi_minus. apply V3_eq; ring.
Qed.
Lemma l2b_mirror : forall roll yaw pitch v, mulvR (l2b (- roll) (- yaw) pitch) (side v) = side (mulvR (l2b roll yaw pitch) v).
Proof.
  intros roll yaw pitch [x y z]. unfold l2b. rewrite !mulvR_mulmR. unfold side, mulvR, dotR, Rx, Ry, Rz. cbn [vx vy vz row0 row1 row2].
  rewrite !cos_neg, !sin_neg. apply V3_eq; ring.
Qed.
Lemma transpose_mirror : forall (A A' : mat3 R), (forall v, mulvR A' (flip v) = side (mulvR A v)) ->
  forall b, mulvR (transposeR A') (side b) = flip (mulvR (transposeR A) b).
Proof.
  intros [[b0 b1 b2] [b3 b4 b5] [b6 b7 b8]] [[c0 c1 c2] [c3 c4 c5] [c6 c7 c8]] H [x y z].
  assert (H1 := H (V3 1 0 0)). assert (H2 := H (V3 0 1 0)). assert (H3 := H (V3 0 0 1)).
  unfold side, flip, transposeR, mulvR, dotR in *. cbn [vx vy vz row0 row1 row2] in *.
  injection H1. injection H2. injection H3. intros E8 E5 E2 E7 E4 E1 E6 E3 E0.
  assert (c8 = - b8) by lra. assert (c5 = b5) by lra. assert (c2 = - b2) by lra.
  assert (c7 = b7) by lra. assert (c4 = - b4) by lra. assert (c1 = b1) by lra.
  assert (c6 = b6) by lra. assert (c3 = - b3) by lra. assert (c0 = b0) by lra. subst.
  apply V3_eq; ring.
Qed.
Lemma i2b_mirror : forall lat long az roll yaw pitch v,
  mulvR (mulmR (l2b (- roll) (- yaw) pitch) (i2l (- lat) long (PI - az))) (flip v)
  = side (mulvR (mulmR (l2b roll yaw pitch) (i2l lat long az)) v).
Proof. intros. rewrite !mulvR_mulmR, i2l_mirror. apply l2b_mirror. Qed.

(** The planet. *)
Definition mirror_planet (p : Planet N) : Planet N :=
  mkPlanet (pl_equatorial_radius p) (pl_polar_radius p) (gp0 p, gp1 p, n_neg (gp2 p), gp3 p) (pl_rotation_rate p).
Lemma mirror_real_planet : forall p Re Rp mu0 J2 J3 J4 w, real_planet p Re Rp mu0 J2 J3 J4 w ->
  real_planet (rot := rot) (mirror_planet p) Re Rp mu0 J2 (- J3) J4 w.
Proof. intros p Re Rp mu0 J2 J3 J4 w ->. reflexivity. Qed.
Lemma altitude_below : forall (p : Planet N) Re Rp r, radii p Re Rp -> r <> zeroR ->
  altitude (mirror_planet p) (finv (flip r)) = altitude p (finv r).
Proof.
  intros p Re Rp r HR Hr. assert (HR' : radii (mirror_planet p) Re Rp) by exact HR.
  rewrite (altitude_fin _ Re Rp _ HR' (flip_nonzero _ Hr)), (altitude_fin _ Re Rp _ HR Hr), flip_norm.
  assert (E : level Re Rp (flip r) = level Re Rp r).
  { destruct r as [x y z]. unfold level, flip. cbn [vx vy vz]. unfold Rdiv. ring. }
  rewrite E. reflexivity.
Qed.
Lemma gravity_below : forall (p : Planet N) Re Rp mu0 J2 J3 J4 w r, real_planet p Re Rp mu0 J2 J3 J4 w -> r <> zeroR ->
  gravity (mirror_planet p) (finv (flip r)) = below (gravity p (finv r)).
Proof.
  intros p Re Rp mu0 J2 J3 J4 w r HP Hr. assert (Hn := normR_pos _ Hr).
  rewrite (gravity_real _ Re Rp mu0 J2 (- J3) J4 w _ (mirror_real_planet _ _ _ _ _ _ _ _ HP) (flip_nonzero _ Hr)).
  rewrite (gravity_real _ Re Rp mu0 J2 J3 J4 w _ HP Hr), below_fin. f_equal.
  unfold grav. rewrite flip_norm. unfold flip. cbn [vx vy vz]. unfold pot_r, pot_z. f_equal; field; lra.
Qed.

(** The vehicle. *)
Definition mirror_vehicle (v : Vehicle N) : Vehicle N :=
  mkVehicle (ve_structure_mass v) (ve_initial_propellant_mass v) (ve_reference_area v) (ve_drag_coeff v) (ve_lift_coeff v)
    (negate_table (ve_side_force_coeff v)) (map mirror_engine (ve_engines v)).
Lemma index_map : forall (A B : Type) (f : A -> B) l i, index (map f l) i = bind (index l i) (fun a => Ret (f a)).
Proof. intros A B f l i. unfold index. rewrite nth_error_map. destruct (nth_error l i); reflexivity. Qed.
Lemma interpolate_negated : forall y0 y1 x x0 x1 : N,
  n_add (n_neg y0) (n_div (n_mul (n_sub x x0) (n_sub (n_neg y1) (n_neg y0))) (n_sub x1 x0))
  = n_neg (n_add y0 (n_div (n_mul (n_sub x x0) (n_sub y1 y0)) (n_sub x1 x0))).
Proof.
  intros. cbn [n_add n_sub n_mul n_div n_neg XR]. rewrite xneg_sub, xneg_mul_r, xneg_div, xneg_add. reflexivity.
Qed.
Definition negated (o : outcome N) : outcome N := bind o (fun x => Ret (n_neg x)).
Lemma linear_negated : forall xs x (d : list N), linear_interpolate xs x (map (@n_neg N) d) = negated (linear_interpolate xs x d).
Proof.
  intros xs x d. unfold linear_interpolate, negated. rewrite map_length.
  destruct (length d =? 0)%nat; [reflexivity|]. destruct (length d =? 1)%nat; [apply index_map|].
  destruct (get_idx xs x) as [[i j]|e]; [|reflexivity]. cbn [bind]. destruct (index xs i) as [x0|e]; [|reflexivity]. cbn [bind].
  destruct (index xs j) as [x1|e]; [|reflexivity]. cbn [bind]. rewrite !index_map.
  destruct (index d i) as [y0|e]; [|reflexivity]. cbn [bind]. destruct (index d j) as [y1|e]; [|reflexivity]. cbn [bind].
  rewrite interpolate_negated. reflexivity.
Qed.
Lemma bilinear_negated : forall xs x ys y (d : list (list N)),
  bilinear_interpolate xs x ys y (map (map (@n_neg N)) d) = negated (bilinear_interpolate xs x ys y d).
Proof.
  intros xs x ys y d. unfold bilinear_interpolate. rewrite map_length.
  destruct (length d =? 0)%nat; [reflexivity|]. destruct (length d =? 1)%nat.
  { rewrite index_map. destruct (index d 0) as [l|e]; [|reflexivity]. cbn [bind]. apply linear_negated. }
  destruct (get_idx xs x) as [[i j]|e]; [|reflexivity]. cbn [bind]. destruct (index xs i) as [x0|e]; [|reflexivity]. cbn [bind].
  destruct (index xs j) as [x1|e]; [|reflexivity]. cbn [bind]. rewrite !index_map.
  destruct (index d i) as [l0|e]; [|reflexivity]. cbn [bind]. rewrite linear_negated. unfold negated.
  destruct (linear_interpolate ys y l0) as [y0|e]; [|reflexivity]. cbn [bind].
  destruct (index d j) as [l1|e]; [|reflexivity]. cbn [bind]. rewrite linear_negated. unfold negated.
  destruct (linear_interpolate ys y l1) as [y1|e]; [|reflexivity]. cbn [bind].
  rewrite interpolate_negated. reflexivity.
Qed.
Lemma trilinear_negated : forall xs x ys y zs z (d : list (list (list N))),
  trilinear_interpolate xs x ys y zs z (map (map (map (@n_neg N))) d) = negated (trilinear_interpolate xs x ys y zs z d).
Proof.
  intros xs x ys y zs z d. unfold trilinear_interpolate. rewrite map_length.
  destruct (length d =? 0)%nat; [reflexivity|]. destruct (length d =? 1)%nat.
  { rewrite index_map. destruct (index d 0) as [l|e]; [|reflexivity]. cbn [bind]. apply bilinear_negated. }
  destruct (get_idx xs x) as [[i j]|e]; [|reflexivity]. cbn [bind]. destruct (index xs i) as [x0|e]; [|reflexivity]. cbn [bind].
  destruct (index xs j) as [x1|e]; [|reflexivity]. cbn [bind]. rewrite !index_map.
  destruct (index d i) as [l0|e]; [|reflexivity]. cbn [bind]. rewrite bilinear_negated. unfold negated.
  destruct (bilinear_interpolate ys y zs z l0) as [y0|e]; [|reflexivity]. cbn [bind].
  destruct (index d j) as [l1|e]; [|reflexivity]. cbn [bind]. rewrite bilinear_negated. unfold negated.
  destruct (bilinear_interpolate ys y zs z l1) as [y1|e]; [|reflexivity]. cbn [bind].
  rewrite interpolate_negated. reflexivity.
Qed.
Lemma at_state_negated : forall t (s : State N), at_state (negate_table t) s = negated (at_state t s).
Proof.
  intros [[x d []]|[x y d []]|[x y z d []]] s; cbn [negate_table at_state];
    [apply linear_negated|apply bilinear_negated|apply trilinear_negated].
Qed.
Lemma negated_variables : forall t, table_variables (negate_table t) = table_variables t.
Proof. intros [[x d i]|[x y d i]|[x y z d i]]; reflexivity. Qed.
Lemma nan_to_zero_neg : forall x : N, nan_to_zero (n_neg x) = n_neg (nan_to_zero x).
Proof. intros [x| | |]; try reflexivity. cbn [nan_to_zero n_isnan n_neg XR xisnan xneg]. symmetry. apply xneg_0. Qed.
Lemma aero_mirror : forall v (s s' : State N),
  (forall x, In x (vehicle_variables v) -> get_value x s' = get_value x s) ->
  st_alpha s' = st_alpha s -> st_dynamic_pressure s' = st_dynamic_pressure s ->
  aero_force (mirror_vehicle v) s' = bind (aero_force v s) (fun f => Ret (left_right f)).
Proof.
  intros v s s' H Ha Hq. unfold vehicle_variables in H. unfold aero_force. cbn [mirror_vehicle ve_drag_coeff ve_lift_coeff ve_side_force_coeff ve_reference_area].
  rewrite at_state_negated, Ha, Hq.
  rewrite !(at_state_ext _ s' s) by (intros x Hx; apply H; rewrite !in_app_iff; auto).
  destruct (at_state (ve_drag_coeff v) s) as [cd|e]; [|reflexivity]. cbn [bind].
  destruct (at_state (ve_lift_coeff v) s) as [cl|e]; [|reflexivity]. cbn [bind]. unfold negated.
  destruct (at_state (ve_side_force_coeff v) s) as [cy|e]; [|reflexivity]. cbn [bind].
  unfold left_right, vscale. cbn [vx vy vz]. f_equal. f_equal.
  rewrite <- nan_to_zero_neg. f_equal. apply xneg_mul_r.
Qed.
Lemma engine_mirror : forall e p, engine_thrust (mirror_engine e) p = left_right (engine_thrust e p).
Proof.
  intros [[pi ya] t i x] p. unfold engine_thrust. cbn [mirror_engine en_incidence en_thrust_vac en_exit_area fst snd].
  rewrite <- left_right_scale_r. f_equal. unfold left_right. cbn [vx vy vz].
  assert (C : @n_cos N (n_neg ya) = n_cos ya). { destruct ya as [y| | |]; try reflexivity. apply (f_equal Fin). apply cos_neg. }
  assert (S : @n_sin N (n_neg ya) = n_neg (n_sin ya)). { destruct ya as [y| | |]; try reflexivity. apply (f_equal Fin). apply sin_neg. }
  rewrite C, S. reflexivity.
Qed.
Lemma thrust_mirror : forall v th p, thrust_force (mirror_vehicle v) th p = left_right (thrust_force v th p).
Proof.
  intros v th p. unfold thrust_force. rewrite <- left_right_scale. f_equal. cbn [mirror_vehicle ve_engines].
  unfold vsum. rewrite map_map. rewrite <- left_right_zero at 1. generalize (@vzero N) as z.
  induction (ve_engines v) as [|e es IH]; intros z; [reflexivity|]. cbn [map fold_left].
  rewrite engine_mirror, left_right_add. apply IH.
Qed.
Lemma massflow_mirror : forall v th, massflow (mirror_vehicle v) th = massflow v th.
Proof.
  intros v th. unfold massflow. cbn [mirror_vehicle ve_engines]. rewrite map_map. reflexivity.
Qed.
Lemma throttle_mirror : forall v a m p f, auto_throttle (mirror_vehicle v) a m p (left_right f) = auto_throttle v a m p f.
Proof.
  intros v a m p f. unfold auto_throttle. rewrite thrust_mirror. unfold vangle. rewrite !norm_left_right, dot_left_right.
  assert (E : veqb (left_right (thrust_force v (n_lit 1 0) p)) vzero = veqb (thrust_force v (n_lit 1 0) p) vzero).
  { unfold veqb, left_right. cbn [vx vy vz n_eqb n_neg XR vzero]. rewrite (xneg_eqb0 _). reflexivity. }
  rewrite E. reflexivity.
Qed.

(** Steering. *)
Definition opposite_axis (a : axis N) : axis N := mkAxis (ax_var a) (n_neg (ax_c0 a)) (vneg (ax_c a)).
Definition mirror_steering (s : Steering N) : Steering N :=
  mkSteering (opposite_axis (sg_roll s)) (opposite_axis (sg_yaw s)) (sg_pitch s).
Lemma calc_opposite : forall x a, calc_coeff (N := N) x (opposite_axis a) = n_neg (calc_coeff x a).
Proof.
  intros x [v c [c1 c2 c3]]. unfold calc_coeff, opposite_axis, sum, vneg. cbn [ax_c0 ax_c vx vy vz fold_left].
  cbn [n_add n_mul n_neg XR]. rewrite !xneg_mul_l.
  change (@n_lit N 0 0) with (Fin 0). rewrite <- xneg_0 at 1. rewrite !xneg_add. reflexivity.
Qed.
Lemma radians_neg : forall x : N, to_radians (n_neg x) = n_neg (to_radians x).
Proof. intros x. apply xneg_mul_l. Qed.
Lemma degrees_neg : forall x : N, to_degrees (n_neg x) = n_neg (to_degrees x).
Proof. intros x. apply xneg_mul_l. Qed.
Lemma steering_mirror : forall g (s s' : State N),
  get_value (ax_var (sg_roll g)) s' = get_value (ax_var (sg_roll g)) s ->
  get_value (ax_var (sg_yaw g)) s' = get_value (ax_var (sg_yaw g)) s ->
  get_value (ax_var (sg_pitch g)) s' = get_value (ax_var (sg_pitch g)) s ->
  steering_euler_angles (mirror_steering g) s' = mirror_angles (steering_euler_angles g s).
Proof.
  intros g s s' H1 H2 H3. unfold steering_euler_angles, mirror_angles, mirror_steering. cbn [sg_roll sg_yaw sg_pitch vx vy vz].
  change (ax_var (opposite_axis (sg_roll g))) with (ax_var (sg_roll g)).
  change (ax_var (opposite_axis (sg_yaw g))) with (ax_var (sg_yaw g)).
  rewrite H1, H2, H3, !calc_opposite, !radians_neg. reflexivity.
Qed.

Lemma even_value : forall (s s' : State N) v, mirrored s s' -> even v = true -> get_value v s' = get_value v s.
Proof.
  intros s s' v H Hv. destruct H.
  destruct v; try discriminate Hv; cbn [get_value];
  repeat match goal with E : _ = below _ |- _ => rewrite E; clear E | E : _ = left_right _ |- _ => rewrite E; clear E
    | E : _ = mirror_angles _ |- _ => rewrite E; clear E end;
  rewrite ?norm_below, ?norm_left_right; first [assumption|reflexivity].
Qed.

(** The mirror image of a phase. *)
Record mirror_twins (p p' : Phase N) : Prop := {
  w_vehicle : ph_vehicle p' = mirror_vehicle (ph_vehicle p);
  w_steering : ph_steering p' = mirror_steering (ph_steering p);
  w_atmosphere : ph_atmosphere p' = mkAtmosphere (below (at_wind (ph_atmosphere p))) (at_model (ph_atmosphere p));
  w_planet : ph_planet p' = mirror_planet (ph_planet p);
  w_launch : exists lat long az, ph_launch p = finv (V3 lat long az) /\ ph_launch p' = finv (V3 (- lat) long (PI - az));
  w_max_acceleration : ph_max_acceleration p' = ph_max_acceleration p;
  w_stepsize : ph_stepsize p' = ph_stepsize p;
  w_base_stepsize : ph_base_stepsize p' = ph_base_stepsize p;
  w_criterion : ph_end_criterion p' = ph_end_criterion p;
  w_tries : ph_end_criterion_tries p' = ph_end_criterion_tries p;
  w_ended : ph_ended p' = ph_ended p;
  w_state : mirrored (ph_state p) (ph_state p') }.

Record even_phase (p : Phase N) : Prop := {
  xp_drag : Forall (fun x => even x = true) (table_variables (ve_drag_coeff (ph_vehicle p)));
  xp_lift : Forall (fun x => even x = true) (table_variables (ve_lift_coeff (ph_vehicle p)));
  xp_side : Forall (fun x => even x = true) (table_variables (ve_side_force_coeff (ph_vehicle p)));
  xp_roll : even (ax_var (sg_roll (ph_steering p))) = true;
  xp_yaw : even (ax_var (sg_yaw (ph_steering p))) = true;
  xp_pitch : even (ax_var (sg_pitch (ph_steering p))) = true;
  xp_criterion : even (fst (ph_end_criterion p)) = true }.

Lemma equations_mirrored : rot_contract rot -> forall (p p' : Phase N) (s0 s0' s s' : State N),
  mirror_twins p p' -> even_phase p -> real_phase p -> real_input s0 -> ~ singular p s0 -> mirrored s0 s0' ->
  equations p s0 s -> equations p' s0' s' ->
  guard p' s' = guard p s /\ (guard p s = false -> mirrored s s').
Proof.
  intros Hrot p p' s0 s0' s s' W X RP RI NS T Q Q'.
  destruct (evaluation_equations Hrot p s0 s RP RI NS Q) as [(P & f & EP & Ef & (e & Ee)) K].
  destruct W as [W1 W2 W3 W4 (lat & long & az & L & L') W6 _ _ _ _ _ _].
  destruct X as [X2 X3 X4 X5 X6 X7 _].
  destruct (rp_planet _ RP) as (Re & Rp & mu0 & J2 & J3 & J4 & w & HP & PRe & PRp).
  assert (HR : radii (ph_planet p) Re Rp) by (rewrite HP; repeat split; assumption).
  assert (Hw : pl_rotation_rate (ph_planet p) = Fin w) by (rewrite HP; reflexivity).
  assert (A1 : st_time s' = st_time s) by (rewrite (q_time _ _ _ Q), (q_time _ _ _ Q'); apply T).
  assert (A2 : st_time_since_event s' = st_time_since_event s)
    by (rewrite (q_time_since_event _ _ _ Q), (q_time_since_event _ _ _ Q'); apply T).
  assert (A3 : st_position s' = below (st_position s)) by (rewrite (q_position _ _ _ Q), (q_position _ _ _ Q'); apply T).
  assert (A4 : st_velocity s' = below (st_velocity s)) by (rewrite (q_velocity _ _ _ Q), (q_velocity _ _ _ Q'); apply T).
  assert (A5 : st_mass s' = st_mass s) by (rewrite (q_mass _ _ _ Q), (q_mass _ _ _ Q'); apply T).
  destruct (ri_time _ RI) as [t Ht]. rewrite <- (q_time _ _ _ Q) in Ht.
  destruct (ri_position _ RI) as [r Er]. rewrite <- (q_position _ _ _ Q) in Er.
  destruct (ri_velocity _ RI) as [u Eu]. rewrite <- (q_velocity _ _ _ Q) in Eu.
  assert (Er' := A3). rewrite Er, below_fin in Er'. assert (Eu' := A4). rewrite Eu, below_fin in Eu'.
  assert (Nr : r <> zeroR). { intros ->. apply NS. left. rewrite <- (q_position _ _ _ Q). exact Er. }
  assert (A6 : st_position_planet s' = below (st_position_planet s)).
  { rewrite (q_position_planet _ _ _ Q), (q_position_planet _ _ _ Q'), W4, A1, Ht, Er, Er'.
    change (pl_rotation_rate (mirror_planet (ph_planet p))) with (pl_rotation_rate (ph_planet p)). rewrite Hw. unfold inertial_to_planet.
    rewrite inertial_to_planet_real. cbn [n_rot XR]. rewrite (Hrot _ (Rz_rotation _)), !mulv_fin, flip_Rz. reflexivity. }
  assert (A7 : st_velocity_planet s' = below (st_velocity_planet s)).
  { rewrite (q_velocity_planet _ _ _ Q), (q_velocity_planet _ _ _ Q'), W4, Er, Er', Eu, Eu'. unfold velocity_planet.
    change (pl_rotation_rate (mirror_planet (ph_planet p))) with (pl_rotation_rate (ph_planet p)). rewrite Hw.
    change (V3 (@n_lit N 0 0) (n_lit 0 0) (Fin w)) with (finv (V3 0 0 w)).
    rewrite !vcross_fin, !vsub_fin, flip_spin. reflexivity. }
  assert (HA := altitude_below (ph_planet p) Re Rp r HR Nr).
  assert (A8 : st_altitude s' = st_altitude s).
  { rewrite (q_altitude _ _ _ Q), (q_altitude _ _ _ Q'), W4, Er, Er'. exact HA. }
  assert (A9 : st_altitude_geopotential s' = st_altitude_geopotential s).
  { rewrite (q_altitude_geopotential _ _ _ Q), (q_altitude_geopotential _ _ _ Q'), W4, Er, Er'.
    unfold geopotential_altitude. rewrite HA. reflexivity. }
  assert (A10 : st_propellant_mass s' = st_propellant_mass s).
  { rewrite (q_propellant_mass _ _ _ Q), (q_propellant_mass _ _ _ Q'), W1, A5. reflexivity. }
  assert (A11 : st_gravity_acceleration s' = below (st_gravity_acceleration s)).
  { rewrite (q_gravity _ _ _ Q), (q_gravity _ _ _ Q'), W4, Er, Er'. exact (gravity_below _ Re Rp mu0 J2 J3 J4 w r HP Nr). }
  assert (A12 : st_velocity_atmosphere s' = below (st_velocity_atmosphere s)).
  { rewrite (q_velocity_atmosphere _ _ _ Q), (q_velocity_atmosphere _ _ _ Q'), W3, A7. apply below_sub. }
  assert (N12 : norm (st_velocity_atmosphere s') = norm (st_velocity_atmosphere s)) by (rewrite A12; apply norm_below).
  assert (A13 : st_temperature s' = st_temperature s).
  { assert (B := q_temperature _ _ _ Q). assert (B' := q_temperature _ _ _ Q'). rewrite W3 in B'. unfold at_temperature in B, B'.
    cbn [at_model] in B'. rewrite A9, B in B'. injection B' as ->. reflexivity. }
  assert (A14 : st_pressure s' = st_pressure s).
  { assert (B := q_pressure _ _ _ Q). assert (B' := q_pressure _ _ _ Q'). rewrite W3 in B'. unfold at_pressure in B, B'.
    cbn [at_model] in B'. rewrite A9, B in B'. injection B' as ->. reflexivity. }
  assert (A15 : st_density s' = st_density s).
  { assert (B := q_density _ _ _ Q). assert (B' := q_density _ _ _ Q'). rewrite W3 in B'. unfold at_density in B, B'.
    cbn [at_model] in B'. rewrite A9, B in B'. injection B' as ->. reflexivity. }
  assert (A16 : st_mach_number s' = st_mach_number s).
  { assert (B := q_mach_number _ _ _ Q). assert (B' := q_mach_number _ _ _ Q'). rewrite W3 in B'.
    unfold at_mach_number, at_speed_of_sound in B, B'. cbn [at_model] in B'. rewrite A9, N12, B in B'. injection B' as ->. reflexivity. }
  assert (A17 : st_dynamic_pressure s' = st_dynamic_pressure s).
  { rewrite (q_dynamic_pressure _ _ _ Q), (q_dynamic_pressure _ _ _ Q'), W3. unfold at_dynamic_pressure.
    rewrite A15, N12. reflexivity. }
  assert (BA : mirrored (before_attitude s0 s) (before_attitude s0' s')).
  { destruct T. constructor; assumption. }
  assert (A18 : st_euler_angles s' = mirror_angles (st_euler_angles s)).
  { rewrite (q_euler_angles _ _ _ Q), (q_euler_angles _ _ _ Q'), W2. apply steering_mirror; apply (even_value _ _ _ BA); assumption. }
  destruct e as [e1 e2 e3].
  assert (Ee' : st_euler_angles s' = finv (V3 (- e1) (- e2) e3)) by (rewrite A18, Ee; reflexivity).
  assert (A19 : st_alpha s' = st_alpha s).
  { assert (BR := q_velocity_atmosphere _ _ _ Q). rewrite (q_velocity_planet _ _ _ Q), Er, Eu in BR. unfold velocity_planet in BR.
    rewrite Hw in BR. change (V3 (@n_lit N 0 0) (n_lit 0 0) (Fin w)) with (finv (V3 0 0 w)) in BR.
    destruct (rp_wind _ RP) as [wd Hwd]. rewrite Hwd, vcross_fin, !vsub_fin in BR.
    rewrite (q_alpha _ _ _ Q), (q_alpha _ _ _ Q'), Ee', Ee, L, L', A12, BR, !(inertial_to_body_real Hrot), below_fin, !mulv_fin.
    cbn [vx vy vz]. rewrite i2b_mirror. reflexivity. }
  assert (BB : mirrored (before_aero s0 s) (before_aero s0' s')).
  { destruct BA. constructor; assumption. }
  assert (A20 : st_aero_force_body s' = left_right (st_aero_force_body s)).
  { assert (B := q_aero_force _ _ _ Q). assert (B' := q_aero_force _ _ _ Q').
    rewrite Forall_forall in X2, X3, X4.
    rewrite W1, (aero_mirror (ph_vehicle p) (before_aero s0 s)) in B'.
    - rewrite B in B'. injection B' as <-. reflexivity.
    - intros x Hx. apply (even_value _ _ _ BB). unfold vehicle_variables in Hx. rewrite !in_app_iff in Hx. destruct Hx as [Hx|[Hx|Hx]]; auto.
    - exact A19.
    - exact A17. }
  assert (A21 : st_throttle s' = st_throttle s).
  { rewrite (q_throttle _ _ _ Q), (q_throttle _ _ _ Q'), W1, W6, A5, A14, A20. apply throttle_mirror. }
  assert (A22 : st_thrust_force_body s' = left_right (st_thrust_force_body s)).
  { rewrite (q_thrust _ _ _ Q), (q_thrust _ _ _ Q'), W1, A21, A14. apply thrust_mirror. }
  assert (A23 : st_massflow s' = st_massflow s).
  { rewrite (q_massflow _ _ _ Q), (q_massflow _ _ _ Q'), W1, A21. apply massflow_mirror. }
  assert (A24 : st_vehicle_acceleration_body s' = left_right (st_vehicle_acceleration_body s)).
  { rewrite (q_vehicle_acceleration _ _ _ Q), (q_vehicle_acceleration _ _ _ Q'), A20, A22, A5, left_right_add. apply left_right_div. }
  assert (G : guard p' s' = guard p s) by (unfold guard; rewrite A24, norm_left_right, A21, W6; reflexivity).
  split; [exact G|]. intros G0.
  assert (RS : real_state (with_air p) s).
  { apply K. unfold guard in G0. apply orb_false_elim in G0. apply G0. }
  assert (A25 : st_acceleration s' = below (st_acceleration s)).
  { rewrite (q_acceleration _ _ _ Q), (q_acceleration _ _ _ Q'), A24, A11, Ee, Ee', L, L', !(inertial_to_body_real Hrot), !transpose_fin.
    destruct (r_vehicle_acceleration_body _ _ RS) as [b ->]. rewrite left_right_fin, !mulv_fin. cbn [vx vy vz].
    rewrite (transpose_mirror _ _ (i2b_mirror lat long az e1 e2 e3)), <- below_fin. apply below_add. }
  constructor; assumption.
Qed.
Lemma negate_accepted : forall t : Table N, accepted t -> accepted (negate_table t).
Proof.
  assert (V : forall (A B : Type) (f : A -> B) xs (d : list A), validate (N := N) xs (map f d) = validate xs d).
  { intros. unfold validate. rewrite map_length. reflexivity. }
  assert (F : forall (A B E : Type) (f : A -> B) (g : B -> result unit E) (g' : A -> result unit E) l,
     (forall a, g (f a) = g' a) -> for_each g (map f l) = for_each g' l).
  { intros A B E f g g' l H. induction l as [|a l IH]; [reflexivity|]. cbn [map for_each]. rewrite H.
    destruct (g' a); [exact IH|reflexivity]. }
  intros [[x d i]|[x y d i]|[x y z d i]] H; cbn [negate_table accepted] in *.
  - destruct H as (x1 & d1 & i1 & H). exists x1, (map (@n_neg N) d1), i1. unfold t1_try_new in *. rewrite V.
    destruct (validate (snd x1) d1); [|discriminate]. cbn [result_bind] in *. injection H as <- <- <-. reflexivity.
  - destruct H as (x1 & y1 & d1 & i1 & H). exists x1, y1, (map (map (@n_neg N)) d1), i1. unfold t2_try_new in *. rewrite V.
    rewrite (F _ _ _ _ _ (fun y_data => validate (snd y1) y_data)) by (intros; apply V).
    destruct (validate (snd x1) d1); [|discriminate]. cbn [result_bind] in *.
    destruct (for_each _ d1); [|discriminate]. cbn [result_bind] in *. injection H as <- <- <- <-. reflexivity.
  - destruct H as (x1 & y1 & z1 & d1 & i1 & H). exists x1, y1, z1, (map (map (map (@n_neg N))) d1), i1. unfold t3_try_new in *. rewrite V.
    rewrite (F _ _ _ _ _ (fun y_data => result_bind (validate (snd y1) y_data) (fun _ => for_each (fun z_data => validate (snd z1) z_data) y_data))).
    2: { intros a. rewrite V. rewrite (F _ _ _ _ _ (fun z_data => validate (snd z1) z_data)) by (intros; apply V). reflexivity. }
    destruct (validate (snd x1) d1); [|discriminate]. cbn [result_bind] in *.
    destruct (for_each _ d1); [|discriminate]. cbn [result_bind] in *. injection H as <- <- <- <- <-. reflexivity.
Qed.
Lemma system_mirrored : rot_contract rot -> forall (p p' : Phase N) (s0 s0' : State N),
  mirror_twins p p' -> even_phase p -> real_phase p -> real_input s0 -> ~ singular p s0 -> mirrored s0 s0' ->
  both mirrored (system p s0) (system p' s0').
Proof.
  intros Hrot p p' s0 s0' W X RP RI NS T.
  assert (L : lookups_ok p).
  { apply accepted_lookups. split; [|split]; apply real_table_accepted; apply RP. }
  assert (L' : lookups_ok p').
  { apply accepted_lookups. rewrite !(w_vehicle _ _ W). split; [|split].
    - apply real_table_accepted, RP.
    - apply real_table_accepted, RP.
    - cbn [mirror_vehicle ve_side_force_coeff]. apply negate_accepted. apply real_table_accepted, RP. }
  destruct (system_total p s0 L) as (s & Q & E). destruct (system_total p' s0' L') as (s' & Q' & E').
  destruct (equations_mirrored Hrot p p' s0 s0' s s' W X RP RI NS T Q Q') as [G U].
  rewrite E, E', G. destruct (guard p s); [reflexivity|]. apply U. reflexivity.
Qed.
Local Notation sm := (rk_sum v7_zero v7_add v7_scale (N := N)).
Definition mirrored7 (v v' : vec7 N) : Prop :=
  v7_pos v' = below (v7_pos v) /\ v7_vel v' = below (v7_vel v) /\ v7_mass v' = v7_mass v.
Lemma mirrored7_zero : mirrored7 v7_zero v7_zero.
Proof. split; [symmetry; exact below_zero|]. split; [symmetry; exact below_zero|reflexivity]. Qed.
Lemma mirrored7_add : forall u u' v v', mirrored7 u u' -> mirrored7 v v' -> mirrored7 (v7_add u v) (v7_add u' v').
Proof.
  intros u u' v v' (E1 & E2 & E3) (F1 & F2 & F3).
  unfold v7_add, mirrored7. cbn [v7_pos v7_vel v7_mass]. rewrite E1, E2, E3, F1, F2, F3, !below_add.
  split; [|split]; reflexivity.
Qed.
Lemma mirrored7_scale : forall k u u', mirrored7 u u' -> mirrored7 (v7_scale (N := N) k u) (v7_scale (N := N) k u').
Proof.
  intros k u u' (E1 & E2 & E3).
  unfold v7_scale, mirrored7. cbn [v7_pos v7_vel v7_mass]. rewrite E1, E2, E3, !below_scale.
  split; [|split]; reflexivity.
Qed.
Lemma mirrored7_sum : forall cs ks ks', Forall2 mirrored7 ks ks' -> mirrored7 (sm cs ks) (sm cs ks').
Proof.
  intros cs ks ks' Hk. unfold rk_sum. generalize mirrored7_zero.
  generalize (@v7_zero N) at 1 3 as z. generalize (@v7_zero N) as z'. intros z' z Hz. revert ks ks' Hk z z' Hz.
  induction cs as [|c cs IH]; intros ks ks' Hk z z' Hz; [exact Hz|].
  destruct Hk as [|k k' ks ks' B Hk]; [exact Hz|]. cbn [combine map fold_left fst snd].
  apply IH; [exact Hk|]. apply mirrored7_add; [exact Hz|]. now apply mirrored7_scale.
Qed.
Lemma mirrored_from_vec : forall t v v', mirrored7 v v' -> mirrored (from_vec (N := N) t v) (from_vec (N := N) t v').
Proof.
  intros [t e] v v' (H1 & H2 & H3). unfold from_vec. cbn [fst snd].
  constructor; cbn [set_mass set_velocity set_position set_time_since_event set_time default_state
    st_time st_time_since_event st_position st_position_planet st_altitude st_altitude_geopotential st_velocity
    st_velocity_planet st_velocity_atmosphere st_acceleration st_thrust_force_body st_aero_force_body
    st_vehicle_acceleration_body st_gravity_acceleration st_mass st_propellant_mass st_massflow st_temperature
    st_pressure st_density st_mach_number st_dynamic_pressure st_alpha st_euler_angles st_throttle];
    first [assumption | reflexivity | symmetry; first [exact below_zero|exact left_right_zero|exact mirror_angles_zero]].
Qed.
Lemma mirrored_differentials : forall (s s' : State N), mirrored s s' ->
  mirrored7 (to_differentials_vector s) (to_differentials_vector s').
Proof. intros s s' []. split; [|split]; assumption. Qed.
Lemma mirrored_primary : forall (s s' : State N), mirrored s s' -> mirrored7 (to_primary_vec s) (to_primary_vec s').
Proof. intros s s' []. split; [|split]; assumption. Qed.

Lemma step_mirrored : rot_contract rot -> forall (p p' : Phase N), mirror_twins p p' -> even_phase p -> real_phase p ->
  (ph_ended p = false -> forall x, visits (system p) (ph_state p) (ph_stepsize p) x -> real_input x /\ ~ singular p x) ->
  both (mirror_twins) (step p) (step p').
Proof.
  intros Hrot p p' W X RP V. assert (U := w_state _ _ W).
  unfold step. rewrite (w_ended _ _ W), (w_stepsize _ _ W), (w_criterion _ _ W), (w_tries _ _ W).
  destruct (ph_ended p) eqn:En; [reflexivity|]. specialize (V eq_refl).
  set (s := ph_state p) in *. set (s' := ph_state p') in *. set (h := ph_stepsize p) in *.
  assert (K : both mirrored (integrator_step (fun s => system p s) s h) (integrator_step (fun s => system p' s) s' h)).
  { rewrite !integrator_step_points.
    assert (P := mirrored_primary _ _ U). assert (Z := mirrored7_zero).
    assert (D : forall d d', mirrored d d' -> mirrored7 (v7_scale h (to_differentials_vector d)) (v7_scale h (to_differentials_vector d'))).
    { intros d d' Hd. apply mirrored7_scale. now apply mirrored_differentials. }
    assert (T1 : st_time s' = st_time s) by apply U. assert (T2 : st_time_since_event s' = st_time_since_event s) by apply U.
    assert (A0 : mirrored (point0 s h) (point0 s' h)).
    { unfold point0. rewrite T1, T2. apply mirrored_from_vec, mirrored7_add; [exact P|].
      apply mirrored7_sum. repeat (apply Forall2_cons; [exact Z|]); apply Forall2_nil. }
    destruct (V (point0 s h)) as [I0 N0]; [left; reflexivity|].
    assert (B0 := system_mirrored Hrot p p' _ _ W X RP I0 N0 A0).
    assert (V0 : forall d0, system p (point0 s h) = Ret d0 -> forall x, (x = point1 s h d0 \/ exists d1, system p (point1 s h d0) = Ret d1 /\
      (x = point2 s h d0 d1 \/ exists d2, system p (point2 s h d0 d1) = Ret d2 /\
      (x = point3 s h d0 d1 d2 \/ exists d3, system p (point3 s h d0 d1 d2) = Ret d3 /\ x = point4 s h d0 d1 d2 d3))) ->
      real_input x /\ ~ singular p x).
    { intros d0 E x Hx. apply V. right. exists d0. split; assumption. }
    clear V. destruct (system p (point0 s h)) as [d0|e] eqn:E0, (system p' (point0 s' h)) as [d0'|e'] eqn:E0'; cbn [both] in B0;
      try contradiction; [|exact B0]. cbn [bind].
    specialize (V0 d0 eq_refl).
    assert (K0 := D _ _ B0).
    assert (A1 : mirrored (point1 s h d0) (point1 s' h d0')).
    { unfold point1. rewrite T1, T2. apply mirrored_from_vec, mirrored7_add; [exact P|].
      apply mirrored7_sum. apply Forall2_cons; [exact K0|]. repeat (apply Forall2_cons; [exact Z|]); apply Forall2_nil. }
    destruct (V0 (point1 s h d0)) as [I1 N1]; [left; reflexivity|].
    assert (B1 := system_mirrored Hrot p p' _ _ W X RP I1 N1 A1).
    assert (V1 : forall d1, system p (point1 s h d0) = Ret d1 -> forall x, 
      (x = point2 s h d0 d1 \/ exists d2, system p (point2 s h d0 d1) = Ret d2 /\
      (x = point3 s h d0 d1 d2 \/ exists d3, system p (point3 s h d0 d1 d2) = Ret d3 /\ x = point4 s h d0 d1 d2 d3)) ->
      real_input x /\ ~ singular p x).
    { intros d1 E x Hx. apply V0. right. exists d1. split; assumption. }
    clear V0. destruct (system p (point1 s h d0)) as [d1|e] eqn:E1, (system p' (point1 s' h d0')) as [d1'|e'] eqn:E1'; cbn [both] in B1;
      try contradiction; [|exact B1]. cbn [bind].
    specialize (V1 d1 eq_refl).
    assert (K1 := D _ _ B1).
    assert (A2 : mirrored (point2 s h d0 d1) (point2 s' h d0' d1')).
    { unfold point2. rewrite T1, T2. apply mirrored_from_vec, mirrored7_add; [exact P|].
      apply mirrored7_sum. apply Forall2_cons; [exact K0|]. apply Forall2_cons; [exact K1|].
      repeat (apply Forall2_cons; [exact Z|]); apply Forall2_nil. }
    destruct (V1 (point2 s h d0 d1)) as [I2 N2]; [left; reflexivity|].
    assert (B2 := system_mirrored Hrot p p' _ _ W X RP I2 N2 A2).
    assert (V2 : forall d2, system p (point2 s h d0 d1) = Ret d2 -> forall x, 
      (x = point3 s h d0 d1 d2 \/ exists d3, system p (point3 s h d0 d1 d2) = Ret d3 /\ x = point4 s h d0 d1 d2 d3) ->
      real_input x /\ ~ singular p x).
    { intros d2 E x Hx. apply V1. right. exists d2. split; assumption. }
    clear V1. destruct (system p (point2 s h d0 d1)) as [d2|e] eqn:E2, (system p' (point2 s' h d0' d1')) as [d2'|e'] eqn:E2'; cbn [both] in B2;
      try contradiction; [|exact B2]. cbn [bind].
    specialize (V2 d2 eq_refl).
    assert (K2 := D _ _ B2).
    assert (A3 : mirrored (point3 s h d0 d1 d2) (point3 s' h d0' d1' d2')).
    { unfold point3. rewrite T1, T2. apply mirrored_from_vec, mirrored7_add; [exact P|].
      apply mirrored7_sum. apply Forall2_cons; [exact K0|]. apply Forall2_cons; [exact K1|].
      apply Forall2_cons; [exact K2|]. apply Forall2_cons; [exact Z|]. apply Forall2_nil. }
    destruct (V2 (point3 s h d0 d1 d2)) as [I3 N3]; [left; reflexivity|].
    assert (B3 := system_mirrored Hrot p p' _ _ W X RP I3 N3 A3).
    assert (V3 : forall d3, system p (point3 s h d0 d1 d2) = Ret d3 -> 
      real_input (point4 s h d0 d1 d2 d3) /\ ~ singular p (point4 s h d0 d1 d2 d3)).
    { intros d3 E. apply V2. right. exists d3. split; [assumption|reflexivity]. }
    clear V2. destruct (system p (point3 s h d0 d1 d2)) as [d3|e] eqn:E3, (system p' (point3 s' h d0' d1' d2')) as [d3'|e'] eqn:E3'; cbn [both] in B3;
      try contradiction; [|exact B3]. cbn [bind].
    assert (K3 := D _ _ B3).
    assert (A4 : mirrored (point4 s h d0 d1 d2 d3) (point4 s' h d0' d1' d2' d3')).
    { unfold point4. rewrite T1, T2. apply mirrored_from_vec, mirrored7_add; [exact P|].
      apply mirrored7_sum. apply Forall2_cons; [exact K0|]. apply Forall2_cons; [exact K1|].
      apply Forall2_cons; [exact K2|]. apply Forall2_cons; [exact K3|]. apply Forall2_nil. }
    destruct (V3 d3 eq_refl) as [I4 N4].
    exact (system_mirrored Hrot p p' _ _ W X RP I4 N4 A4). }
  revert K. generalize (integrator_step (fun s => system p s) s h). generalize (integrator_step (fun s => system p' s) s' h).
  intros o' o K. destruct o as [x|e], o' as [x'|e']; cbn [both] in K; try contradiction; [|exact K]. cbn [bind].
  assert (Cx := even_value _ _ (fst (ph_end_criterion p)) K (xp_criterion _ X)).
  assert (Cs : get_value (fst (ph_end_criterion p)) s' = get_value (fst (ph_end_criterion p)) s)
    by (apply even_value; [exact U|apply X]).
  unfold event_is_active, time_to_go. rewrite (w_criterion _ _ W), (w_stepsize _ _ W), Cx, Cs. fold h.
  destruct W as [W1 W2 W3 W4 W5 W6 W7 W8 W9 W10 W11 W12].
  destruct (n_ltb (n_abs _) _); [cbn [both]; constructor; try assumption; reflexivity|].
  match goal with |- context [if ?c then _ else _] => destruct c end.
  - destruct (20 <? ph_end_criterion_tries p)%nat; [reflexivity|]. cbn [both]. constructor; try assumption; try reflexivity.
    cbn [set_ph_end_criterion_tries set_ph_stepsize ph_end_criterion_tries]. congruence.
  - cbn [both]. constructor; assumption.
Qed.

Definition mirrored_phases (st st' : status (Phase N)) : Prop :=
  match st, st' with
  | Finished q, Finished q' => mirror_twins q q'
  | Running q, Running q' => mirror_twins q q'
  | Aborted e, Aborted e' => e = e'
  | _, _ => False
  end.
Lemma even_parameters : forall p q : Phase N, same_parameters p q -> even_phase p -> even_phase q.
Proof.
  intros p q (E1 & E2 & E3 & E4 & E5 & E6 & E7 & E8) []. constructor; rewrite ?E1, ?E2, ?E3, ?E8; assumption.
Qed.
Lemma run_loop_mirrored : rot_contract rot -> forall fuel (p p' : Phase N), mirror_twins p p' -> even_phase p -> real_phase p ->
  (forall ps q x, chain p ps -> In q (p :: ps) -> ph_ended q = false ->
     visits (system q) (ph_state q) (ph_stepsize q) x -> real_input x /\ ~ singular q x) ->
  Forall2 mirrored (fst (run_loop fuel p)) (fst (run_loop fuel p')) /\
  mirrored_phases (snd (run_loop fuel p)) (snd (run_loop fuel p')).
Proof.
  intros Hrot. induction fuel as [|fuel IH]; intros p p' W X RP V; cbn [run_loop]; rewrite (w_ended _ _ W);
    destruct (ph_ended p) eqn:En; cbn [fst snd]; try (split; [constructor|exact W]).
  assert (S : both (mirror_twins) (step p) (step p')).
  { apply (step_mirrored Hrot); try assumption. intros _ x Hx. apply (V [] p); [constructor|now left|exact En|exact Hx]. }
  destruct (step p) as [q|e] eqn:E, (step p') as [q'|e'] eqn:E'; cbn [both] in S; try contradiction.
  - assert (SP := step_parameters _ _ E).
    destruct (IH q q' S) as [A B].
    + now apply (even_parameters p).
    + now apply (real_phase_parameters p).
    + intros ps q1 x Hc Hin. apply (V (q :: ps)); [now apply chain_cons|now right].
    + destruct (run_loop fuel q) as [h st], (run_loop fuel q') as [h' st']. cbn [fst snd] in *.
      split; [|exact B]. constructor; [apply S|exact A].
  - cbn [fst snd]. split; [constructor|exact S].
Qed.
Lemma run_mirrored : rot_contract rot -> forall fuel (p p' : Phase N), mirror_twins p p' -> even_phase p -> real_phase p ->
  regular p ->
  Forall2 mirrored (fst (run fuel p)) (fst (run fuel p')) /\
  mirrored_phases (snd (run fuel p)) (snd (run fuel p')).
Proof.
  intros Hrot fuel p p' W X RP ((RI & NS) & V & _). unfold run.
  assert (S := system_mirrored Hrot p p' _ _ W X RP RI NS (w_state _ _ W)).
  destruct (system p (ph_state p)) as [s|e] eqn:E, (system p' (ph_state p')) as [s'|e'] eqn:E'; cbn [both] in S; try contradiction.
  - assert (P : same_parameters p (set_ph_state p s)) by repeat split.
    apply (run_loop_mirrored Hrot).
    + destruct W. constructor; assumption.
    + now apply (even_parameters p).
    + now apply (real_phase_parameters p).
    + intros ps q x. apply V. exact E.
  - cbn [fst snd]. split; [constructor|exact S].
Qed.

Lemma even_over : forall (o : option (Table N)) t, opt (fun t => Forall (fun x => even x = true) (table_variables t)) o ->
  Forall (fun x => even x = true) (table_variables t) -> Forall (fun x => even x = true) (table_variables (over o t)).
Proof. intros [u|] t H K; assumption. Qed.
Lemma even_axis : forall (a : axis N) o, even (ax_var a) = true -> opt (fun x : StateVariable * vec3 N => even (fst x) = true) o ->
  even (ax_var (axis_update a o)) = true.
Proof. intros a [c|] H K; assumption. Qed.
Lemma even_default : even_phase (@default_phase N).
Proof.
  constructor; try reflexivity; (constructor; [reflexivity|constructor]).
Qed.
Lemma even_configured : forall (q : Phase N) c, even_phase q -> no_hemisphere c -> even_phase (configured q c).
Proof.
  intros q c [X2 X3 X4 X5 X6 X7 X8] [K2 K3 K4].
  assert (V : Forall (fun x => even x = true) (table_variables (ve_drag_coeff (ph_vehicle (configured q c)))) /\
     Forall (fun x => even x = true) (table_variables (ve_lift_coeff (ph_vehicle (configured q c)))) /\
     Forall (fun x => even x = true) (table_variables (ve_side_force_coeff (ph_vehicle (configured q c))))).
  { cbn [configured ph_vehicle]. destruct (pc_vehicle c) as [v|]; [|tauto]. destruct K2 as (A1 & A2 & A3).
    cbn [vehicle_update_with_config ve_drag_coeff ve_lift_coeff ve_side_force_coeff].
    split; [now apply even_over|]. split; now apply even_over. }
  destruct V as (V1 & V2 & V3).
  assert (S : even (ax_var (sg_roll (ph_steering (configured q c)))) = true /\ even (ax_var (sg_yaw (ph_steering (configured q c)))) = true /\
     even (ax_var (sg_pitch (ph_steering (configured q c)))) = true).
  { cbn [configured ph_steering]. destruct (pc_steering c) as [s|]; [|tauto]. destruct K3 as (A1 & A2 & A3).
    cbn [steering_update_with_config sg_roll sg_yaw sg_pitch].
    split; [now apply even_axis|]. split; now apply even_axis. }
  destruct S as (S1 & S2 & S3).
  constructor; try assumption.
  - cbn [configured ph_end_criterion]. destruct (pc_end_criterion c) as [e|]; [exact K4|exact X8].
Qed.
Lemma even_reset : forall p : Phase N, even_phase p -> even_phase (reset p).
Proof. intros p []. constructor; assumption. Qed.

Lemma mirrored_mass : forall (s s' : State N) m, mirrored s s' -> mirrored (set_mass s m) (set_mass s' m).
Proof. intros s s' m []. constructor; try assumption; reflexivity. Qed.
Lemma mirrored_event_time : forall (s s' : State N) m, mirrored s s' -> mirrored (set_time_since_event s m) (set_time_since_event s' m).
Proof. intros s s' m []. constructor; try assumption; reflexivity. Qed.
Lemma planet_of_mirror : forall c : PlanetConfig N, planet_of (mirror_planet_config c) = mirror_planet (planet_of c).
Proof.
  intros [| | |Re Rp [[[m J2] J3] J4] w]; try reflexivity;
    unfold mirror_planet, planet_of, planet_update_with_config; cbn [mirror_planet_config];
    unfold EARTH_SPHERICAL, EARTH_FISHER_1960, gp0, gp1, gp2, gp3;
    cbn [pl_equatorial_radius pl_polar_radius pl_gravitational_parameters pl_rotation_rate n_neg XR];
    change (@n_lit (XR rot) 0 0) with (Fin 0); rewrite xneg_0; reflexivity.
Qed.
Lemma axis_update_mirror : forall (a : axis N) c,
  axis_update (opposite_axis a) (option_map opposite_sense c) = opposite_axis (axis_update a c).
Proof. intros a [[v c]|]; reflexivity. Qed.
Lemma over_mirror : forall (A B : Type) (f : A -> B) o d, over (option_map f o) (f d) = f (over o d).
Proof. intros A B f [x|] d; reflexivity. Qed.
Lemma mirror_twins_configured : forall (p p' : Phase N) c, mirror_twins p p' ->
  mirror_twins (configured p c) (configured p' (mirror_config c)).
Proof.
  intros p p' c [W1 W2 W3 W4 W5 W6 W7 W8 W9 W10 W11 W12].
  constructor; cbn [configured mirror_config pc_vehicle pc_steering pc_atmosphere pc_planet_model pc_max_acceleration pc_stepsize pc_end_criterion
    ph_vehicle ph_steering ph_atmosphere ph_planet ph_launch ph_max_acceleration ph_stepsize
    ph_base_stepsize ph_end_criterion ph_end_criterion_tries ph_ended]; rewrite ?W6, ?W7, ?W8, ?W9, ?W10, ?W11;
    try reflexivity; try exact W5.
  - rewrite W1. destruct (pc_vehicle c) as [v|]; [|reflexivity]. cbn [option_map].
    unfold vehicle_update_with_config, mirror_vehicle. cbn [mirror_vehicle_config vc_structure_mass vc_propellant_mass vc_reference_area
      vc_drag_coeff vc_lift_coeff vc_side_force_coeff vc_engines ve_structure_mass ve_initial_propellant_mass ve_reference_area
      ve_drag_coeff ve_lift_coeff ve_side_force_coeff ve_engines].
    rewrite !over_mirror. reflexivity.
  - rewrite W2. destruct (pc_steering c) as [v|]; [|reflexivity]. cbn [option_map].
    unfold steering_update_with_config, mirror_steering. cbn [mirror_steering_config sg_roll sg_yaw sg_pitch sc_roll sc_yaw sc_pitch].
    rewrite !axis_update_mirror. reflexivity.
  - rewrite W3. destruct (pc_atmosphere c) as [[e w]|]; [|reflexivity]. cbn [option_map ac_enabled ac_wind].
    destruct e as [[|]|], w as [w|]; reflexivity.
  - rewrite W4. destruct (pc_planet_model c) as [m|]; [|reflexivity]. cbn [option_map inherit]. apply planet_of_mirror.
  - cbn [configured ph_state].
    assert (M : mass_of p' (mirror_config c) = mass_of p c).
    { unfold mass_of. cbn [mirror_config pc_vehicle]. rewrite (mi_propellant_mass _ _ W12), W1, (mi_mass _ _ W12).
      destruct (pc_vehicle c) as [v|]; reflexivity. }
    change (pc_vehicle (mirror_config c)) with (option_map mirror_vehicle_config (pc_vehicle c)).
    rewrite M. destruct (pc_vehicle c) as [v|]; [|exact W12]. cbn [option_map mirror_vehicle_config vc_structure_mass vc_propellant_mass].
    destruct (vc_structure_mass v), (vc_propellant_mass v); try exact W12; now apply mirrored_mass.
Qed.
Lemma mirror_twins_reset : forall (p p' : Phase N), mirror_twins p p' -> mirror_twins (reset p) (reset p').
Proof.
  intros p p' [W1 W2 W3 W4 W5 W6 W7 W8 W9 W10 W11 W12].
  constructor; try assumption; try reflexivity.
  - change (steering_init (ph_steering p') (st_euler_angles (ph_state p')) = mirror_steering (steering_init (ph_steering p) (st_euler_angles (ph_state p)))).
    rewrite W2, (mi_euler_angles _ _ W12). unfold steering_init, mirror_steering, axis_init, opposite_axis, mirror_angles.
    cbn [sg_roll sg_yaw sg_pitch vx vy vz ax_var ax_c0 ax_c]. rewrite !degrees_neg. reflexivity.
  - rewrite !reset_state. now apply mirrored_event_time.
Qed.
Lemma mirror_twins_status : forall st st', mirrored_phases st st' -> mirrored_status st st'.
Proof. intros [q|e|q] [q'|e'|q'] H; try exact H; try contradiction; exact (w_state _ _ H). Qed.
Lemma mirrored_records : forall h h', Forall2 mirrored h h' -> Forall2 (mirrored_event) (map ERecord h) (map ERecord h').
Proof. intros h h' H. induction H as [|s s' h h' A _ IH]; cbn [map]; constructor; assumption. Qed.

Lemma begun_mirrored : rot_contract rot -> forall fuel i (p p' : Phase N) rest cs,
  begins cs (reset p) -> mirror_twins p p' -> even_phase p -> real_params p -> regular (reset p) ->
  Forall real_config rest -> Forall no_hemisphere rest ->
  (forall cs1 q, begins cs1 q -> (exists cs2, cs ++ rest = cs1 ++ cs2) -> regular q) ->
  let tail (cs' : list (PhaseConfig N)) (st : status (Phase N)) := match st with
     | Finished p => sim_loop fuel (S i) (Some p) p cs'
     | _ => ([], st) end in
  Forall2 (mirrored_event) (fst (tail rest (snd (run fuel (reset p))))) (fst (tail (map mirror_config rest) (snd (run fuel (reset p'))))) /\
  mirrored_status (snd (tail rest (snd (run fuel (reset p))))) (snd (tail (map mirror_config rest) (snd (run fuel (reset p'))))).
Proof.
  intros Hrot fuel i p p' rest. revert i p p'. induction rest as [|c rest IH]; intros i p p' cs B W X PP G RC NL RG tail; unfold tail.
  - destruct (run_mirrored Hrot fuel (reset p) (reset p')) as [A T]; [now apply mirror_twins_reset|now apply even_reset| |exact G|].
    { apply reset_real; [exact PP| |apply G|exact G]. destruct (w_launch _ _ W) as (x & y & z & -> & _). eexists; reflexivity. }
    destruct (run fuel (reset p)) as [h [q|e|q]], (run fuel (reset p')) as [h' [q'|e'|q']]; cbn [snd mirrored_phases] in T;
      try contradiction; cbn [sim_loop fst snd]; (split; [constructor|]); try exact T; exact (w_state _ _ T).
  - assert (RP : real_phase (reset p)).
    { apply reset_real; [exact PP| |apply G|exact G]. destruct (w_launch _ _ W) as (x & y & z & -> & _). eexists; reflexivity. }
    destruct (run_mirrored Hrot fuel (reset p) (reset p')) as [A T]; [now apply mirror_twins_reset|now apply even_reset|exact RP|exact G|].
    destruct (run fuel (reset p)) as [h st] eqn:R, (run fuel (reset p')) as [h' st'] eqn:R'. cbn [snd fst] in *.
    destruct st as [q|e|q], st' as [q'|e'|q']; cbn [mirrored_phases] in T; try contradiction;
      try (cbn [fst snd]; split; [constructor|]; try exact T; exact (w_state _ _ T)).
    inversion RC as [|? ? C1 C2]; subst. inversion NL as [|? ? L1 L2]; subst.
    assert (Bn : begins (cs ++ [c]) (reset (configured q c))).
    { apply (begins_next cs (reset p) fuel h q c); [exact B|exact R|]. rewrite phase_new_configured. reflexivity. }
    assert (SP := C28_run_keeps_parameters fuel (reset p) h q (or_introl R)).
    destruct (IH (S i) (configured q c) (configured q' (mirror_config c)) (cs ++ [c])) as [J1 J2].
    + exact Bn.
    + now apply mirror_twins_configured.
    + apply even_configured; [|exact L1]. apply (even_parameters (reset p)); [exact SP|now apply even_reset].
    + apply configured_params; [|exact C1]. apply (params_run _ _ _ _ R). now apply params_reset.
    + apply (RG (cs ++ [c])); [exact Bn|]. exists rest. rewrite <- app_assoc. reflexivity.
    + exact C2.
    + exact L2.
    + intros cs1 q1 B1 (cs2 & E). apply (RG cs1 q1 B1). exists cs2. rewrite <- E, <- app_assoc. reflexivity.
    + destruct (run_mirrored Hrot fuel (reset (configured q c)) (reset (configured q' (mirror_config c)))) as [A1 T1].
      * apply mirror_twins_reset. now apply mirror_twins_configured.
      * apply even_reset. apply even_configured; [|exact L1]. apply (even_parameters (reset p)); [exact SP|now apply even_reset].
      * assert (Gn : regular (reset (configured q c))).
        { apply (RG (cs ++ [c])); [exact Bn|]. exists rest. rewrite <- app_assoc. reflexivity. }
        apply reset_real; [| |apply Gn|exact Gn].
        { apply configured_params; [|exact C1]. apply (params_run _ _ _ _ R). now apply params_reset. }
        { cbn [configured ph_launch]. destruct (w_launch _ _ T) as (x & y & z & -> & _). eexists; reflexivity. }
      * apply (RG (cs ++ [c])); [exact Bn|]. exists rest. rewrite <- app_assoc. reflexivity.
      * cbn [map sim_loop]. rewrite !phase_new_configured.
        destruct (run fuel (reset (configured q c))) as [h1 st1], (run fuel (reset (configured q' (mirror_config c)))) as [h1' st1'].
        cbn [fst snd] in *.
        destruct st1 as [q1|e1|q1], st1' as [q1'|e1'|q1']; cbn [mirrored_phases] in T1; try contradiction;
          try (cbn [fst snd]; split; [constructor; [reflexivity|now apply mirrored_records]|];
               first [exact T1|exact (w_state _ _ T1)]).
        destruct (sim_loop fuel (S (S i)) (Some q1) q1 rest) as [ev s1], (sim_loop fuel (S (S i)) (Some q1') q1' (map mirror_config rest)) as [ev' s1'].
        cbn [fst snd] in *. split; [|exact J2]. constructor; [reflexivity|]. apply Forall2_app; [now apply mirrored_records|exact J1].
Qed.


Lemma mirrored_default : forall m, mirrored (set_mass (@default_state N) m) (set_mass default_state m).
Proof.
  intros m. constructor; try reflexivity; symmetry; first [exact below_zero|exact left_right_zero|exact mirror_angles_zero].
Qed.
Lemma mirrored_site : forall (s s' : State N) r v, mirrored s s' ->
  mirrored (set_velocity (set_position s r) v) (set_velocity (set_position s' (below r)) (below v)).
Proof. intros s s' r v []. constructor; try assumption; reflexivity. Qed.
Lemma default_mirror_twins : forall c : PhaseConfig N,
  ph_vehicle (configured default_phase (mirror_config c)) = mirror_vehicle (ph_vehicle (configured default_phase c)) /\
  ph_steering (configured default_phase (mirror_config c)) = mirror_steering (ph_steering (configured default_phase c)) /\
  ph_atmosphere (configured default_phase (mirror_config c)) = mkAtmosphere (below (at_wind (ph_atmosphere (configured default_phase c)))) (at_model (ph_atmosphere (configured default_phase c))) /\
  ph_planet (configured default_phase (mirror_config c)) = mirror_planet (ph_planet (configured default_phase c)) /\
  mirrored (ph_state (configured default_phase c)) (ph_state (configured default_phase (mirror_config c))).
Proof.
  intros c.
  assert (D : mirror_twins (set_ph_launch (@default_phase N) (finv (V3 0 0 0))) (set_ph_launch (@default_phase N) (finv (V3 (- 0) 0 (PI - 0))))).
  { constructor; try reflexivity.
    - unfold default_phase, default_steering, mirror_steering, opposite_axis, default_axis. cbn [set_ph_launch ph_steering sg_roll sg_yaw sg_pitch ax_var ax_c0 ax_c].
      unfold vneg, vzero. cbn [vx vy vz n_neg XR]. change (@n_lit (XR rot) 0 0) with (Fin 0). rewrite xneg_0. reflexivity.
    - cbn [set_ph_launch ph_atmosphere default_phase]. unfold default_atmosphere. cbn [at_wind at_model]. rewrite below_zero. reflexivity.
    - exact (planet_of_mirror Spherical).
    - eexists 0, 0, 0. split; reflexivity.
    - cbn [set_ph_launch ph_state default_phase]. 
      constructor; try reflexivity; symmetry; first [exact below_zero|exact left_right_zero|exact mirror_angles_zero]. }
  apply (mirror_twins_configured _ _ c) in D. destruct D as [D1 D2 D3 D4 _ _ _ _ _ _ _ D12].
  split; [exact D1|]. split; [exact D2|]. split; [exact D3|]. split; [exact D4|exact D12].
Qed.
Lemma tan_neg' : forall a, tan (- a) = - tan a.
Proof. intros a. unfold tan. rewrite sin_neg, cos_neg. unfold Rdiv. ring. Qed.
Lemma first_mirror_twins : forall (c : PhaseConfig N) i, pc_init c = Some i -> real_config c ->
  mirror_twins (phase_init (configured default_phase c) i) (phase_init (configured default_phase (mirror_config c)) (mirror_site i)).
Proof.
  intros c i Ei Hc.
  assert (PP := configured_params _ c default_params Hc).
  destruct (pp_planet _ PP) as (Re & Rp & mu0 & J2 & J3 & J4 & w & HP & P1 & P2).
  assert (HI := rc_init _ Hc). rewrite Ei in HI. destruct HI as (lat & long & az & alt & -> & Hlat).
  change (mirror_site (mkInitConfig (N := N) (Fin lat) (Fin long) (Fin az) (Fin alt)))
    with (mkInitConfig (N := N) (Fin (- lat)) (Fin long) (Fin (180 - az)) (Fin alt)).
  destruct (default_mirror_twins c) as (D1 & D2 & D3 & D4 & D5).
  assert (M6 : ph_max_acceleration (configured default_phase (mirror_config c)) = ph_max_acceleration (configured default_phase c)) by reflexivity.
  assert (M7 : ph_stepsize (configured default_phase (mirror_config c)) = ph_stepsize (configured default_phase c)) by reflexivity.
  assert (M8 : ph_base_stepsize (configured default_phase (mirror_config c)) = ph_base_stepsize (configured default_phase c)) by reflexivity.
  assert (M9 : ph_end_criterion (configured default_phase (mirror_config c)) = ph_end_criterion (configured default_phase c)) by reflexivity.
  assert (M10 : ph_end_criterion_tries (configured default_phase (mirror_config c)) = ph_end_criterion_tries (configured default_phase c)) by reflexivity.
  assert (M11 : ph_ended (configured default_phase (mirror_config c)) = ph_ended (configured default_phase c)) by reflexivity.
  set (q := configured default_phase c) in *. set (q' := configured default_phase (mirror_config c)) in *. clearbody q q'.
  assert (HR : radii (ph_planet q) Re Rp) by (rewrite HP; repeat split; assumption).
  assert (Hw : pl_rotation_rate (ph_planet q) = Fin w) by (rewrite HP; reflexivity).
  assert (HR' : radii (ph_planet q') Re Rp) by (rewrite D4; exact HR).
  assert (Hw' : pl_rotation_rate (ph_planet q') = Fin w) by (rewrite D4; exact Hw).
  destruct (phase_init_fin q Re Rp w lat long az (Fin alt) HR Hw Hlat) as (F1 & F2 & F3).
  destruct (phase_init_fin q' Re Rp w (- lat) long (180 - az) (Fin alt) HR' Hw' ltac:(lra)) as (G1 & G2 & G3).
  assert (E1 : deg (- lat) = - deg lat) by (unfold deg; field).
  assert (E2 : deg (180 - az) = PI - deg az) by (unfold deg; field).
  rewrite E1, tan_neg', Ropp_mult_distr_r_reverse, atan_opp in G1, G2, G3. rewrite E2 in G3.
  set (g := atan _) in *.
  rewrite (cos_neg g), (sin_neg g) in G1. rewrite (cos_neg g), (sin_neg g) in G2.
  replace (- sin g * - sin g) with (sin g * sin g) in G1, G2 by ring.
  set (dd := Re / sqrt _) in *. set (r := scaleR dd (V3 (cos g * cos (deg long)) (cos g * sin (deg long)) (sin g))) in *.
  assert (TP : scaleR dd (V3 (cos g * cos (deg long)) (cos g * sin (deg long)) (- sin g)) = flip r).
  { unfold r, flip, scaleR. cbn [vx vy vz]. f_equal; ring. }
  rewrite TP in G1, G2.
  assert (TV : crossR (V3 0 0 w) (flip r) = flip (crossR (V3 0 0 w) r)).
  { unfold flip, crossR. cbn [vx vy vz]. f_equal; ring. }
  rewrite TV in G2.
  destruct (phase_init_state q (mkInitConfig (N := N) (Fin lat) (Fin long) (Fin az) (Fin alt))) as (x & v & E).
  destruct (phase_init_state q' (mkInitConfig (N := N) (Fin (- lat)) (Fin long) (Fin (180 - az)) (Fin alt))) as (x' & v' & E').
  constructor; try assumption.
  - eexists _, _, _. split; [exact F3|exact G3].
  - rewrite E in F1, F2. rewrite E' in G1, G2. rewrite E, E'.
    change (x = finv r) in F1. change (x' = below (finv r)) in G1.
    change (v = finv (crossR (V3 0 0 w) r)) in F2. change (v' = below (finv (crossR (V3 0 0 w) r))) in G2.
    rewrite F1, F2, G1, G2. apply mirrored_site. exact D5.
Qed.

(** ** C64 *)
(** The equations of motion, with engines, aerodynamic forces and an acceleration limit: of two mirrored
    phases at mirrored states, both abort for the same reason or both give mirrored derived quantities. *)
Theorem C64_evaluation : rot_contract rot -> forall (p p' : Phase N) (s s' : State N),
  mirror_twins p p' -> even_phase p -> real_phase p -> real_input s -> ~ singular p s -> mirrored s s' ->
  match system p s, system p' s' with
  | Ret d, Ret d' => mirrored d d'
  | Panic e, Panic e' => e = e'
  | _, _ => False
  end.
Proof. exact system_mirrored. Qed.
(** The mirror image of a mission writes the mirror image of its output, and ends in the same way. *)
Theorem C64_mirror : rot_contract rot -> forall fuel (cs : list (PhaseConfig N)) ev st,
  Forall real_config cs -> Forall no_hemisphere cs ->
  (forall cs1 cs2 p, cs = cs1 ++ cs2 -> begins cs1 p -> regular p) ->
  simulate fuel cs = (ev, st) ->
  exists ev' st', simulate fuel (map mirror_config cs) = (ev', st') /\
    Forall2 mirrored_event ev ev' /\ mirrored_status st st'.
Proof.
  intros Hrot fuel cs ev st RC NL RG H.
  destruct cs as [|c rest].
  { cbn [map]. unfold simulate in *. cbn [sim_loop] in *. injection H as <- <-. eexists _, _. split; [reflexivity|].
    split; [constructor|]. cbn [mirrored_status default_phase ph_state].
    constructor; try reflexivity; symmetry; first [exact below_zero|exact left_right_zero|exact mirror_angles_zero]. }
  inversion RC as [|? ? C1 C2]; subst. inversion NL as [|? ? L1 L2]; subst.
  unfold simulate in *. cbn [map sim_loop] in *. rewrite phase_new_configured in H |- *.
  change (pc_init (mirror_config c)) with (option_map mirror_site (pc_init c)).
  destruct (pc_init c) as [i|] eqn:Ei.
  2: { cbn [option_map]. injection H as <- <-.
       eexists _, _. split; [reflexivity|]. split; [constructor; [reflexivity|constructor]|reflexivity]. }
  cbn [option_map].
  assert (W := first_mirror_twins c i Ei C1).
  assert (B : begins [c] (reset (phase_init (configured default_phase c) i))).
  { apply begins_first. rewrite phase_new_configured, Ei. reflexivity. }
  assert (X : even_phase (phase_init (configured default_phase c) i)).
  { destruct (even_configured _ _ even_default L1). constructor; assumption. }
  assert (PP : real_params (phase_init (configured default_phase c) i)).
  { destruct (configured_params _ c default_params C1). constructor; assumption. }
  revert H W B X PP. generalize (phase_init (configured default_phase (mirror_config c)) (mirror_site i)).
  generalize (phase_init (configured default_phase c) i). intros p p' H W B X PP.
  assert (G : regular (reset p)) by (apply (RG [c] rest); [reflexivity|exact B]).
  destruct (begun_mirrored Hrot fuel 1 p p' rest [c] B W X PP G C2 L2) as [J1 J2].
  { intros cs1 q B1 (cs2 & E). exact (RG cs1 cs2 q E B1). }
  destruct (run_mirrored Hrot fuel (reset p) (reset p')) as [A T]; [now apply mirror_twins_reset|now apply even_reset| |exact G|].
  { apply reset_real; [exact PP| |apply G|exact G]. destruct (w_launch _ _ W) as (x & y & z & -> & _). eexists; reflexivity. }
  destruct (run fuel (reset p)) as [h1 st1], (run fuel (reset p')) as [h1' st1'].
  cbn [fst snd] in *.
  destruct st1 as [q1|e1|q1], st1' as [q1'|e1'|q1']; cbn [mirrored_phases] in T; try contradiction;
    try (injection H as <- <-; eexists _, _; split; [reflexivity|]; split; [constructor; [reflexivity|now apply mirrored_records]|];
         first [exact T|exact (w_state _ _ T)]).
  destruct (sim_loop fuel 2 (Some q1) q1 rest) as [ev2 s2], (sim_loop fuel 2 (Some q1') q1' (map mirror_config rest)) as [ev2' s2'].
  cbn [fst snd] in *. injection H as <- <-.
  eexists _, _. split; [reflexivity|]. split; [|exact J2]. constructor; [reflexivity|].
  apply Forall2_app; [now apply mirrored_records|exact J1].
Qed.
End Exact.
