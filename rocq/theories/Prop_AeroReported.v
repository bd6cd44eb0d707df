(** * C15, C51 for the reported quantities: the aerodynamic force in terms of the other numbers
    of the same record *)
From Coq Require Import ZArith List Reals Lra Lia Bool.
From Verif Require Import Num Constants State Tables Config Planet Atmosphere Transformations
  Steering Vehicle RungeKutta Phase Simulation XR XRFacts SpecReal SystemFacts RKFacts RunFacts PhaseNew
  Prop_Run SystemTotal Prop_Aero Prop_Atmosphere Prop_Steering.
Import ListNotations.
Local Open Scope R_scope.

(** For all arithmetics: if no aerodynamic table depends on a quantity computed later in the same
    evaluation (forces, accelerations, throttle), the reported force is the one of the reported
    state: coefficients, dynamic pressure and angle of attack are all of the same instant. *)
Theorem C15_same_instant : forall (N : Num) (cs : list (PhaseConfig N)) (p : Phase N) s, reported cs p s ->
  (forall v, In v (vehicle_variables (ph_vehicle p)) -> late_aero v = false) ->
  aero_force (ph_vehicle p) s = Ret (st_aero_force_body s).
Proof.
  intros N cs p s H Hv. destruct (C37_reported cs p s H) as [s0 E].
  assert (G : forall v, late_aero v = false -> get_value v s = get_value v (before_aero s0 s)).
  { intros v Hl. destruct v; try discriminate Hl; reflexivity. }
  rewrite <- (e_aero_force _ _ _ E). unfold aero_force.
  rewrite !(at_state_ext _ s (before_aero s0 s))
    by (intros v Hv'; apply G; apply Hv; unfold vehicle_variables; rewrite !in_app_iff; auto).
  reflexivity.
Qed.

Section Exact.
Context {rot : mat3 xr -> mat3 xr}.
Notation N := (XR rot).

(** In exact arithmetic with the standard atmosphere: [q = density * airspeed^2 / 2]; drag [q S CD]
    against the flow direction (cos a, 0, sin a), lift [q S CL] along (sin a, 0, -cos a), side force
    [q S CY] along y, where the coefficients are the values of the vehicle's tables for the record. *)
Theorem C15_reported : forall (cs : list (PhaseConfig N)) (p : Phase N) s h v a S CD CL CY,
  reported cs p s -> at_model (ph_atmosphere p) = StandardAtmosphere1962 ->
  (forall v, In v (vehicle_variables (ph_vehicle p)) -> late_aero v = false) ->
  st_altitude_geopotential s = Fin h -> st_velocity_atmosphere s = finv v -> st_alpha s = Fin a ->
  ve_reference_area (ph_vehicle p) = Fin S ->
  at_state (ve_drag_coeff (ph_vehicle p)) s = Ret (Fin CD) -> at_state (ve_lift_coeff (ph_vehicle p)) s = Ret (Fin CL) ->
  at_state (ve_side_force_coeff (ph_vehicle p)) s = Ret (Fin CY) ->
  exists D f, st_density s = Fin D /\ 0 < D /\ st_aero_force_body s = finv f /\
    let q := D * (normR v * normR v) / 2 in
    let flow := V3 (cos a) 0 (sin a) in
    let up := V3 (sin a) 0 (- cos a) in
    let side := V3 0 1 0 in
    f = addR (addR (scaleR (- (q * S * CD)) flow) (scaleR (q * S * CL) up)) (scaleR (q * S * CY) side).
Proof.
  intros cs p s h v a S CD CL CY H Hm Hv Hh Hv' Ha HS E1 E2 E3.
  destruct (C11_reported cs p s h v H Hm Hh Hv') as (T & P & D & A & _ & _ & ED & _ & _ & PD & _ & _ & _ & _ & EQ).
  destruct (C15_force (ph_vehicle p) s _ S a CD CL CY E1 E2 E3 EQ HS Ha) as (f & F & G).
  cbv zeta in G. destruct G as (_ & _ & _ & G).
  rewrite (C15_same_instant N cs p s H Hv) in F. injection F as F.
  exists D, f. split; [exact ED|]. split; [exact PD|]. split; [exact F|]. exact G.
Qed.
End Exact.
