(** * Computation rules of the exact instance *)
From Coq Require Import ZArith List Reals Lra Lia Bool.
From Verif Require Import Num XR SpecReal.
Import ListNotations.
Local Open Scope R_scope.

Arguments xadd !a !b.
Arguments xsub !a !b.
Arguments xmul !a !b.
Arguments xltb !a !b.
Arguments xeqb !a !b.

Lemma Rltb_true : forall a b, a < b -> Rltb a b = true.
Proof. intros a b H. unfold Rltb. destruct (Rlt_dec a b); try reflexivity; contradiction. Qed.
Lemma Rltb_false : forall a b, b <= a -> Rltb a b = false.
Proof. intros a b H. unfold Rltb. destruct (Rlt_dec a b); try reflexivity; lra. Qed.
Lemma Rltb_iff : forall a b, Rltb a b = true <-> a < b.
Proof. intros a b. unfold Rltb. destruct (Rlt_dec a b); split; auto; discriminate. Qed.
Lemma Rltb_iff_false : forall a b, Rltb a b = false <-> b <= a.
Proof. intros a b. unfold Rltb. destruct (Rlt_dec a b); split; intros; try reflexivity; try discriminate; try lra. Qed.
Lemma Reqb_true : forall a b, a = b -> Reqb a b = true.
Proof. intros a b H. unfold Reqb. destruct (Req_EM_T a b); try reflexivity; contradiction. Qed.
Lemma Reqb_false : forall a b, a <> b -> Reqb a b = false.
Proof. intros a b H. unfold Reqb. destruct (Req_EM_T a b); try reflexivity; contradiction. Qed.
Lemma Reqb_iff : forall a b, Reqb a b = true <-> a = b.
Proof. intros a b. unfold Reqb. destruct (Req_EM_T a b); split; auto; discriminate. Qed.
Lemma Reqb_iff_false : forall a b, Reqb a b = false <-> a <> b.
Proof. intros a b. unfold Reqb. destruct (Req_EM_T a b); split; intros; try reflexivity; try discriminate; congruence. Qed.

Lemma xdiv_fin : forall a b, b <> 0 -> xdiv (Fin a) (Fin b) = Fin (a / b).
Proof. intros a b H. unfold xdiv. now rewrite Reqb_false. Qed.
Lemma xsqrt_fin : forall a, 0 <= a -> xsqrt (Fin a) = Fin (sqrt a).
Proof. intros a H. unfold xsqrt. now rewrite Rltb_false. Qed.
Lemma xfun1_fin : forall f a, -1 <= a <= 1 -> xfun1 f (Fin a) = Fin (f a).
Proof. intros f a H. unfold xfun1. rewrite !Rltb_false by lra. reflexivity. Qed.
Lemma xtan_fin : forall a, cos a <> 0 -> xtan (Fin a) = Fin (tan a).
Proof. intros a H. unfold xtan. now rewrite Reqb_false. Qed.
Lemma xpowf_fin : forall a b, 0 < a -> xpowf (Fin a) (Fin b) = Fin (Rpower a b).
Proof. intros a b H. unfold xpowf. now rewrite Rltb_true. Qed.

(** Literals. *)
Ltac lit_norm :=
  repeat match goal with
  | |- context [xlit ?m ?e] =>
      let z := eval compute in (e =? 0)%Z in
      lazymatch z with
      | true => change (xlit m e) with (Fin (IZR m))
      | false =>
          let p := eval compute in (0 <? e)%Z in
          lazymatch p with
          | true => let d := eval compute in (m * 10 ^ e)%Z in
                    change (xlit m e) with (Fin (IZR d))
          | false => let d := eval compute in (10 ^ (Z.opp e))%Z in
                    change (xlit m e) with (Fin (IZR m / IZR d))
          end
      end
  end.

(** Unfold the operations of the exact instance on finite operands. *)
Ltac xrs :=
  repeat (progress (cbn [carrier n_add n_sub n_mul n_div n_neg n_abs n_sqrt n_signum n_ltb n_eqb
       n_isnan n_lit n_nan n_inf n_pi n_sin n_cos n_tan n_asin n_acos n_atan n_exp n_powf n_rot
       XR xadd xsub xmul xneg xabs xfun xatan xexp xltb xeqb xisnan
       vx vy vz row0 row1 row2 fst snd finv finm
       powi powi_loop Pos.of_nat Pos.succ]; lit_norm)).

(** Split an equation between finite vectors or matrices into real equations. *)
Ltac fin_eq :=
  repeat match goal with
  | |- M3 _ _ _ = M3 _ _ _ => f_equal
  | |- V3 _ _ _ = V3 _ _ _ => f_equal
  | |- Fin _ = Fin _ => f_equal
  | |- @eq (carrier _) (Fin _) (Fin _) => apply f_equal
  end.

Section Vec.
Context {rot : mat3 xr -> mat3 xr}.
Notation N := (XR rot).

Lemma vadd_fin : forall a b, vadd (N := N) (finv a) (finv b) = finv (addR a b).
Proof. reflexivity. Qed.
Lemma vsub_fin : forall a b, vsub (N := N) (finv a) (finv b) = finv (subR a b).
Proof. reflexivity. Qed.
Lemma vscale_fin : forall k a, vscale (N := N) (Fin k) (finv a) = finv (scaleR k a).
Proof. reflexivity. Qed.
Lemma vdot_fin : forall a b, vdot (N := N) (finv a) (finv b) = Fin (dotR a b).
Proof. reflexivity. Qed.
Lemma vcross_fin : forall a b, vcross (N := N) (finv a) (finv b) = finv (crossR a b).
Proof. reflexivity. Qed.
Lemma vzero_fin : vzero (N := N) = finv zeroR.
Proof. reflexivity. Qed.
Lemma mulv_fin : forall m v, mulv (N := N) (finm m) (finv v) = finv (mulvR m v).
Proof. reflexivity. Qed.
Lemma transpose_fin : forall m, transpose (N := N) (finm m) = finm (transposeR m).
Proof. reflexivity. Qed.
Lemma dotR_comm : forall a b, dotR a b = dotR b a.
Proof. intros. unfold dotR. ring. Qed.
Lemma mulm_fin : forall a b, mulm (N := N) (finm a) (finm b) = finm (mulmR a b).
Proof.
  intros [a0 a1 a2] [b0 b1 b2]. unfold mulm, mulmR, finm, transpose. cbn [row0 row1 row2].
  unfold mulvR, finv. cbn [row0 row1 row2 vx vy vz transposeR].
  unfold vdot, dotR. xrs. fin_eq; ring.
Qed.
Lemma dotR_self_ge0 : forall a, 0 <= dotR a a.
Proof. intros a. unfold dotR. nra. Qed.
Lemma norm_fin : forall a, norm (N := N) (finv a) = Fin (normR a).
Proof.
  intros a. unfold norm, norm_squared. rewrite vdot_fin. xrs.
  rewrite Rplus_0_l. rewrite xsqrt_fin; [reflexivity|]. apply dotR_self_ge0.
Qed.
End Vec.

Lemma normR_ge0 : forall a, 0 <= normR a.
Proof. intros. apply sqrt_pos. Qed.
Lemma normR_sq : forall a, normR a * normR a = dotR a a.
Proof. intros. apply sqrt_sqrt. apply dotR_self_ge0. Qed.
Lemma normR_0 : forall a, normR a = 0 -> a = zeroR.
Proof.
  intros [x y z] H. assert (H2 := normR_sq (V3 x y z)). rewrite H in H2.
  unfold dotR in H2. cbn in H2. unfold zeroR. f_equal; nra.
Qed.
Lemma normR_zeroR : normR zeroR = 0.
Proof. unfold normR, dotR. cbn. replace (0*0+0*0+0*0) with 0 by ring. apply sqrt_0. Qed.
Lemma normR_pos : forall a, a <> zeroR -> 0 < normR a.
Proof.
  intros a H. destruct (normR_ge0 a) as [H'|H']; auto.
  exfalso. apply H. apply normR_0. auto.
Qed.
Lemma normR_scale : forall k a, normR (scaleR k a) = Rabs k * normR a.
Proof.
  intros k a. unfold normR.
  replace (dotR (scaleR k a) (scaleR k a)) with ((k * k) * dotR a a)
    by (unfold dotR, scaleR; cbn; ring).
  rewrite sqrt_mult; [|nra|apply dotR_self_ge0]. f_equal.
  change (k * k) with (Rsqr k). apply sqrt_Rsqr_abs.
Qed.
