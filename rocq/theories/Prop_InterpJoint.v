(** * C20: the interpolated value is jointly continuous in all table arguments *)
From Coq Require Import ZArith Arith Reals Lra Lia Bool.
From Coquelicot Require Import Coquelicot.
From Coq Require Import List.
From Verif Require Import Num State Tables TablesFacts Prop_Tables XR XRFacts Prop_Interp.
Import ListNotations.
Local Open Scope R_scope.

(** Gluing: a function that is locally one of two continuous functions with the
    same value at the point is continuous there. *)
Lemma continuous_glue : forall (U : UniformSpace) (c : U -> bool) (f g h : U -> R) u,
  continuous f u -> continuous g u -> f u = g u ->
  (forall t, h t = if c t then f t else g t) -> continuous h u.
Proof.
  intros U c f g h u Hf Hg Heq Hh.
  assert (Hu : h u = f u) by (rewrite Hh; destruct (c u); auto).
  intros P HP. rewrite Hu in HP. unfold filtermap.
  assert (H1 := Hf P HP). rewrite Heq in HP. assert (H2 := Hg P HP). unfold filtermap in *.
  destruct H1 as [e1 H1]. destruct H2 as [e2 H2].
  exists (mkposreal (Rmin e1 e2) (Rmin_stable_in_posreal e1 e2)).
  intros t Ht. rewrite Hh. destruct (c t).
  - apply H1. apply (ball_le u (Rmin e1 e2)); [apply Rmin_l|exact Ht].
  - apply H2. apply (ball_le u (Rmin e1 e2)); [apply Rmin_r|exact Ht].
Qed.

Lemma continuous_local : forall (U : UniformSpace) (f h : U -> R) u,
  locally u (fun t => f t = h t) -> continuous f u -> continuous h u.
Proof. intros U f h u Hl Hf. apply (continuous_ext_loc h f u); [|exact Hf];
  revert Hl; apply filter_imp; auto. Qed.

Lemma locally_lt : forall (U : UniformSpace) (g : U -> R) u b, continuous g u -> g u < b ->
  locally u (fun t => g t < b).
Proof.
  intros U g u b Hg Hb. apply (Hg (fun y => y < b)). apply open_lt. exact Hb.
Qed.
Lemma locally_gt : forall (U : UniformSpace) (g : U -> R) u b, continuous g u -> b < g u ->
  locally u (fun t => b < g t).
Proof.
  intros U g u b Hg Hb. apply (Hg (fun y => b < y)). apply open_gt. exact Hb.
Qed.

(** Piecewise linear interpolation is jointly continuous in the argument and in
    the data. *)
Lemma line_joint : forall (U : UniformSpace) x0 x1 (f0 f1 g : U -> R) u,
  continuous f0 u -> continuous f1 u -> continuous g u ->
  continuous (fun t => line (x0, f0 t) (x1, f1 t) (g t)) u.
Proof.
  intros U x0 x1 f0 f1 g u H0 H1 Hg. unfold line. cbn [fst snd].
  assert (Hk : forall k : R, continuous (fun _ : U => k) u) by (intros; apply continuous_const).
  apply (continuous_plus (fun t => f0 t * ((x1 - g t) / (x1 - x0)))
                         (fun t => f1 t * ((g t - x0) / (x1 - x0)))).
  - apply (continuous_mult f0 (fun t => (x1 - g t) / (x1 - x0))); [exact H0|].
    apply (continuous_mult (fun t => x1 - g t) (fun _ => / (x1 - x0))); [|apply Hk].
    apply (continuous_minus (fun _ => x1) g); [apply Hk|exact Hg].
  - apply (continuous_mult f1 (fun t => (g t - x0) / (x1 - x0))); [exact H1|].
    apply (continuous_mult (fun t => g t - x0) (fun _ => / (x1 - x0))); [|apply Hk].
    apply (continuous_minus g (fun _ => x0)); [exact Hg|apply Hk].
Qed.

Lemma pl_joint : forall (U : UniformSpace) (u : U) (g : U -> R), continuous g u ->
  forall xs (fs : list (U -> R)), length fs = length xs -> sortedR xs ->
  (forall f, In f fs -> continuous f u) ->
  continuous (fun t => pl (combine xs (map (fun f => f t) fs)) (g t)) u.
Proof.
  intros U u g Hg. induction xs as [|x0 xs IH]; intros fs Hlen Hs Hf.
  { apply continuous_const. }
  destruct fs as [|f0 fs]; [discriminate|]. injection Hlen as Hlen.
  destruct xs as [|x1 xs].
  { destruct fs; [|discriminate]. cbn [map combine pl snd]. apply Hf. left. reflexivity. }
  destruct fs as [|f1 fs]; [discriminate|].
  assert (H01 : x0 < x1) by (apply (Hs 0%nat); reflexivity).
  assert (C0 : continuous f0 u) by (apply Hf; left; reflexivity).
  assert (C1 : continuous f1 u) by (apply Hf; right; left; reflexivity).
  assert (Hs' := sortedR_tail _ _ Hs).
  destruct xs as [|x2 xs].
  { destruct fs; [|discriminate]. cbn [map combine pl]. apply line_joint; auto. }
  destruct fs as [|f2 fs]; [discriminate|].
  assert (IH' := IH (f1 :: f2 :: fs) Hlen Hs' (fun f H => Hf f (or_intror H))).
  assert (Hl : continuous (fun t => line (x0, f0 t) (x1, f1 t) (g t)) u)
    by (apply line_joint; auto).
  assert (Heq : forall t,
    pl (combine (x0 :: x1 :: x2 :: xs) (map (fun f => f t) (f0 :: f1 :: f2 :: fs))) (g t)
    = if Rle_dec (g t) x1 then line (x0, f0 t) (x1, f1 t) (g t)
      else pl (combine (x1 :: x2 :: xs) (map (fun f => f t) (f1 :: f2 :: fs))) (g t))
    by reflexivity.
  destruct (Rtotal_order (g u) x1) as [Hlt|[He|Hgt]].
  - refine (continuous_local U _ _ u _ Hl). generalize (locally_lt U g u x1 Hg Hlt).
    apply filter_imp. intros t Ht. rewrite Heq. destruct (Rle_dec (g t) x1); [reflexivity|lra].
  - apply (continuous_glue U (fun t => if Rle_dec (g t) x1 then true else false) _ _ _ u Hl IH').
    + rewrite He. rewrite (pl_node _ _ 0 x1 (f1 u)); auto.
      * apply (line_at1 (x0, f0 u) (x1, f1 u)). exact H01.
      * rewrite map_length. exact Hlen.
    + intros t. rewrite Heq. destruct (Rle_dec (g t) x1); reflexivity.
  - refine (continuous_local U _ _ u _ IH'). generalize (locally_gt U g u x1 Hg Hgt).
    apply filter_imp. intros t Ht. rewrite Heq. destruct (Rle_dec (g t) x1); [lra|reflexivity].
Qed.

Lemma pl2_joint : forall (U : UniformSpace) (u : U) (g k : U -> R), continuous g u -> continuous k u ->
  forall xs ys rows, length rows = length xs -> sortedR xs ->
  (forall row, In row rows -> sortedR ys /\ length row = length ys) ->
  continuous (fun t => pl2 xs ys rows (g t) (k t)) u.
Proof.
  intros U u g k Hg Hk xs ys rows Hlen Hs Hr. unfold pl2.
  apply (continuous_ext (fun t => pl (combine xs (map (fun f => f t)
           (map (fun row t => pl (combine ys row) (k t)) rows))) (g t))).
  { intros t. rewrite map_map. reflexivity. }
  apply pl_joint; auto.
  - now rewrite map_length.
  - intros f Hf. apply in_map_iff in Hf. destruct Hf as [row [<- Hrow]].
    destruct (Hr row Hrow) as [H1 H2].
    apply (continuous_comp k (pl (combine ys row))); [exact Hk|].
    now apply pl_continuous.
Qed.

Section Code.
Variable rot : mat3 xr -> mat3 xr.
Notation N := (XR rot).
Notation rt2 := (rt2 (rot := rot)).
Notation rt3 := (rt3 (rot := rot)).

(** C20: the value of a 2D table is jointly continuous in its two arguments. *)
Theorem C20_joint_continuity2 : forall v w xs ys rows, accepted (rt2 v w xs ys rows) ->
  rows <> [] -> ys <> [] ->
  exists g : R * R -> R, (forall p, continuous g p) /\
    forall (s : State N) x y, get_value v s = Fin x -> get_value w s = Fin y ->
      at_state (rt2 v w xs ys rows) s = Ret (Fin (g (x, y))).
Proof.
  intros v w xs ys rows Ha Hne Hney.
  exists (fun p => pl2 xs ys rows (fst p) (snd p)). split.
  2: { intros s x y Hx Hy. cbn [fst snd]. now apply C20_bilinear. }
  intros p. apply rt2_wf in Ha. destruct Ha as [Hs [Hlen Hr]].
  apply (pl2_joint (prod_UniformSpace R_UniformSpace R_UniformSpace) p); auto.
  - apply (continuous_fst (U := R_UniformSpace) (V := R_UniformSpace)).
  - apply (continuous_snd (U := R_UniformSpace) (V := R_UniformSpace)).
Qed.

(** C20: the value of a 3D table is jointly continuous in its three arguments. *)
Theorem C20_joint_continuity3 : forall v w k xs ys zs cube, accepted (rt3 v w k xs ys zs cube) ->
  cube <> [] -> ys <> [] -> zs <> [] ->
  exists g : R * (R * R) -> R, (forall p, continuous g p) /\
    forall (s : State N) x y z, get_value v s = Fin x -> get_value w s = Fin y ->
      get_value k s = Fin z ->
      at_state (rt3 v w k xs ys zs cube) s = Ret (Fin (g (x, (y, z)))).
Proof.
  intros v w k xs ys zs cube Ha Hne Hney Hnez.
  exists (fun p => pl3 xs ys zs cube (fst p) (fst (snd p)) (snd (snd p))). split.
  2: { intros s x y z Hx Hy Hz. cbn [fst snd]. now apply C20_trilinear. }
  intros p. apply rt3_wf in Ha. destruct Ha as [Hs [Hlen Hr]].
  set (V := prod_UniformSpace R_UniformSpace R_UniformSpace).
  set (U := prod_UniformSpace R_UniformSpace V).
  assert (C1 : continuous (fun q : U => fst q) p)
    by (apply (continuous_fst (U := R_UniformSpace) (V := V))).
  assert (C2 : continuous (fun q : U => fst (snd q)) p).
  { apply (continuous_comp (U := U) (V := V) (W := R_UniformSpace) (fun q : U => snd q) (fun q : V => fst q)).
    - apply (continuous_snd (U := R_UniformSpace) (V := V)).
    - apply (continuous_fst (U := R_UniformSpace) (V := R_UniformSpace)). }
  assert (C3 : continuous (fun q : U => snd (snd q)) p).
  { apply (continuous_comp (U := U) (V := V) (W := R_UniformSpace) (fun q : U => snd q) (fun q : V => snd q)).
    - apply (continuous_snd (U := R_UniformSpace) (V := V)).
    - apply (continuous_snd (U := R_UniformSpace) (V := R_UniformSpace)). }
  unfold pl3.
  apply (continuous_ext (fun t : U => pl (combine xs (map (fun f => f t)
           (map (fun rows (t : U) => pl2 ys zs rows (fst (snd t)) (snd (snd t))) cube))) (fst t))).
  { intros t. rewrite map_map. reflexivity. }
  apply (pl_joint U p); auto.
  - now rewrite map_length.
  - intros f Hf. apply in_map_iff in Hf. destruct Hf as [rows [<- Hrows]].
    destruct (Hr rows Hrows) as [H1 [H2 H3]]. apply pl2_joint; auto.
Qed.

End Code.

(** The hypotheses are met by a 2x2x2 table. *)
Example joint3_nonvacuous : forall rot,
  accepted (rt3 (rot := rot) MachNumber Alpha Altitude [0; 1] [0; 2] [0; 3]
              [[[1; 2]; [3; 4]]; [[5; 6]; [7; 9]]]).
Proof.
  intros rot. apply rt3_wf.
  assert (S : forall a b, a < b -> sortedR [a; b]).
  { intros a b H [|[|i]] c d Hc Hd; cbn in Hc, Hd; try discriminate; try (destruct i; discriminate).
    congruence. }
  split; [apply S; lra|]. split; [reflexivity|].
  intros rows [<-|[<-|[]]]; (split; [apply S; lra|]; split; [reflexivity|]);
    intros row [<-|[<-|[]]]; (split; [apply S; lra|reflexivity]).
Qed.
