(** * C19, C20: interpolation is the piecewise (multi)linear interpolant *)
From Coq Require Import ZArith List Arith Reals Lra Lia Bool.
From Coquelicot Require Import Coquelicot.
From Flocq Require Import BinarySingleNaN.
From Verif Require Import Num State Tables TablesFacts Prop_Tables XR XRFacts B64.
Import ListNotations.
Local Open Scope R_scope.

(** ** Specification *)

(** The straight line through two points. *)
Definition line (p0 p1 : R * R) (x : R) : R :=
  snd p0 * ((fst p1 - x) / (fst p1 - fst p0)) + snd p1 * ((x - fst p0) / (fst p1 - fst p0)).

(** The piecewise linear function through a list of points with increasing
    abscissae, prolonged by its first and last segment; constant for one point. *)
Fixpoint pl (pts : list (R * R)) (x : R) : R :=
  match pts with
  | [] => 0
  | p0 :: tl =>
      match tl with
      | [] => snd p0
      | [p1] => line p0 p1 x
      | p1 :: _ => if Rle_dec x (fst p1) then line p0 p1 x else pl tl x
      end
  end.

Definition sortedR (xs : list R) : Prop :=
  forall i a b, nth_error xs i = Some a -> nth_error xs (S i) = Some b -> a < b.

(** Tensor product interpolants of values on a grid. *)
Definition pl2 (xs ys : list R) (rows : list (list R)) (x y : R) : R :=
  pl (combine xs (map (fun row => pl (combine ys row) y) rows)) x.
Definition pl3 (xs ys zs : list R) (cube : list (list (list R))) (x y z : R) : R :=
  pl (combine xs (map (fun rows => pl2 ys zs rows y z) cube)) x.

(** ** Facts about [pl] *)
Lemma sortedR_tail : forall a xs, sortedR (a :: xs) -> sortedR xs.
Proof. intros a xs H i u v H1 H2. exact (H (S i) u v H1 H2). Qed.

Lemma sortedR_lt : forall xs i j a b, sortedR xs -> (i < j)%nat ->
  nth_error xs i = Some a -> nth_error xs j = Some b -> a < b.
Proof.
  intros xs i j a b Hs Hij Ha Hb. revert b Hb.
  induction Hij as [|j Hij IH]; intros b Hb.
  - exact (Hs i a b Ha Hb).
  - destruct (nth_error xs j) as [c|] eqn:Ec.
    + apply Rlt_trans with c; [apply IH; auto|]. exact (Hs j c b Ec Hb).
    + apply nth_error_None in Ec. assert (S j < length xs)%nat by (apply nth_error_Some; congruence). lia.
Qed.

Lemma sortedR_le : forall xs i j a b, sortedR xs -> (i <= j)%nat ->
  nth_error xs i = Some a -> nth_error xs j = Some b -> a <= b.
Proof.
  intros xs i j a b Hs Hij Ha Hb. destruct (Nat.eq_dec i j) as [->|Hn].
  - rewrite Ha in Hb. injection Hb as ->. lra.
  - left. eapply (sortedR_lt xs i j); eauto. lia.
Qed.

(** [pl] on the segment with index [i]. *)
Lemma pl_segment : forall i xs vals x x0 x1 y0 y1,
  length vals = length xs -> sortedR xs ->
  nth_error xs i = Some x0 -> nth_error xs (S i) = Some x1 ->
  nth_error vals i = Some y0 -> nth_error vals (S i) = Some y1 ->
  (i = 0%nat \/ x0 < x) -> (S (S i) = length xs \/ x <= x1) ->
  pl (combine xs vals) x = line (x0, y0) (x1, y1) x.
Proof.
  induction i as [|i IH]; intros xs vals x x0 x1 y0 y1 Hlen Hs Hx0 Hx1 Hy0 Hy1 Hl Hu.
  - destruct xs as [|a [|b xs]]; try discriminate.
    destruct vals as [|c [|d vals]]; try discriminate.
    cbn in Hx0, Hx1, Hy0, Hy1. injection Hx0 as ->. injection Hx1 as ->.
    injection Hy0 as ->. injection Hy1 as ->.
    cbn [combine pl]. destruct xs as [|e xs]; destruct vals as [|f vals]; try discriminate.
    + reflexivity.
    + cbn [combine fst]. destruct (Rle_dec x x1); [reflexivity|].
      destruct Hu as [Hu|Hu]; [cbn in Hu; lia|contradiction].
  - destruct xs as [|a [|b [|e xs]]]; try discriminate; try (destruct i; discriminate).
    destruct vals as [|c [|d [|f vals]]]; try discriminate.
    assert (Hrec : pl (combine (b :: e :: xs) (d :: f :: vals)) x = line (x0, y0) (x1, y1) x).
    { apply IH; auto.
      - now apply sortedR_tail in Hs.
      - destruct Hl as [Hl|Hl]; [discriminate|]. right. exact Hl.
      - destruct Hu as [Hu|Hu]; [left; cbn in *; lia|right; exact Hu]. }
    change (pl (combine (a :: b :: e :: xs) (c :: d :: f :: vals)) x)
      with (if Rle_dec x b then line (a, c) (b, d) x
            else pl (combine (b :: e :: xs) (d :: f :: vals)) x).
    destruct (Rle_dec x b) as [Hxb|]; [|exact Hrec].
    exfalso. destruct Hl as [Hl|Hl]; [discriminate|].
    assert (b <= x0).
    { apply (sortedR_le (a :: b :: e :: xs) 1 (S i)); auto. lia. }
    lra.
Qed.

Lemma line_at0 : forall p0 p1, fst p0 < fst p1 -> line p0 p1 (fst p0) = snd p0.
Proof. intros p0 p1 H. unfold line. field. lra. Qed.
Lemma line_at1 : forall p0 p1, fst p0 < fst p1 -> line p0 p1 (fst p1) = snd p1.
Proof. intros p0 p1 H. unfold line. field. lra. Qed.

(** At the nodes [pl] has the given values. *)
Lemma pl_node : forall xs vals i a v,
  length vals = length xs -> sortedR xs ->
  nth_error xs i = Some a -> nth_error vals i = Some v -> pl (combine xs vals) a = v.
Proof.
  intros xs vals i a v Hlen Hs Ha Hv.
  assert (Hi : (i < length xs)%nat) by (apply nth_error_Some; congruence).
  destruct (Nat.eq_dec (length xs) 1) as [E1|E1].
  - destruct xs as [|x0 [|]]; try discriminate. destruct vals as [|v0 [|]]; try discriminate.
    destruct i as [|i]; [|cbn in Hi; lia]. cbn in *. congruence.
  - destruct i as [|i].
    + destruct (nth_error xs 1) as [x1|] eqn:Ex1; [|apply nth_error_None in Ex1; lia].
      destruct (nth_error vals 1) as [y1|] eqn:Ey1; [|apply nth_error_None in Ey1; lia].
      assert (a < x1) by (apply (Hs 0%nat); auto).
      rewrite (pl_segment 0 xs vals a a x1 v y1); auto; [|right; lra].
      apply (line_at0 (a, v) (x1, y1)). exact H.
    + destruct (nth_error xs i) as [x0|] eqn:Ex0; [|apply nth_error_None in Ex0; lia].
      destruct (nth_error vals i) as [y0|] eqn:Ey0; [|apply nth_error_None in Ey0; lia].
      assert (x0 < a) by (apply (Hs i); auto).
      rewrite (pl_segment i xs vals a x0 a y0 v); auto; [|right; lra].
      apply (line_at1 (x0, y0) (a, v)). exact H.
Qed.

(** A value between two adjacent nodes lies on the chord, hence between the two
    data values. *)
Lemma pl_chord : forall xs vals i x0 x1 y0 y1 x,
  length vals = length xs -> sortedR xs ->
  nth_error xs i = Some x0 -> nth_error xs (S i) = Some x1 ->
  nth_error vals i = Some y0 -> nth_error vals (S i) = Some y1 ->
  x0 <= x <= x1 ->
  pl (combine xs vals) x = line (x0, y0) (x1, y1) x /\
  Rmin y0 y1 <= pl (combine xs vals) x <= Rmax y0 y1.
Proof.
  intros xs vals i x0 x1 y0 y1 x Hlen Hs Hx0 Hx1 Hy0 Hy1 Hx.
  assert (H01 : x0 < x1) by (apply (Hs i); auto).
  assert (Hpl : pl (combine xs vals) x = line (x0, y0) (x1, y1) x).
  { destruct (Req_dec x x0) as [->|Hne].
    - rewrite (pl_node xs vals i x0 y0) by auto. symmetry. apply (line_at0 (x0, y0) (x1, y1)). auto.
    - apply (pl_segment i); auto; right; lra. }
  split; [exact Hpl|]. rewrite Hpl. unfold line. cbn [fst snd].
  set (t := (x - x0) / (x1 - x0)).
  assert (Ht : 0 <= t <= 1).
  { unfold t. split.
    - apply Rle_div_r; lra.
    - apply Rle_div_l; lra. }
  replace ((x1 - x) / (x1 - x0)) with (1 - t) by (unfold t; field; lra).
  unfold Rmin, Rmax. destruct (Rle_dec y0 y1); nra.
Qed.

(** Outside the range the first or last segment is prolonged. *)
Lemma pl_below : forall x0 x1 xs y0 y1 vals x,
  length vals = length xs -> sortedR (x0 :: x1 :: xs) -> x <= x0 ->
  pl (combine (x0 :: x1 :: xs) (y0 :: y1 :: vals)) x = line (x0, y0) (x1, y1) x.
Proof.
  intros x0 x1 xs y0 y1 vals x Hlen Hs Hx.
  assert (x0 < x1) by (apply (Hs 0%nat); reflexivity).
  apply (pl_segment 0); auto; [cbn; congruence|right; lra].
Qed.
Lemma nth_error_tail2 : forall A (xs : list A) a b,
  nth_error (xs ++ [a; b]) (length xs) = Some a /\
  nth_error (xs ++ [a; b]) (S (length xs)) = Some b.
Proof.
  intros A xs a b. induction xs as [|c xs IH]; cbn; auto.
Qed.
Lemma pl_above : forall xs x0 x1 vals y0 y1 x,
  length vals = length xs -> sortedR (xs ++ [x0; x1]) -> x1 <= x ->
  pl (combine (xs ++ [x0; x1]) (vals ++ [y0; y1])) x = line (x0, y0) (x1, y1) x.
Proof.
  intros xs x0 x1 vals y0 y1 x Hlen Hs Hx.
  destruct (nth_error_tail2 _ xs x0 x1) as [H0 H1].
  destruct (nth_error_tail2 _ vals y0 y1) as [G0 G1]. rewrite Hlen in G0, G1.
  assert (x0 < x1) by (apply (Hs (length xs)); auto).
  apply (pl_segment (length xs)); auto.
  - rewrite !app_length. cbn. lia.
  - right. lra.
  - left. rewrite app_length. cbn. lia.
Qed.

(** Some segment is the right one. *)
Lemma segment_exists : forall xs x, (2 <= length xs)%nat -> sortedR xs ->
  exists i x0 x1, nth_error xs i = Some x0 /\ nth_error xs (S i) = Some x1 /\ x0 < x1 /\
    (i = 0%nat \/ x0 < x) /\ (S (S i) = length xs \/ x <= x1).
Proof.
  induction xs as [|a [|b xs] IH]; intros x Hlen Hs; cbn in Hlen; try lia.
  assert (Hab : a < b) by (apply (Hs 0%nat); reflexivity).
  destruct (Rle_dec x b) as [Hx|Hx].
  - exists 0%nat, a, b. cbn. repeat split; auto.
  - destruct xs as [|c xs].
    + exists 0%nat, a, b. cbn. repeat split; auto.
    + destruct (IH x) as (i & x0 & x1 & H1 & H2 & H3 & H4 & H5).
      { cbn. lia. }
      { now apply sortedR_tail in Hs. }
      exists (S i), x0, x1. split; [exact H1|]. split; [exact H2|]. split; [exact H3|]. split.
      * right. destruct H4 as [->|H4]; [|exact H4]. cbn in H1. injection H1 as <-. lra.
      * destruct H5 as [H5|H5]; [left; cbn in *; lia|right; exact H5].
Qed.

(** Affine data are reproduced everywhere. *)
Lemma pl_affine : forall xs a b x, (2 <= length xs)%nat -> sortedR xs ->
  pl (combine xs (map (fun t => a * t + b) xs)) x = a * x + b.
Proof.
  intros xs a b x Hlen Hs.
  destruct (segment_exists xs x Hlen Hs) as (i & x0 & x1 & H1 & H2 & H3 & H4 & H5).
  rewrite (pl_segment i xs _ x x0 x1 (a * x0 + b) (a * x1 + b)); auto.
  - unfold line. cbn [fst snd]. field. lra.
  - apply map_length.
  - rewrite nth_error_map, H1. reflexivity.
  - rewrite nth_error_map, H2. reflexivity.
Qed.

(** The interpolant is continuous. *)
Lemma continuous_ext_line : forall p0 p1 x, fst p0 < fst p1 -> continuous (line p0 p1) x.
Proof.
  intros p0 p1 x H. apply (ex_derive_continuous (line p0 p1) x).
  unfold line. auto_derive. lra.
Qed.
Lemma pl_first : forall x0 x1 xs y0 y1 vals x,
  length vals = length xs -> sortedR (x0 :: x1 :: xs) -> x <= x1 ->
  pl (combine (x0 :: x1 :: xs) (y0 :: y1 :: vals)) x = line (x0, y0) (x1, y1) x.
Proof.
  intros x0 x1 xs y0 y1 vals x Hlen Hs Hx.
  apply (pl_segment 0); auto. cbn; congruence.
Qed.
Lemma pl_continuous : forall xs vals x, length vals = length xs -> sortedR xs ->
  continuous (pl (combine xs vals)) x.
Proof.
  induction xs as [|x0 xs IH]; intros vals x Hlen Hs.
  - apply continuous_const.
  - destruct vals as [|y0 vals]; [discriminate|].
    destruct xs as [|x1 xs].
    { destruct vals; [|discriminate]. apply continuous_const. }
    destruct vals as [|y1 vals]; [discriminate|].
    assert (H01 : x0 < x1) by (apply (Hs 0%nat); reflexivity).
    destruct xs as [|x2 xs].
    { destruct vals; [|discriminate]. apply (continuous_ext_line (x0, y0) (x1, y1)). exact H01. }
    destruct vals as [|y2 vals]; [discriminate|].
    specialize (IH (y1 :: y2 :: vals)).
    assert (Hs' := sortedR_tail _ _ Hs).
    assert (IH' : forall x, continuous (pl (combine (x1 :: x2 :: xs) (y1 :: y2 :: vals))) x)
      by (intros; apply IH; auto).
    clear IH.
    set (g := pl (combine (x1 :: x2 :: xs) (y1 :: y2 :: vals))) in *.
    assert (Heq : forall t, pl (combine (x0 :: x1 :: x2 :: xs) (y0 :: y1 :: y2 :: vals)) t
              = if Rle_dec t x1 then line (x0, y0) (x1, y1) t else g t) by reflexivity.
    assert (Hg : g x1 = y1) by (apply (pl_node _ _ 0); auto).
    assert (Hl : line (x0, y0) (x1, y1) x1 = y1) by (apply (line_at1 (x0, y0) (x1, y1)); auto).
    (* both pieces agree at x1: the function is the sum of the pieces composed with clamping *)
    apply (continuous_ext (fun t => line (x0, y0) (x1, y1) (Rmin t x1) + g (Rmax t x1) - y1)).
    { intros t. rewrite Heq. destruct (Rle_dec t x1).
      - rewrite Rmin_left, Rmax_right by lra. rewrite Hg. lra.
      - rewrite Rmin_right, Rmax_left by lra. rewrite Hl. lra. }
    assert (Hmin : continuous (fun t => Rmin t x1) x).
    { apply (continuous_ext (fun t => (t + x1 - Rabs (t - x1)) / 2)).
      - intros t. unfold Rmin, Rabs. destruct (Rle_dec t x1), (Rcase_abs (t - x1)); lra.
      - unfold Rdiv. apply (continuous_mult (fun t => t + x1 - Rabs (t - x1)) (fun _ => / 2)).
        + apply (continuous_minus (fun t => t + x1) (fun t => Rabs (t - x1))).
          * apply (continuous_plus (fun t => t) (fun _ => x1)); [apply continuous_id|apply continuous_const].
          * apply (continuous_comp (fun t => t - x1) Rabs).
            -- apply (continuous_minus (fun t => t) (fun _ => x1)); [apply continuous_id|apply continuous_const].
            -- apply continuous_Rabs.
        + apply continuous_const. }
    assert (Hmax : continuous (fun t => Rmax t x1) x).
    { apply (continuous_ext (fun t => t + x1 - Rmin t x1)).
      - intros t. unfold Rmin, Rmax. destruct (Rle_dec t x1); cbn; lra.
      - apply (continuous_minus (fun t => t + x1) (fun t => Rmin t x1)); [|exact Hmin].
        apply (continuous_plus (fun t => t) (fun _ => x1)); [apply continuous_id|apply continuous_const]. }
    apply (continuous_minus (fun t => line (x0, y0) (x1, y1) (Rmin t x1) + g (Rmax t x1)) (fun _ => y1));
      [|apply continuous_const].
    apply (continuous_plus (fun t => line (x0, y0) (x1, y1) (Rmin t x1)) (fun t => g (Rmax t x1))).
    + apply (continuous_comp (fun t => Rmin t x1) (line (x0, y0) (x1, y1))); [exact Hmin|].
      apply continuous_ext_line. exact H01.
    + apply (continuous_comp (fun t => Rmax t x1) g); [exact Hmax|]. apply IH'.
Qed.

(** ** The code computes [pl] *)
Section Code.
Context {rot : mat3 xr -> mat3 xr}.
Notation N := (XR rot).
Notation F := (map Fin).
Notation FF := (map (map Fin)).
Notation FFF := (map (map (map Fin))).

Lemma increasing_sortedR : forall xs, increasing (N := N) (F xs) <-> sortedR xs.
Proof.
  intros xs. unfold increasing, sortedR. split.
  - intros H i a b Ha Hb. apply Rltb_iff.
    apply (H i (Fin a) (Fin b)); rewrite nth_error_map; [rewrite Ha|rewrite Hb]; reflexivity.
  - intros H i a b Ha Hb. cbn [carrier N] in *. rewrite nth_error_map in Ha, Hb.
    destruct (nth_error xs i) as [a'|] eqn:Ea; [|discriminate].
    destruct (nth_error xs (S i)) as [b'|] eqn:Eb; [|discriminate].
    injection Ha as <-. injection Hb as <-. apply Rltb_iff. eauto.
Qed.

(** The indices found by the code select the right segment. *)
Lemma get_idx_segment : forall xs x, (2 <= length xs)%nat -> sortedR xs ->
  exists i x0 x1, get_idx (N := N) (F xs) (Fin x) = Ret (i, S i) /\
    nth_error xs i = Some x0 /\ nth_error xs (S i) = Some x1 /\ x0 < x1 /\
    (i = 0%nat \/ x0 < x) /\ (S (S i) = length xs \/ x <= x1).
Proof.
  intros xs x Hlen Hs.
  assert (HlenF : length (F xs) = length xs) by apply map_length.
  destruct (get_idx_ok (N := N) (F xs) (Fin x)) as (i & Hget & Hi & Hp).
  { cbn [carrier N]. lia. }
  destruct (partition_point_spec (N := N) (F xs) (Fin x)) as [Hple [Hlow Hup]].
  cbv zeta in Hp. set (p := partition_point (N := N) (F xs) (Fin x)) in *.
  cbn [carrier N] in *. rewrite HlenF in *.
  destruct (nth_error xs i) as [x0|] eqn:E0; [|apply nth_error_None in E0; lia].
  destruct (nth_error xs (S i)) as [x1|] eqn:E1; [|apply nth_error_None in E1; lia].
  assert (H01 : x0 < x1) by (apply (Hs i); auto).
  exists i, x0, x1. split; [exact Hget|]. split; [exact E0|]. split; [exact E1|].
  split; [exact H01|].
  assert (Hlow' : p = 0%nat \/ exists a, nth_error xs (p - 1) = Some a /\ a < x).
  { destruct Hlow as [Hlow|[a [Ha1 Ha2]]]; auto. right. rewrite nth_error_map in Ha1.
    destruct (nth_error xs (p - 1)) as [a'|]; [|discriminate]. injection Ha1 as <-.
    exists a'. split; auto. apply Rltb_iff. exact Ha2. }
  assert (Hup' : p = length xs \/ exists a, nth_error xs p = Some a /\ x <= a).
  { destruct Hup as [Hup|[a [Ha1 Ha2]]]; auto. right. rewrite nth_error_map in Ha1.
    destruct (nth_error xs p) as [a'|]; [|discriminate]. injection Ha1 as <-.
    exists a'. split; auto. apply Rltb_iff_false. exact Ha2. }
  destruct Hp as [[Hp0 ->]|[[Hpl Hi']|[Hpm Hi']]].
  - split; [left; auto|]. right. destruct Hup' as [Hup'|[a [Ha1 Ha2]]]; [lia|].
    rewrite Hp0 in Ha1. rewrite E0 in Ha1. injection Ha1 as <-. lra.
  - split.
    + right. destruct Hlow' as [Hlow'|[a [Ha1 Ha2]]]; [lia|].
      assert (x0 < a); [|lra]. apply (sortedR_lt xs i (p - 1)); auto. lia.
    + left. lia.
  - split.
    + right. destruct Hlow' as [Hlow'|[a [Ha1 Ha2]]]; [lia|].
      replace (p - 1)%nat with i in Ha1 by lia. congruence.
    + right. destruct Hup' as [Hup'|[a [Ha1 Ha2]]]; [lia|].
      rewrite <- Hi' in Ha1. rewrite E1 in Ha1. injection Ha1 as <-. exact Ha2.
Qed.

Lemma index_F : forall xs i a, nth_error xs i = Some a ->
  index (map Fin xs) i = Ret (Fin a).
Proof. intros xs i a H. apply index_nth. rewrite nth_error_map, H. reflexivity. Qed.

Lemma interp_formula : forall x x0 x1 y0 y1, x0 < x1 ->
  xadd (Fin y0) (xdiv (xmul (xsub (Fin x) (Fin x0)) (xsub (Fin y1) (Fin y0)))
                      (xsub (Fin x1) (Fin x0))) = Fin (line (x0, y0) (x1, y1) x).
Proof.
  intros. cbn [xsub xmul]. rewrite xdiv_fin by lra. cbn [xadd]. f_equal.
  unfold line. cbn [fst snd]. field. lra.
Qed.

Lemma linear_interpolate_pl : forall xs vals x,
  vals <> [] -> length vals = length xs -> sortedR xs ->
  linear_interpolate (N := N) (F xs) (Fin x) (F vals) = Ret (Fin (pl (combine xs vals) x)).
Proof.
  intros xs vals x Hne Hlen Hs. unfold linear_interpolate. rewrite !map_length.
  destruct vals as [|v0 vals]; [contradiction|]. destruct xs as [|u0 xs]; [discriminate|].
  cbn [length Nat.eqb].
  destruct vals as [|v1 vals]; cbn [length Nat.eqb].
  { destruct xs; [|discriminate]. reflexivity. }
  destruct xs as [|u1 xs]; [discriminate|].
  destruct (get_idx_segment (u0 :: u1 :: xs) x) as (i & x0 & x1 & -> & E0 & E1 & H01 & Hl & Hu).
  { cbn; lia. } { exact Hs. }
  assert (Hi : (S i < length (u0 :: u1 :: xs))%nat) by (apply nth_error_Some; congruence).
  destruct (nth_error (v0 :: v1 :: vals) i) as [y0|] eqn:F0; [|apply nth_error_None in F0; lia].
  destruct (nth_error (v0 :: v1 :: vals) (S i)) as [y1|] eqn:F1; [|apply nth_error_None in F1; lia].
  cbn [bind carrier XR]. rewrite (index_F _ _ _ E0), (index_F _ _ _ E1), (index_F _ _ _ F0), (index_F _ _ _ F1).
  cbn [bind]. cbn [n_add n_sub n_mul n_div XR]. rewrite interp_formula by exact H01.
  rewrite (pl_segment i _ _ x x0 x1 y0 y1); auto.
Qed.

Lemma index_FF : forall (rows : list (list R)) i a, nth_error rows i = Some a ->
  index (map (map Fin) rows) i = Ret (map Fin a).
Proof. intros xs i a H. apply index_nth. rewrite nth_error_map, H. reflexivity. Qed.
Lemma index_FFF : forall (rows : list (list (list R))) i a, nth_error rows i = Some a ->
  index (map (map (map Fin)) rows) i = Ret (map (map Fin) a).
Proof. intros xs i a H. apply index_nth. rewrite nth_error_map, H. reflexivity. Qed.

Lemma bilinear_interpolate_pl : forall xs ys rows x y,
  rows <> [] -> ys <> [] -> length rows = length xs -> sortedR xs ->
  (forall row, In row rows -> sortedR ys /\ length row = length ys) ->
  bilinear_interpolate (N := N) (F xs) (Fin x) (F ys) (Fin y) (FF rows)
  = Ret (Fin (pl2 xs ys rows x y)).
Proof.
  intros xs ys rows x y Hne Hney Hlen Hs Hrow.
  assert (Hin : forall i row, nth_error rows i = Some row ->
     linear_interpolate (N := N) (F ys) (Fin y) (F row) = Ret (Fin (pl (combine ys row) y))).
  { intros i row E. apply nth_error_In in E. destruct (Hrow _ E) as [Hsy Hly].
    apply linear_interpolate_pl; auto. intros ->. destruct ys; [contradiction|discriminate]. }
  unfold bilinear_interpolate, pl2. rewrite !map_length.
  destruct rows as [|v0 rows]; [contradiction|]. destruct xs as [|u0 xs]; [discriminate|].
  cbn [length Nat.eqb].
  destruct rows as [|v1 rows]; cbn [length Nat.eqb].
  { destruct xs; [|discriminate]. cbn [map index nth_error bind].
    change (index (map (map Fin) [v0]) 0) with (Ret (map Fin v0)). cbn [bind].
    apply (Hin 0%nat). reflexivity. }
  destruct xs as [|u1 xs]; [discriminate|].
  destruct (get_idx_segment (u0 :: u1 :: xs) x) as (i & x0 & x1 & -> & E0 & E1 & H01 & Hl & Hu).
  { cbn; lia. } { exact Hs. }
  assert (Hi : (S i < length (u0 :: u1 :: xs))%nat) by (apply nth_error_Some; congruence).
  destruct (nth_error (v0 :: v1 :: rows) i) as [r0|] eqn:F0; [|apply nth_error_None in F0; lia].
  destruct (nth_error (v0 :: v1 :: rows) (S i)) as [r1|] eqn:F1; [|apply nth_error_None in F1; lia].
  cbn [bind carrier XR]. rewrite (index_F _ _ _ E0), (index_F _ _ _ E1), (index_FF _ _ _ F0), (index_FF _ _ _ F1).
  cbn [bind]. rewrite (Hin _ _ F0). cbn [bind]. rewrite (Hin _ _ F1). cbn [bind].
  cbn [n_add n_sub n_mul n_div carrier XR]. rewrite interp_formula by exact H01.
  rewrite (pl_segment i _ _ x x0 x1 (pl (combine ys r0) y) (pl (combine ys r1) y)); auto.
  - rewrite map_length. exact Hlen.
  - rewrite nth_error_map, F0. reflexivity.
  - rewrite nth_error_map, F1. reflexivity.
Qed.

Lemma trilinear_interpolate_pl : forall xs ys zs cube x y z,
  cube <> [] -> ys <> [] -> zs <> [] -> length cube = length xs -> sortedR xs ->
  (forall rows, In rows cube -> sortedR ys /\ length rows = length ys /\
     forall row, In row rows -> sortedR zs /\ length row = length zs) ->
  trilinear_interpolate (N := N) (F xs) (Fin x) (F ys) (Fin y) (F zs) (Fin z) (FFF cube)
  = Ret (Fin (pl3 xs ys zs cube x y z)).
Proof.
  intros xs ys zs cube x y z Hne Hney Hnez Hlen Hs Hrow.
  assert (Hin : forall i rows, nth_error cube i = Some rows ->
     bilinear_interpolate (N := N) (F ys) (Fin y) (F zs) (Fin z) (FF rows)
     = Ret (Fin (pl2 ys zs rows y z))).
  { intros i rows E. apply nth_error_In in E. destruct (Hrow _ E) as [Hsy [Hly Hz]].
    apply bilinear_interpolate_pl; auto. intros ->. destruct ys; [contradiction|discriminate]. }
  unfold trilinear_interpolate, pl3. rewrite !map_length.
  destruct cube as [|v0 cube]; [contradiction|]. destruct xs as [|u0 xs]; [discriminate|].
  cbn [length Nat.eqb].
  destruct cube as [|v1 cube]; cbn [length Nat.eqb].
  { destruct xs; [|discriminate]. 
    change (index (map (map (map Fin)) [v0]) 0) with (Ret (map (map Fin) v0)). cbn [bind].
    apply (Hin 0%nat). reflexivity. }
  destruct xs as [|u1 xs]; [discriminate|].
  destruct (get_idx_segment (u0 :: u1 :: xs) x) as (i & x0 & x1 & -> & E0 & E1 & H01 & Hl & Hu).
  { cbn; lia. } { exact Hs. }
  assert (Hi : (S i < length (u0 :: u1 :: xs))%nat) by (apply nth_error_Some; congruence).
  destruct (nth_error (v0 :: v1 :: cube) i) as [r0|] eqn:F0; [|apply nth_error_None in F0; lia].
  destruct (nth_error (v0 :: v1 :: cube) (S i)) as [r1|] eqn:F1; [|apply nth_error_None in F1; lia].
  cbn [bind carrier XR]. rewrite (index_F _ _ _ E0), (index_F _ _ _ E1), (index_FFF _ _ _ F0), (index_FFF _ _ _ F1).
  cbn [bind]. rewrite (Hin _ _ F0). cbn [bind]. rewrite (Hin _ _ F1). cbn [bind].
  cbn [n_add n_sub n_mul n_div carrier XR]. rewrite interp_formula by exact H01.
  rewrite (pl_segment i _ _ x x0 x1 (pl2 ys zs r0 y z) (pl2 ys zs r1 y z)); auto.
  - rewrite map_length. exact Hlen.
  - rewrite nth_error_map, F0. reflexivity.
  - rewrite nth_error_map, F1. reflexivity.
Qed.

(** Tables with real bases and data. *)
Definition rt1 (v : StateVariable) (xs vals : list R) : Table N :=
  D1 (mkT1 (N := N) (v, F xs) (F vals) Linear).
Definition rt2 (v w : StateVariable) (xs ys : list R) (rows : list (list R)) : Table N :=
  D2 (mkT2 (N := N) (v, F xs) (w, F ys) (FF rows) Linear).
Definition rt3 (v w u : StateVariable) (xs ys zs : list R) (cube : list (list (list R))) : Table N :=
  D3 (mkT3 (N := N) (v, F xs) (w, F ys) (u, F zs) (FFF cube) Linear).

Lemma rt1_wf : forall v xs vals, accepted (rt1 v xs vals) <->
  sortedR xs /\ length vals = length xs.
Proof.
  intros v xs vals. unfold rt1. cbn [accepted]. split.
  - intros (x & d & i & H). apply C17_table1_accepted in H. destruct H as [[H1 H2] H3].
    injection H3 as <- <- <-. cbn [snd] in *. apply increasing_sortedR in H1.
    split; auto. cbn in H2. now rewrite !map_length in H2.
  - intros [H1 H2]. exists (v, F xs), (F vals), Linear. apply C17_table1_accepted.
    split; [|reflexivity]. split; [now apply increasing_sortedR|]. cbn. now rewrite !map_length.
Qed.

Lemma rt2_wf : forall v w xs ys rows, accepted (rt2 v w xs ys rows) <->
  sortedR xs /\ length rows = length xs /\
  forall row, In row rows -> sortedR ys /\ length row = length ys.
Proof.
  intros v w xs ys rows. unfold rt2. cbn [accepted]. split.
  - intros (x & y & d & i & H). apply C17_table2_accepted in H. destruct H as [[H1 [H2 H3]] H4].
    injection H4 as <- <- <- <-. cbn [snd] in *. apply increasing_sortedR in H1.
    split; auto. split; [cbn in H2; now rewrite !map_length in H2|].
    intros row Hr. destruct (H3 (F row)) as [G1 G2].
    + apply (in_map (map Fin)). exact Hr.
    + split; [now apply increasing_sortedR in G1|]. cbn in G2. now rewrite !map_length in G2.
  - intros [H1 [H2 H3]]. exists (v, F xs), (w, F ys), (FF rows), Linear. apply C17_table2_accepted.
    split; [|reflexivity]. split; [now apply increasing_sortedR|].
    split; [cbn; now rewrite !map_length|].
    intros row Hr. cbn in Hr. apply in_map_iff in Hr. destruct Hr as [r [<- Hr]].
    destruct (H3 r Hr) as [G1 G2]. split; [now apply increasing_sortedR|]. cbn.
    now rewrite !map_length.
Qed.

Lemma rt3_wf : forall v w u xs ys zs cube, accepted (rt3 v w u xs ys zs cube) <->
  sortedR xs /\ length cube = length xs /\
  forall rows, In rows cube -> sortedR ys /\ length rows = length ys /\
    forall row, In row rows -> sortedR zs /\ length row = length zs.
Proof.
  intros v w u xs ys zs cube. unfold rt3. cbn [accepted]. split.
  - intros (x & y & z & d & i & H). apply C17_table3_accepted in H. destruct H as [[H1 [H2 H3]] H4].
    injection H4 as <- <- <- <- <-. cbn [snd] in *. apply increasing_sortedR in H1.
    split; auto. split; [cbn in H2; now rewrite !map_length in H2|].
    intros rows Hr. destruct (H3 (FF rows)) as [G1 [G2 G3]].
    + apply (in_map (map (map Fin))). exact Hr.
    + split; [now apply increasing_sortedR in G1|]. split; [cbn in G2; now rewrite !map_length in G2|].
      intros row Hrow. destruct (G3 (F row)) as [K1 K2].
      * apply (in_map (map Fin)). exact Hrow.
      * split; [now apply increasing_sortedR in K1|]. cbn in K2. now rewrite !map_length in K2.
  - intros [H1 [H2 H3]]. exists (v, F xs), (w, F ys), (u, F zs), (FFF cube), Linear.
    apply C17_table3_accepted.
    split; [|reflexivity]. split; [now apply increasing_sortedR|].
    split; [cbn; now rewrite !map_length|].
    intros rows Hr. cbn in Hr. apply in_map_iff in Hr. destruct Hr as [r [<- Hr]].
    destruct (H3 r Hr) as [G1 [G2 G3]]. split; [now apply increasing_sortedR|].
    split; [cbn; now rewrite !map_length|].
    intros row Hrow. cbn in Hrow. apply in_map_iff in Hrow. destruct Hrow as [r' [<- Hr']].
    destruct (G3 r' Hr') as [K1 K2]. split; [now apply increasing_sortedR|]. cbn.
    now rewrite !map_length.
Qed.

(** C20, 1D: the value is that of the piecewise linear interpolant. *)
Theorem C20_linear : forall v xs vals (s : State N) x,
  accepted (rt1 v xs vals) -> vals <> [] -> get_value v s = Fin x ->
  at_state (rt1 v xs vals) s = Ret (Fin (pl (combine xs vals) x)).
Proof.
  intros v xs vals s x Ha Hne Hx. apply rt1_wf in Ha. destruct Ha as [Hs Hlen].
  cbn [at_state rt1]. unfold t1_at_state. cbn [t1_interp t1_x t1_data fst snd].
  rewrite Hx. now apply linear_interpolate_pl.
Qed.

(** C20, 2D and 3D: the tensor product interpolants. *)
Theorem C20_bilinear : forall v w xs ys rows (s : State N) x y,
  accepted (rt2 v w xs ys rows) -> rows <> [] -> ys <> [] ->
  get_value v s = Fin x -> get_value w s = Fin y ->
  at_state (rt2 v w xs ys rows) s = Ret (Fin (pl2 xs ys rows x y)).
Proof.
  intros v w xs ys rows s x y Ha Hne Hne2 Hx Hy. apply rt2_wf in Ha. destruct Ha as [Hs [Hlen Hr]].
  cbn [at_state rt2]. unfold t2_at_state. cbn [t2_interp t2_x t2_y t2_data fst snd].
  rewrite Hx, Hy. now apply bilinear_interpolate_pl.
Qed.
Theorem C20_trilinear : forall v w u xs ys zs cube (s : State N) x y z,
  accepted (rt3 v w u xs ys zs cube) -> cube <> [] -> ys <> [] -> zs <> [] ->
  get_value v s = Fin x -> get_value w s = Fin y -> get_value u s = Fin z ->
  at_state (rt3 v w u xs ys zs cube) s = Ret (Fin (pl3 xs ys zs cube x y z)).
Proof.
  intros v w u xs ys zs cube s x y z Ha Hne Hne2 Hne3 Hx Hy Hz. apply rt3_wf in Ha.
  destruct Ha as [Hs [Hlen Hr]].
  cbn [at_state rt3]. unfold t3_at_state. cbn [t3_interp t3_x t3_y t3_z t3_data fst snd].
  rewrite Hx, Hy, Hz. now apply trilinear_interpolate_pl.
Qed.

(** C20: between adjacent bases the value is on the chord, hence between the
    two data; left and right of the bases it is the linear extrapolation. *)
Theorem C20_chord : forall v xs vals (s : State N) i x0 x1 y0 y1 x,
  accepted (rt1 v xs vals) -> get_value v s = Fin x ->
  nth_error xs i = Some x0 -> nth_error xs (S i) = Some x1 ->
  nth_error vals i = Some y0 -> nth_error vals (S i) = Some y1 ->
  x0 <= x <= x1 ->
  exists y, at_state (rt1 v xs vals) s = Ret (Fin y) /\
    (y - y0) * (x1 - x0) = (y1 - y0) * (x - x0) /\ Rmin y0 y1 <= y <= Rmax y0 y1.
Proof.
  intros v xs vals s i x0 x1 y0 y1 x Ha Hx E0 E1 F0 F1 Hb.
  assert (Hne : vals <> []) by (intros ->; destruct i; discriminate).
  rewrite (C20_linear v xs vals s x Ha Hne Hx). apply rt1_wf in Ha. destruct Ha as [Hs Hlen].
  destruct (pl_chord xs vals i x0 x1 y0 y1 x) as [H1 H2]; auto.
  eexists. split; [reflexivity|]. split; [|exact H2]. rewrite H1.
  assert (x0 < x1) by (apply (Hs i); auto). unfold line. cbn [fst snd]. field. lra.
Qed.
Theorem C20_extrapolate_below : forall v x0 x1 xs y0 y1 vals (s : State N) x,
  accepted (rt1 v (x0 :: x1 :: xs) (y0 :: y1 :: vals)) -> get_value v s = Fin x -> x <= x0 ->
  at_state (rt1 v (x0 :: x1 :: xs) (y0 :: y1 :: vals)) s
  = Ret (Fin (y0 + (y1 - y0) / (x1 - x0) * (x - x0))).
Proof.
  intros v x0 x1 xs y0 y1 vals s x Ha Hx Hb.
  rewrite (C20_linear _ _ _ s x Ha) by (auto; discriminate).
  apply rt1_wf in Ha. destruct Ha as [Hs Hlen]. injection Hlen as Hlen.
  rewrite pl_below by auto. do 2 f_equal.
  assert (x0 < x1) by (apply (Hs 0%nat); auto). unfold line. cbn [fst snd]. field. lra.
Qed.
Theorem C20_extrapolate_above : forall v xs x0 x1 vals y0 y1 (s : State N) x,
  accepted (rt1 v (xs ++ [x0; x1]) (vals ++ [y0; y1])) -> get_value v s = Fin x -> x1 <= x ->
  at_state (rt1 v (xs ++ [x0; x1]) (vals ++ [y0; y1])) s
  = Ret (Fin (y1 + (y1 - y0) / (x1 - x0) * (x - x1))).
Proof.
  intros v xs x0 x1 vals y0 y1 s x Ha Hx Hb.
  rewrite (C20_linear _ _ _ s x Ha); auto; [|intros E; destruct vals; discriminate].
  apply rt1_wf in Ha. destruct Ha as [Hs Hlen]. rewrite !app_length in Hlen. cbn in Hlen.
  rewrite pl_above by (auto; lia). do 2 f_equal.
  destruct (nth_error_tail2 _ xs x0 x1) as [H0 H1].
  assert (x0 < x1) by (apply (Hs (length xs)); auto). unfold line. cbn [fst snd]. field. lra.
Qed.

(** C20: a one-entry table is constant. *)
Theorem C20_constant : forall v x0 y0 (s : State N) x,
  get_value v s = Fin x -> at_state (rt1 v [x0] [y0]) s = Ret (Fin y0).
Proof. intros. reflexivity. Qed.

(** C20: tables sampled from (multi-)affine functions reproduce them everywhere. *)
Theorem C20_affine : forall v xs a b (s : State N) x,
  accepted (rt1 v xs (map (fun t => a * t + b) xs)) -> (2 <= length xs)%nat ->
  get_value v s = Fin x ->
  at_state (rt1 v xs (map (fun t => a * t + b) xs)) s = Ret (Fin (a * x + b)).
Proof.
  intros v xs a b s x Ha Hlen Hx.
  rewrite (C20_linear _ _ _ s x Ha); auto; [|destruct xs; [cbn in Hlen; lia|discriminate]].
  apply rt1_wf in Ha. rewrite pl_affine by tauto. reflexivity.
Qed.
Theorem C20_biaffine : forall v w xs ys a b c d (s : State N) x y,
  let f X Y := a + b * X + c * Y + d * X * Y in
  let rows := map (fun X => map (f X) ys) xs in
  accepted (rt2 v w xs ys rows) -> (2 <= length xs)%nat -> (2 <= length ys)%nat ->
  get_value v s = Fin x -> get_value w s = Fin y ->
  at_state (rt2 v w xs ys rows) s = Ret (Fin (f x y)).
Proof.
  intros v w xs ys a b c d s x y f rows Ha Hlx Hly Hx Hy.
  rewrite (C20_bilinear _ _ _ _ _ s x y Ha); auto.
  2: { unfold rows. destruct xs; [cbn in Hlx; lia|discriminate]. }
  2: { destruct ys; [cbn in Hly; lia|discriminate]. }
  apply rt2_wf in Ha. destruct Ha as [Hsx [_ Hrow]].
  assert (Hsy : sortedR ys).
  { destruct xs as [|x0 xs]; [cbn in Hlx; lia|]. destruct (Hrow (map (f x0) ys)); auto.
    unfold rows. left. reflexivity. }
  do 2 f_equal. unfold pl2, rows. rewrite map_map.
  rewrite (map_ext _ (fun X => (b + d * y) * X + (a + c * y))).
  - rewrite pl_affine by auto. unfold f. ring.
  - intros X. rewrite (map_ext (f X) (fun Y => (c + d * X) * Y + (a + b * X))) by (intros; unfold f; ring).
    rewrite pl_affine by auto. ring.
Qed.
Theorem C20_triaffine : forall v w u xs ys zs c0 c1 c2 c3 c12 c13 c23 c123 (s : State N) x y z,
  let f X Y Z := c0 + c1 * X + c2 * Y + c3 * Z + c12 * X * Y + c13 * X * Z + c23 * Y * Z
                 + c123 * X * Y * Z in
  let cube := map (fun X => map (fun Y => map (f X Y) zs) ys) xs in
  accepted (rt3 v w u xs ys zs cube) ->
  (2 <= length xs)%nat -> (2 <= length ys)%nat -> (2 <= length zs)%nat ->
  get_value v s = Fin x -> get_value w s = Fin y -> get_value u s = Fin z ->
  at_state (rt3 v w u xs ys zs cube) s = Ret (Fin (f x y z)).
Proof.
  intros v w u xs ys zs c0 c1 c2 c3 c12 c13 c23 c123 s x y z f cube Ha Hlx Hly Hlz Hx Hy Hz.
  rewrite (C20_trilinear _ _ _ _ _ _ _ s x y z Ha); auto.
  2: { unfold cube. destruct xs; [cbn in Hlx; lia|discriminate]. }
  2: { destruct ys; [cbn in Hly; lia|discriminate]. }
  2: { destruct zs; [cbn in Hlz; lia|discriminate]. }
  apply rt3_wf in Ha. destruct Ha as [Hsx [_ Hrow]].
  assert (Hsyz : sortedR ys /\ sortedR zs).
  { destruct xs as [|x0 xs]; [cbn in Hlx; lia|].
    destruct (Hrow (map (fun Y => map (f x0 Y) zs) ys)) as [G1 [_ G2]].
    - unfold cube. left. reflexivity.
    - split; auto. destruct ys as [|y0 ys]; [cbn in Hly; lia|].
      destruct (G2 (map (f x0 y0) zs)); auto. left. reflexivity. }
  destruct Hsyz as [Hsy Hsz].
  do 2 f_equal. unfold pl3, pl2, cube. rewrite map_map.
  rewrite (map_ext _ (fun X => (c1 + c12 * y + c13 * z + c123 * y * z) * X
                               + (c0 + c2 * y + c3 * z + c23 * y * z))).
  - rewrite pl_affine by auto. unfold f. ring.
  - intros X. rewrite map_map.
    rewrite (map_ext _ (fun Y => (c2 + c12 * X + c23 * z + c123 * X * z) * Y
                                 + (c0 + c1 * X + c3 * z + c13 * X * z))).
    + rewrite pl_affine by auto. ring.
    + intros Y.
      rewrite (map_ext (f X Y) (fun Z => (c3 + c13 * X + c23 * Y + c123 * X * Y) * Z
                 + (c0 + c1 * X + c2 * Y + c12 * X * Y))) by (intros; unfold f; ring).
      rewrite pl_affine by auto. ring.
Qed.

(** C20: the interpolated value depends continuously on the argument. *)
Theorem C20_continuous : forall v xs vals, accepted (rt1 v xs vals) -> vals <> [] ->
  exists g : R -> R, (forall x, continuous g x) /\
    forall (s : State N) x, get_value v s = Fin x -> at_state (rt1 v xs vals) s = Ret (Fin (g x)).
Proof.
  intros v xs vals Ha Hne. exists (pl (combine xs vals)). split.
  - intros x. apply rt1_wf in Ha. destruct Ha. now apply pl_continuous.
  - intros s x Hx. now apply C20_linear.
Qed.

(** C20: in 2D tables the value depends continuously on each argument. *)
Theorem C20_continuous2 : forall v w xs ys rows, accepted (rt2 v w xs ys rows) ->
  rows <> [] -> ys <> [] ->
  exists g : R -> R -> R,
    (forall x y, continuous (fun t => g t y) x /\ continuous (fun t => g x t) y) /\
    forall (s : State N) x y, get_value v s = Fin x -> get_value w s = Fin y ->
      at_state (rt2 v w xs ys rows) s = Ret (Fin (g x y)).
Proof.
  intros v w xs ys rows Ha Hne Hney. exists (pl2 xs ys rows). split.
  2: { intros s x y Hx Hy. now apply C20_bilinear. }
  intros x y. apply rt2_wf in Ha. destruct Ha as [Hs [Hlen Hrow]]. split.
  - unfold pl2. apply pl_continuous; auto. now rewrite map_length.
  - unfold pl2.
    assert (Hc : forall row, In row rows -> continuous (fun t => pl (combine ys row) t) y).
    { intros row Hr. destruct (Hrow row Hr). now apply pl_continuous. }
    destruct xs as [|x0 [|x1 xs]].
    + destruct rows; [contradiction|discriminate].
    + destruct rows as [|r0 [|]]; try discriminate.
      cbn [map combine pl snd]. apply Hc. left. reflexivity.
    + assert (Hx2 : (2 <= length (x0 :: x1 :: xs))%nat) by (cbn; lia).
      destruct (segment_exists (x0 :: x1 :: xs) x Hx2 Hs) as (i & a & b & E0 & E1 & Hab & Hl & Hu).
      assert (Hi : (S i < length (x0 :: x1 :: xs))%nat) by (apply nth_error_Some; congruence).
      destruct (nth_error rows i) as [r0|] eqn:F0; [|apply nth_error_None in F0; lia].
      destruct (nth_error rows (S i)) as [r1|] eqn:F1; [|apply nth_error_None in F1; lia].
      apply (continuous_ext (fun t => pl (combine ys r0) t * ((b - x) / (b - a))
                                      + pl (combine ys r1) t * ((x - a) / (b - a)))).
      { intros t. symmetry.
        apply (pl_segment i (x0 :: x1 :: xs) (map (fun row => pl (combine ys row) t) rows) x a b
                 (pl (combine ys r0) t) (pl (combine ys r1) t)); auto.
        - now rewrite map_length.
        - now rewrite nth_error_map, F0.
        - now rewrite nth_error_map, F1. }
      apply (continuous_plus (fun t => pl (combine ys r0) t * ((b - x) / (b - a)))
                             (fun t => pl (combine ys r1) t * ((x - a) / (b - a)))).
      * apply (continuous_mult (fun t => pl (combine ys r0) t) (fun _ => (b - x) / (b - a)));
          [apply Hc; eapply nth_error_In; eauto|apply continuous_const].
      * apply (continuous_mult (fun t => pl (combine ys r1) t) (fun _ => (x - a) / (b - a)));
          [apply Hc; eapply nth_error_In; eauto|apply continuous_const].
Qed.

(** C19: at the nodes the table data are returned. *)
Theorem C19_node1 : forall v xs vals (s : State N) i x d,
  accepted (rt1 v xs vals) -> nth_error xs i = Some x -> nth_error vals i = Some d ->
  get_value v s = Fin x -> at_state (rt1 v xs vals) s = Ret (Fin d).
Proof.
  intros v xs vals s i x d Ha Ex Ed Hx.
  rewrite (C20_linear _ _ _ s x Ha); auto; [|intros ->; destruct i; discriminate].
  apply rt1_wf in Ha. destruct Ha. now rewrite (pl_node xs vals i x d).
Qed.
Theorem C19_node2 : forall v w xs ys rows (s : State N) i j x y row d,
  accepted (rt2 v w xs ys rows) ->
  nth_error xs i = Some x -> nth_error ys j = Some y ->
  nth_error rows i = Some row -> nth_error row j = Some d ->
  get_value v s = Fin x -> get_value w s = Fin y ->
  at_state (rt2 v w xs ys rows) s = Ret (Fin d).
Proof.
  intros v w xs ys rows s i j x y row d Ha Ex Ey Er Ed Hx Hy.
  rewrite (C20_bilinear _ _ _ _ _ s x y Ha); auto;
    [|intros ->; destruct i; discriminate|intros ->; destruct j; discriminate].
  apply rt2_wf in Ha. destruct Ha as [Hs [Hlen Hrow]].
  destruct (Hrow row) as [Hsy Hly]; [eapply nth_error_In; eauto|].
  unfold pl2. rewrite (pl_node xs _ i x d); auto.
  - now rewrite map_length.
  - rewrite nth_error_map, Er. cbn. f_equal. apply (pl_node ys row j); auto.
Qed.
Theorem C19_node3 : forall v w u xs ys zs cube (s : State N) i j k x y z rows row d,
  accepted (rt3 v w u xs ys zs cube) ->
  nth_error xs i = Some x -> nth_error ys j = Some y -> nth_error zs k = Some z ->
  nth_error cube i = Some rows -> nth_error rows j = Some row -> nth_error row k = Some d ->
  get_value v s = Fin x -> get_value w s = Fin y -> get_value u s = Fin z ->
  at_state (rt3 v w u xs ys zs cube) s = Ret (Fin d).
Proof.
  intros v w u xs ys zs cube s i j k x y z rows row d Ha Ex Ey Ez Em Er Ed Hx Hy Hz.
  rewrite (C20_trilinear _ _ _ _ _ _ _ s x y z Ha); auto;
    [|intros ->; destruct i; discriminate|intros ->; destruct j; discriminate
     |intros ->; destruct k; discriminate].
  apply rt3_wf in Ha. destruct Ha as [Hs [Hlen Hrow]].
  destruct (Hrow rows) as [Hsy [Hly Hz']]; [eapply nth_error_In; eauto|].
  destruct (Hz' row) as [Hsz Hlz]; [eapply nth_error_In; eauto|].
  unfold pl3. rewrite (pl_node xs _ i x d); auto.
  - now rewrite map_length.
  - rewrite nth_error_map, Em. cbn. f_equal. unfold pl2. apply (pl_node ys _ j); auto.
    + now rewrite map_length.
    + rewrite nth_error_map, Er. cbn. f_equal. apply (pl_node zs row k); auto.
Qed.

(** *** A concrete table *)
Example ex_interp_accepted : accepted (rt1 Altitude [0; 1; 3] [10; 20; -5]).
Proof.
  apply rt1_wf. split; [|reflexivity]. intros i a b H1 H2.
  destruct i as [|[|[|i]]]; cbn in H1, H2; try discriminate; try (destruct i; discriminate);
    injection H1 as <-; injection H2 as <-; lra.
Qed.
Example ex_interp_value : forall s : State N, get_value Altitude s = Fin 2 ->
  at_state (rt1 Altitude [0; 1; 3] [10; 20; -5]) s = Ret (Fin (15 / 2)).
Proof.
  intros s Hx. rewrite (C20_linear _ _ _ s 2 ex_interp_accepted) by (auto; discriminate).
  do 2 f_equal. cbn. destruct (Rle_dec 2 1); [lra|]. unfold line. cbn. field.
Qed.
Example ex_state_at_2 : exists s : State N, get_value Altitude s = Fin 2.
Proof. exists (set_altitude (N := N) default_state (Fin 2)). reflexivity. Qed.

End Code.

(** C19 is false bit for bit in IEEE arithmetic: a well-formed table and a state at
    one of its bases for which the result differs from the stored datum
    ([1e16] at base 0, [1] at base 1; at 1 the result is 0). *)
Theorem C19_ieee_refuted : forall lm, exists (t : Table1D (B64 lm)) (s : State (B64 lm)) i x d r,
  accepted (D1 t) /\
  nth_error (snd (t1_x t)) i = Some x /\ nth_error (t1_data t) i = Some d /\
  get_value (fst (t1_x t)) s = x /\
  at_state (D1 t) s = Ret r /\ n_eqb r d = false.
Proof.
  intros lm.
  set (t := mkT1 (N := B64 lm) (Altitude, [b64_of_Z 0; b64_of_Z 1])
                 [b64_of_Z 10000000000000000; b64_of_Z 1] Linear).
  assert (Hacc : accepted (D1 t)).
  { exists (t1_x t), (t1_data t), Linear. apply C17_table1_accepted. split; [|reflexivity].
    split; [|reflexivity]. apply windows2_increasing. vm_compute. reflexivity. }
  set (s := set_altitude (N := B64 lm) default_state (b64_of_Z 1)).
  destruct (C18_interpolation_total (N := B64 lm) (D1 t) s Hacc) as [r Hr].
  exists t, s, 1%nat, (b64_of_Z 1), (b64_of_Z 1), r.
  split; [exact Hacc|]. split; [reflexivity|]. split; [reflexivity|]. split; [reflexivity|].
  split; [exact Hr|].
  assert (Hc : match at_state (D1 t) s with Ret r => n_eqb (n := B64 lm) r (b64_of_Z 1) | _ => true end = false)
    by (vm_compute; reflexivity).
  rewrite Hr in Hc. exact Hc.
Qed.
