(** Properties of whole B-spline calls. *)
From Coq Require Import Reals List ZArith Lra Lia.
From Verif Require Import Base SolveProofs ProfileProofs BsplineModel BsplineSpec BsplineProofs.
Import ListNotations.
Open Scope R_scope.

Lemma sample_range : forall c k n i, (i < n)%nat -> 0 <= sample c k n i <= INR (c - k).
Proof.
  intros c k n i H. unfold sample. pose proof (pos_INR (c - k)) as P. destruct (Nat.eq_dec n 1) as [->|N].
  - replace i with 0%nat by lia. simpl. lra.
  - assert (0 < INR (n - 1)) by (apply (lt_INR 0); lia). assert (INR i <= INR (n - 1)) by (apply le_INR; lia).
    pose proof (pos_INR i). split.
    + apply Rmult_le_pos; auto. apply Rmult_le_pos; auto. apply Rlt_le, Rinv_0_lt_compat; auto.
    + replace (INR i * (INR (c - k) / INR (n - 1))) with (INR i / INR (n - 1) * INR (c - k)) by (field; lra).
      rewrite <- (Rmult_1_l (INR (c - k))) at 2. apply Rmult_le_compat_r; auto.
      apply Rmult_le_reg_r with (INR (n - 1)); auto. unfold Rdiv. rewrite Rmult_assoc, Rinv_l by lra. lra.
Qed.
Lemma sample_mono : forall c k n i j, (i <= j)%nat -> (j < n)%nat -> sample c k n i <= sample c k n j.
Proof.
  intros c k n i j H J. unfold sample. destruct (Nat.eq_dec n 1) as [->|N].
  - replace i with 0%nat by lia. replace j with 0%nat by lia. lra.
  - apply Rmult_le_compat_r; [|apply le_INR; auto]. apply Rmult_le_pos; [apply pos_INR|].
    apply Rlt_le, Rinv_0_lt_compat. apply (lt_INR 0); lia.
Qed.
Lemma sample_0 : forall c k n, sample c k n 0 = 0.
Proof. intros. unfold sample. simpl. ring. Qed.
Lemma sample_last : forall c k n, (2 <= n)%nat -> sample c k n (n - 1) = INR (c - k).
Proof. intros. unfold sample. field. apply Rgt_not_eq. apply (lt_INR 0); lia. Qed.


Lemma bspline1_ok : forall cv npoints degree, fits (List.length cv) npoints degree ->
  bspline1 cv npoints degree = Ok (map (fun i => spline_value cv (Z.to_nat degree) (sample (List.length cv) (Z.to_nat degree) (Z.to_nat npoints) i))
    (seq 0 (Z.to_nat npoints))).
Proof.
  intros cv np dg (A & B & C). unfold bspline1.
  replace (np <? 0)%Z with false by (symmetry; apply Z.ltb_ge; lia).
  replace (dg <? 0)%Z with false by (symmetry; apply Z.ltb_ge; lia).
  replace (Nat.ltb (Z.to_nat dg) (List.length cv)) with true by (symmetry; apply Nat.ltb_lt; auto).
  replace (Nat.leb (Z.to_nat dg) 19) with true by (symmetry; apply Nat.leb_le; lia).
  replace (0 <? np)%Z with true by (symmetry; apply Z.ltb_lt; auto). cbn [andb]. f_equal.
  unfold linspace. rewrite map_map. apply map_ext_in. intros i Hi. apply in_seq in Hi.
  replace (0 + INR i * ((INR (List.length cv - Z.to_nat dg) - 0) / INR (Z.to_nat np - 1))) with
    (sample (List.length cv) (Z.to_nat dg) (Z.to_nat np) i) by (unfold sample; rewrite Rminus_0_r; ring).
  apply splev1_value; auto. apply sample_range. lia.
Qed.
Lemma bspline1_inv : forall cv npoints degree s, bspline1 cv npoints degree = Ok s -> fits (List.length cv) npoints degree.
Proof.
  intros cv np dg s. unfold bspline1. destruct (np <? 0)%Z eqn:E1; [discriminate|]. destruct (dg <? 0)%Z eqn:E2; [discriminate|].
  destruct (Nat.ltb (Z.to_nat dg) (List.length cv)) eqn:E3; [|discriminate].
  destruct (Nat.leb (Z.to_nat dg) 19) eqn:E4; [|discriminate]. destruct (0 <? np)%Z eqn:E5; [|discriminate]. intros _.
  apply Z.ltb_ge in E2. apply Nat.ltb_lt in E3. apply Nat.leb_le in E4. apply Z.ltb_lt in E5.
  unfold fits. split; auto. split; auto. lia.
Qed.
Lemma bspline1_spec : forall cv npoints degree s, bspline1 cv npoints degree = Ok s ->
  let n := Z.to_nat npoints in let k := Z.to_nat degree in let c := List.length cv in
  (k < c)%nat /\ (0 < n)%nat /\ List.length s = n /\
  forall i, (i < n)%nat -> nth i s 0 = spline_value cv k (sample c k n i).
Proof.
  intros cv np dg s H. pose proof (bspline1_inv _ _ _ _ H) as F. rewrite bspline1_ok in H by auto. injection H as <-.
  destruct F as (A & B & C). cbv zeta. split; auto. split; [lia|]. split; [rewrite map_length, seq_length; auto|].
  intros i Hi. rewrite (nth_indep _ 0 (spline_value cv (Z.to_nat dg) (sample (List.length cv) (Z.to_nat dg) (Z.to_nat np) 0)))
    by (rewrite map_length, seq_length; auto).
  rewrite (map_nth (fun i => spline_value cv (Z.to_nat dg) (sample (List.length cv) (Z.to_nat dg) (Z.to_nat np) i))).
  rewrite seq_nth by auto. auto.
Qed.
Lemma bspline1_errors : forall cv npoints degree,
  ((npoints < 0)%Z -> bspline1 cv npoints degree = Err ValueError) /\ ((degree < 0)%Z -> bspline1 cv npoints degree = Err ValueError).
Proof.
  intros. unfold bspline1. split; intros H.
  - apply Z.ltb_lt in H. rewrite H. auto.
  - apply Z.ltb_lt in H. rewrite H. destruct (npoints <? 0)%Z; auto.
Qed.

Lemma bspline1_ends : forall cv npoints degree s, bspline1 cv npoints degree = Ok s ->
  List.length s = Z.to_nat npoints /\ nth 0 s 0 = nth 0 cv 0 /\
  ((2 <= npoints)%Z -> last s 0 = last cv 0).
Proof.
  intros cv np dg s H. destruct (bspline1_spec _ _ _ _ H) as (A & B & L & V). split; auto. split.
  - rewrite V by auto. rewrite sample_0. apply spline_start; auto.
  - intros N. assert (Last : forall l : list R, last l 0 = nth (List.length l - 1) l 0).
    { induction l; auto. destruct l; auto. change (last (r :: l) 0 = nth (List.length (r :: l)) (a :: r :: l) 0).
      rewrite IHl. simpl. rewrite Nat.sub_0_r. auto. }
    rewrite !Last, L, V by lia. rewrite sample_last by lia. apply spline_end; auto.
Qed.

(** Convexity. *)
Lemma spline_bounds : forall cv k x lo hi, (k < List.length cv)%nat -> 0 <= x <= INR (List.length cv - k) ->
  (forall v, In v cv -> lo <= v <= hi) -> lo <= spline_value cv k x <= hi.
Proof.
  intros cv k x lo hi H X B. unfold spline_value. set (c := List.length cv) in *.
  pose proof (basis_sum c k x H X) as S.
  assert (E : forall a, a = sumn c (fun i => a * basis_fun c k i x)) by (intros; rewrite sumn_scal, S; ring).
  split; [rewrite (E lo)|rewrite (E hi)]; apply sumn_le; intros i Hi; apply Rmult_le_compat_r;
    try (apply basis_nonneg; auto); apply B, nth_In; auto.
Qed.
Lemma bspline1_hull : forall cv npoints degree s lo hi, bspline1 cv npoints degree = Ok s ->
  (forall v, In v cv -> lo <= v <= hi) -> forall v, In v s -> lo <= v <= hi.
Proof.
  intros cv np dg s lo hi H B v Hv. destruct (bspline1_spec _ _ _ _ H) as (A & C & L & V).
  destruct (In_nth s v 0 Hv) as (i & Hi & <-). rewrite L in Hi. rewrite V by auto.
  apply spline_bounds; auto. apply sample_range; auto.
Qed.
Lemma bspline1_weights : forall c npoints degree, fits c npoints degree ->
  exists W : nat -> nat -> R, (forall i j, (i < Z.to_nat npoints)%nat -> 0 <= W i j) /\
    (forall i, (i < Z.to_nat npoints)%nat -> sumn c (W i) = 1) /\
    forall cv, List.length cv = c -> bspline1 cv npoints degree =
      Ok (map (fun i => sumn c (fun j => nth j cv 0 * W i j)) (seq 0 (Z.to_nat npoints))).
Proof.
  intros c np dg F. pose proof F as (A & B & C).
  exists (fun i j => basis_fun c (Z.to_nat dg) j (sample c (Z.to_nat dg) (Z.to_nat np) i)). split; [|split].
  - intros. apply basis_nonneg; auto. apply sample_range; auto.
  - intros. apply basis_sum; auto. apply sample_range; auto.
  - intros cv <-. rewrite bspline1_ok by auto. reflexivity.
Qed.
(** Planar curves: the same weights in both coordinates, so affine maps commute. *)
Lemma combine_map : forall {A} (f g : A -> R) l, combine (map f l) (map g l) = map (fun a => (f a, g a)) l.
Proof. induction l; simpl; auto. f_equal; auto. Qed.
Lemma bspline2_ok : forall cv npoints degree, fits (List.length cv) npoints degree ->
  let c := List.length cv in let k := Z.to_nat degree in let n := Z.to_nat npoints in
  bspline2 cv npoints degree = Ok (map (fun i => (spline_value (map fst cv) k (sample c k n i), spline_value (map snd cv) k (sample c k n i)))
    (seq 0 n)).
Proof.
  intros cv np dg F c k n. unfold bspline2. rewrite !bspline1_ok by (rewrite map_length; auto). cbn [bind].
  rewrite !map_length. rewrite combine_map. auto.
Qed.
Lemma bspline2_inv : forall cv npoints degree s, bspline2 cv npoints degree = Ok s -> fits (List.length cv) npoints degree.
Proof.
  intros cv np dg s H. unfold bspline2 in H. apply bind_ok in H. destruct H as [xs [H _]]. apply bspline1_inv in H.
  rewrite map_length in H. auto.
Qed.
Lemma spline_comb : forall {A} (l : list A) (u v : A -> R) a b e k x,
  (k < List.length l)%nat -> 0 <= x <= INR (List.length l - k) ->
  spline_value (map (fun p => a * u p + b * v p + e) l) k x = a * spline_value (map u l) k x + b * spline_value (map v l) k x + e.
Proof.
  intros A l u v a b e k x H X. assert (P : exists p0 : A, True) by (destruct l as [|p l]; [simpl in H; lia|exists p; auto]).
  destruct P as [p0 _]. unfold spline_value. rewrite !map_length. set (c := List.length l) in *.
  pose proof (basis_sum c k x H X) as S.
  match goal with |- _ = ?A + e => transitivity (A + e * sumn c (fun i => basis_fun c k i x)); [|rewrite S; ring] end.
  rewrite <- !sumn_scal, <- !sumn_plus. apply sumn_ext. intros i Hi.
  rewrite (nth_indep (map _ l) 0 (a * u p0 + b * v p0 + e)) by (rewrite map_length; auto).
  rewrite (map_nth (fun p => a * u p + b * v p + e)).
  rewrite (nth_indep (map u l) 0 (u p0)) by (rewrite map_length; auto). rewrite map_nth.
  rewrite (nth_indep (map v l) 0 (v p0)) by (rewrite map_length; auto). rewrite map_nth. ring.
Qed.
Lemma bspline2_affine : forall cv npoints degree s a b e c d f, bspline2 cv npoints degree = Ok s ->
  bspline2 (map (affine a b e c d f) cv) npoints degree = Ok (map (affine a b e c d f) s).
Proof.
  intros cv np dg s a b e c d f H. pose proof (bspline2_inv _ _ _ _ H) as F. rewrite bspline2_ok in H by auto.
  injection H as <-. rewrite bspline2_ok by (rewrite map_length; auto). cbv zeta. rewrite map_length. apply f_equal. rewrite !map_map. apply map_ext_in.
  intros i Hi. apply in_seq in Hi. destruct F as (F1 & F2 & F3).
  assert (X : 0 <= sample (List.length cv) (Z.to_nat dg) (Z.to_nat np) i <= INR (List.length cv - Z.to_nat dg)) by (apply sample_range; lia).
  unfold affine. cbn [fst snd].
  rewrite (spline_comb cv fst snd a b e), (spline_comb cv fst snd c d f) by auto. auto.
Qed.

(** Linearity and the design matrix. *)
Lemma spline_linear : forall u v a b k x, List.length u = List.length v ->
  spline_value (map2 (fun p q => a * p + b * q) u v) k x = a * spline_value u k x + b * spline_value v k x.
Proof.
  intros u v a b k x H. unfold spline_value. rewrite map2_length by auto. rewrite <- H. rewrite <- !sumn_scal, <- sumn_plus.
  apply sumn_ext. intros i Hi.
  assert (E : nth i (map2 (fun p q => a * p + b * q) u v) 0 = a * nth i u 0 + b * nth i v 0).
  { clear - H. revert v i H. induction u; destruct v; simpl; intros; try discriminate; destruct i; auto; try ring. }
  rewrite E. ring.
Qed.
Lemma bspline1_linear : forall u v a b npoints degree s1 s2, List.length u = List.length v ->
  bspline1 u npoints degree = Ok s1 -> bspline1 v npoints degree = Ok s2 ->
  bspline1 (map2 (fun p q => a * p + b * q) u v) npoints degree = Ok (map2 (fun p q => a * p + b * q) s1 s2).
Proof.
  intros u v a b np dg s1 s2 H E1 E2. pose proof (bspline1_inv _ _ _ _ E1) as F1. pose proof (bspline1_inv _ _ _ _ E2) as F2.
  rewrite bspline1_ok in E1, E2 by auto. injection E1 as <-. injection E2 as <-.
  rewrite bspline1_ok by (rewrite map2_length; auto). f_equal. rewrite map2_length by auto. rewrite <- H.
  assert (M : forall (f g : nat -> R) (h : R -> R -> R) l, map2 h (map f l) (map g l) = map (fun i => h (f i) (g i)) l)
    by (induction l; simpl; auto; f_equal; auto).
  rewrite M. apply map_ext_in. intros i Hi. apply spline_linear; auto.
Qed.
Lemma unit_vec_length : forall n i, List.length (unit_vec n i) = n.
Proof. intros. unfold unit_vec. rewrite map_length, seq_length. auto. Qed.
Lemma unit_vec_nth : forall n i j, (j < n)%nat -> nth j (unit_vec n i) 0 = if Nat.eq_dec j i then 1 else 0.
Proof.
  intros n i j H. unfold unit_vec. set (f := fun j => if Nat.eq_dec j i then 1 else 0).
  rewrite (nth_indep _ 0 (f 0%nat)) by (rewrite map_length, seq_length; auto). rewrite map_nth, seq_nth by auto. auto.
Qed.
Lemma spline_unit : forall c k i x, (i < c)%nat -> spline_value (unit_vec c i) k x = basis_fun c k i x.
Proof.
  intros c k i x H. unfold spline_value. rewrite unit_vec_length. rewrite (sumn_single c _ i); auto.
  2:{ intros j Hj N. rewrite unit_vec_nth by auto. destruct (Nat.eq_dec j i); [lia|ring]. }
  rewrite unit_vec_nth by auto. destruct (Nat.eq_dec i i); [ring|lia].
Qed.
Lemma design_matrix : forall cv npoints degree s, bspline1 cv npoints degree = Ok s ->
  let c := List.length cv in
  exists cols, mapM (fun j => bspline1 (unit_vec c j) npoints degree) (seq 0 c) = Ok cols /\
    forall i, (i < Z.to_nat npoints)%nat -> nth i s 0 = sumn c (fun j => nth j cv 0 * nth i (nth j cols []) 0).
Proof.
  intros cv np dg s H c. pose proof (bspline1_inv _ _ _ _ H) as F. rewrite bspline1_ok in H by auto. injection H as <-. fold c in F.
  exists (map (fun j => map (fun i => spline_value (unit_vec c j) (Z.to_nat dg) (sample c (Z.to_nat dg) (Z.to_nat np) i)) (seq 0 (Z.to_nat np))) (seq 0 c)).
  split.
  - assert (M : forall l, mapM (fun j => bspline1 (unit_vec c j) np dg) l =
      Ok (map (fun j => map (fun i => spline_value (unit_vec c j) (Z.to_nat dg) (sample c (Z.to_nat dg) (Z.to_nat np) i)) (seq 0 (Z.to_nat np))) l)).
    { induction l; auto. cbn [mapM map]. rewrite IHl. rewrite bspline1_ok by (rewrite unit_vec_length; auto). rewrite unit_vec_length. auto. }
    apply M.
  - intros i Hi. assert (N : forall (f : nat -> R) n j, (j < n)%nat -> nth j (map f (seq 0 n)) 0 = f j).
    { intros f n j Hj. rewrite (nth_indep _ 0 (f 0%nat)) by (rewrite map_length, seq_length; auto). rewrite map_nth, seq_nth by auto. auto. }
    rewrite N by auto. unfold spline_value at 1. fold c. apply sumn_ext. intros j Hj.
    assert (NL : nth j (map (fun j => map (fun i => spline_value (unit_vec c j) (Z.to_nat dg) (sample c (Z.to_nat dg) (Z.to_nat np) i)) (seq 0 (Z.to_nat np))) (seq 0 c)) [] =
      map (fun i => spline_value (unit_vec c j) (Z.to_nat dg) (sample c (Z.to_nat dg) (Z.to_nat np) i)) (seq 0 (Z.to_nat np))).
    { set (f := fun j => map _ _). rewrite (nth_indep _ [] (f 0%nat)) by (rewrite map_length, seq_length; auto). rewrite map_nth, seq_nth by auto. auto. }
    rewrite NL, N by auto. rewrite spline_unit by auto. auto.
Qed.

(** Local control. *)
Lemma basis_support : forall c k i x, (k < c)%nat -> 0 <= x <= INR (c - k) -> basis_fun c k i x <> 0 ->
  knot c k i <= x <= knot c k (i + k + 1).
Proof.
  intros c k i x H X N. unfold basis_fun in N. rewrite (D_cox (knot c k) x (span (knot c k) (c - 1 - k) k x)) in N by (apply base_cox; auto).
  destruct (knot_span c k x H X) as (A1 & A2 & A3 & A4). set (l := span _ _ _ _) in *.
  destruct (Nat.le_gt_cases i l) as [L1|L1]; [|exfalso; apply N, D_support; lia].
  destruct (Nat.le_gt_cases l (i + k)) as [L2|L2]; [|exfalso; apply N, D_support; lia].
  pose proof (knot_mono c k i l L1). pose proof (knot_mono c k (S l) (i + k + 1) ltac:(lia)). lra.
Qed.
Lemma spline_local : forall u v k x j, List.length u = List.length v -> (k < List.length u)%nat -> 0 <= x <= INR (List.length u - k) ->
  (forall i, i <> j -> nth i u 0 = nth i v 0) ->
  x < knot (List.length u) k j \/ knot (List.length u) k (j + k + 1) < x -> spline_value u k x = spline_value v k x.
Proof.
  intros u v k x j L H X E O. unfold spline_value. rewrite <- L. apply sumn_ext. intros i Hi.
  destruct (Nat.eq_dec i j) as [->|N]; [|rewrite E; auto].
  assert (basis_fun (List.length u) k j x = 0) as ->; [|ring].
  destruct (Req_dec (basis_fun (List.length u) k j x) 0) as [Z|Z]; auto.
  pose proof (basis_support (List.length u) k j x H X Z). lra.
Qed.
Lemma bspline1_local : forall u v npoints degree s1 s2 i j,
  let c := List.length u in let k := Z.to_nat degree in let n := Z.to_nat npoints in
  List.length v = c -> (j < c)%nat -> (forall m, m <> j -> nth m u 0 = nth m v 0) ->
  bspline1 u npoints degree = Ok s1 -> bspline1 v npoints degree = Ok s2 -> (i < n)%nat ->
  sample c k n i < INR (j - k) \/ INR (j + 1) < sample c k n i -> nth i s1 0 = nth i s2 0.
Proof.
  intros u v np dg s1 s2 i j c k n L J E E1 E2 Hi O.
  destruct (bspline1_spec _ _ _ _ E1) as (A1 & B1 & L1 & V1). destruct (bspline1_spec _ _ _ _ E2) as (A2 & B2 & L2 & V2).
  rewrite V1, V2 by auto. rewrite L. fold c k n.
  pose proof (sample_range c k n i Hi) as SR.
  apply (spline_local u v k (sample c k n i) j); auto.
  fold c. unfold knot. destruct O as [O|O].
  - left. rewrite Nat.min_l by lia. auto.
  - right. replace (j + k + 1 - k)%nat with (j + 1)%nat by lia.
    apply Rle_lt_trans with (INR (j + 1)); auto. apply le_INR. lia.
Qed.

Lemma bspline1_monotone : forall cv npoints degree s, bspline1 cv npoints degree = Ok s ->
  (forall i, (S i < List.length cv)%nat -> nth i cv 0 <= nth (S i) cv 0) ->
  forall i j, (i <= j)%nat -> (j < List.length s)%nat -> nth i s 0 <= nth j s 0.
Proof.
  intros cv np dg s H M i j I J. destruct (bspline1_spec _ _ _ _ H) as (A & B & L & V). rewrite L in J.
  rewrite !V by lia. apply spline_monotone; auto; try (apply sample_range; lia). apply sample_mono; auto.
Qed.

(** ** Lipschitz bound *)
Lemma G_range : forall t x l k i, 0 <= G t x l k i <= 1.
Proof.
  intros t x l k. induction k; intros i; cbn [G].
  - destruct (Nat.leb i l); lra.
  - pose proof (om_range t x (S k) i). pose proof (IHk i). pose proof (IHk (S i)).
    set (a := om t x (S k) i) in *. set (u := G t x l k i) in *. set (v := G t x l k (S i)) in *.
    assert (0 <= a * u) by (apply Rmult_le_pos; lra). assert (0 <= (1 - a) * v) by (apply Rmult_le_pos; lra).
    assert (0 <= a * (1 - u)) by (apply Rmult_le_pos; lra). assert (0 <= (1 - a) * (1 - v)) by (apply Rmult_le_pos; lra). lra.
Qed.
Lemma om_lip : forall t x y k i, x <= y -> t i + 1 <= t (i + k)%nat -> om t y k i - om t x k i <= y - x.
Proof.
  intros t x y k i H L. unfold om. destruct (Rlt_dec _ _); [|lra].
  set (d := t (i + k)%nat - t i) in *.
  assert (E : (y - t i) / d - (x - t i) / d <= y - x).
  { replace ((y - t i) / d - (x - t i) / d) with ((y - x) * / d) by (field; unfold d; lra).
    rewrite <- (Rmult_1_r (y - x)) at 2. apply Rmult_le_compat_l; [lra|]. rewrite <- Rinv_1. apply Rinv_le_contravar; unfold d; lra. }
  assert (E2 : (x - t i) / d <= (y - t i) / d).
  { apply Rmult_le_compat_r; [|lra]. apply Rlt_le, Rinv_0_lt_compat. unfold d; lra. }
  set (p := (y - t i) / d) in *. set (q := (x - t i) / d) in *. clearbody p q.
  unfold Rmax, Rmin. repeat destruct (Rle_dec _ _); lra.
Qed.
Lemma knot_gap : forall c k i j, (k < i + j)%nat -> (1 <= j)%nat -> (i < c)%nat -> (k < c)%nat -> knot c k i + 1 <= knot c k (i + j).
Proof. intros c k i j A B C E. unfold knot. rewrite <- S_INR. apply le_INR. lia. Qed.
Lemma G_lip : forall c k x y j i, (k < c)%nat -> 0 <= x -> x <= y -> y <= INR (c - k) -> (1 <= j <= k)%nat -> (i < c)%nat ->
  let l z := span (knot c k) (c - 1 - k) k z in
  G (knot c k) y (l y) j i - G (knot c k) x (l x) j i <= INR j * (y - x).
Proof.
  intros c k x y j i H X L Y. revert i.
  destruct (knot_span c k x H ltac:(lra)) as (A1 & A2 & A3 & A4). destruct (knot_span c k y H ltac:(lra)) as (B1 & B2 & B3 & B4).
  set (lx := span (knot c k) (c - 1 - k) k x) in *. set (ly := span (knot c k) (c - 1 - k) k y) in *.
  induction j; intros i J I; [lia|]. cbv zeta beta. fold lx ly.
  destruct (Nat.le_gt_cases (i + S j) k) as [Q|Q].
  { rewrite !G_one by lia. replace (1 - 1) with 0 by ring. apply Rmult_le_pos; [apply pos_INR|lra]. }
  pose proof (om_lip (knot c k) x y (S j) i L (knot_gap c k i (S j) ltac:(lia) ltac:(lia) I H)) as OL.
  pose proof (om_range (knot c k) y (S j) i) as OY. pose proof (om_range (knot c k) x (S j) i) as OX.
  pose proof (om_mono (knot c k) x y (S j) i L) as OM.
  destruct j.
  - (* degree one: the weight itself *)
    assert (T : forall z l, (k <= l <= c - 1)%nat -> knot c k l <= z <= knot c k (S l) -> G (knot c k) z l 1 i = om (knot c k) z 1 i).
    { intros z l Hl Hz. cbn [G]. destruct (Nat.leb_spec i l) as [L1|L1].
      - destruct (Nat.leb_spec (S i) l) as [L2|L2]; [|ring].
        assert (om (knot c k) z 1 i = 1) as ->; [|ring].
        pose proof (knot_gap c k i 1 ltac:(lia) ltac:(lia) I H) as KG. pose proof (knot_mono c k (i + 1) l ltac:(lia)).
        unfold om. destruct (Rlt_dec _ _); [|lra].
        assert (1 <= (z - knot c k i) / (knot c k (i + 1) - knot c k i)).
        { apply Rmult_le_reg_r with (knot c k (i + 1) - knot c k i); [lra|]. unfold Rdiv. rewrite Rmult_assoc, Rinv_l by lra. lra. }
        rewrite Rmin_left, Rmax_right; lra.
      - destruct (Nat.leb_spec (S i) l) as [L2|L2]; [lia|].
        assert (om (knot c k) z 1 i = 0) as ->; [|ring].
        pose proof (knot_gap c k i 1 ltac:(lia) ltac:(lia) I H) as KG. pose proof (knot_mono c k (S l) i ltac:(lia)).
        unfold om. destruct (Rlt_dec _ _); [|lra].
        assert ((z - knot c k i) / (knot c k (i + 1) - knot c k i) <= 0).
        { apply Rmult_le_reg_r with (knot c k (i + 1) - knot c k i); [lra|]. unfold Rdiv. rewrite Rmult_assoc, Rinv_l by lra. lra. }
        rewrite Rmin_right, Rmax_left; lra. }
    rewrite (T y ly), (T x lx) by auto. simpl INR. lra.
  - pose proof (IHj i ltac:(lia) I) as I1. cbv zeta beta in I1. fold lx ly in I1.
    assert (I2 : G (knot c k) y ly (S j) (S i) - G (knot c k) x lx (S j) (S i) <= INR (S j) * (y - x)).
    { destruct (Nat.eq_dec (S i) c) as [E|E].
      - rewrite !G_zero by lia. replace (0 - 0) with 0 by ring. apply Rmult_le_pos; [apply pos_INR|lra].
      - apply (IHj (S i)); lia. }
    pose proof (G_range (knot c k) x lx (S j) i) as R1. pose proof (G_range (knot c k) x lx (S j) (S i)) as R2.
    pose proof (G_diff (knot c k) x lx (S j) i) as DD.
    change (G (knot c k) y ly (S (S j)) i) with (om (knot c k) y (S (S j)) i * G (knot c k) y ly (S j) i + (1 - om (knot c k) y (S (S j)) i) * G (knot c k) y ly (S j) (S i)).
    change (G (knot c k) x lx (S (S j)) i) with (om (knot c k) x (S (S j)) i * G (knot c k) x lx (S j) i + (1 - om (knot c k) x (S (S j)) i) * G (knot c k) x lx (S j) (S i)).
    rewrite (S_INR (S j)).
    set (wy := om (knot c k) y (S (S j)) i) in *. set (wx := om (knot c k) x (S (S j)) i) in *.
    set (gy := G (knot c k) y ly (S j) i) in *. set (gx := G (knot c k) x lx (S j) i) in *.
    set (gy' := G (knot c k) y ly (S j) (S i)) in *. set (gx' := G (knot c k) x lx (S j) (S i)) in *.
    clearbody wy wx gy gx gy' gx'. set (e := INR (S j) * (y - x)) in *.
    assert (wy * (gy - gx) <= wy * e) by (apply Rmult_le_compat_l; lra).
    assert ((1 - wy) * (gy' - gx') <= (1 - wy) * e) by (apply Rmult_le_compat_l; lra).
    assert ((wy - wx) * (gx - gx') <= (wy - wx) * 1) by (apply Rmult_le_compat_l; lra).
    replace ((INR (S j) + 1) * (y - x)) with (e + (y - x)) by (unfold e; ring). lra.
Qed.
Lemma spline_parts : forall cv k z, (k < List.length cv)%nat -> 0 <= z <= INR (List.length cv - k) ->
  spline_value cv k z = nth 0 cv 0 + sumn (List.length cv - 1) (fun i => (nth (S i) cv 0 - nth i cv 0) * Gc (List.length cv) k z (S i)).
Proof.
  intros cv k z H Z. unfold spline_value. set (c := List.length cv) in *.
  rewrite (sumn_ext c _ (fun i => nth i cv 0 * (Gc c k z i - Gc c k z (S i)))) by (intros; rewrite basis_G; auto).
  replace c with (S (c - 1)) at 1 by lia. rewrite sumn_parts. rewrite Gc_first by auto.
  replace (S (c - 1)) with c by lia. rewrite Gc_last by auto. ring.
Qed.
Lemma sumn_abs : forall n f, Rabs (sumn n f) <= sumn n (fun i => Rabs (f i)).
Proof.
  induction n; simpl; intros; [rewrite Rabs_R0; lra|]. eapply Rle_trans; [apply Rabs_triang|]. apply Rplus_le_compat_r. auto.
Qed.
Lemma spline_lipschitz : forall cv k x y, (1 <= k < List.length cv)%nat -> 0 <= x -> x <= y -> y <= INR (List.length cv - k) ->
  Rabs (spline_value cv k y - spline_value cv k x) <= INR k * variation cv * (y - x).
Proof.
  intros cv k x y H X L Y. rewrite !spline_parts by (try lia; lra). set (c := List.length cv) in *.
  match goal with |- Rabs (?a + sumn ?n ?f - (?a + sumn ?n ?g)) <= _ =>
    replace (a + sumn n f - (a + sumn n g)) with (sumn n (fun i => f i + (-1) * g i)) by (rewrite sumn_plus, sumn_scal; ring) end.
  eapply Rle_trans; [apply sumn_abs|]. unfold variation. fold c.
  replace (INR k * sumn (c - 1) (fun i => Rabs (nth (S i) cv 0 - nth i cv 0)) * (y - x)) with
    (INR k * (y - x) * sumn (c - 1) (fun i => Rabs (nth (S i) cv 0 - nth i cv 0))) by ring.
  rewrite <- sumn_scal. apply sumn_le. intros i Hi.
  replace ((nth (S i) cv 0 - nth i cv 0) * Gc c k y (S i) + -1 * ((nth (S i) cv 0 - nth i cv 0) * Gc c k x (S i))) with
    ((Gc c k y (S i) - Gc c k x (S i)) * (nth (S i) cv 0 - nth i cv 0)) by ring.
  rewrite Rabs_mult. apply Rmult_le_compat_r; [apply Rabs_pos|].
  assert (M : Gc c k x (S i) <= Gc c k y (S i)) by (unfold Gc; apply G_mono; auto; apply span_mono; auto; lia).
  rewrite Rabs_right by lra. apply (G_lip c k x y k (S i)); auto; lia.
Qed.
Lemma bspline1_steps : forall cv npoints degree s, bspline1 cv npoints degree = Ok s -> (1 <= degree)%Z -> forall i, (S i < List.length s)%nat ->
  Rabs (nth (S i) s 0 - nth i s 0) <= IZR degree * variation cv * (INR (List.length cv - Z.to_nat degree) / INR (List.length s - 1)).
Proof.
  intros cv np dg s H D i Hi. destruct (bspline1_spec _ _ _ _ H) as (A & B & L & V). rewrite L in *. rewrite !V by lia.
  eapply Rle_trans; [apply spline_lipschitz; try lia; try (apply sample_range; lia); apply sample_mono; lia|].
  apply Req_le. rewrite INR_IZR_INZ, Z2Nat.id by lia. f_equal. unfold sample. rewrite S_INR. ring.
Qed.

Lemma combine_nth0 : forall (a b : list R) i, List.length a = List.length b -> nth i (combine a b) (0, 0) = (nth i a 0, nth i b 0).
Proof. intros. apply combine_nth; auto. Qed.
Lemma last_nth_gen : forall {A} (d : A) (l : list A), last l d = nth (List.length l - 1) l d.
Proof.
  induction l as [|a l IHl]; auto. destruct l as [|r l]; auto. change (last (r :: l) d = nth (List.length (r :: l)) (a :: r :: l) d).
  rewrite IHl. simpl. rewrite Nat.sub_0_r. destruct l; auto.
Qed.
Lemma bspline2_ends : forall cv npoints degree, fits (List.length cv) npoints degree ->
  exists s, bspline2 cv npoints degree = Ok s /\ List.length s = Z.to_nat npoints /\
    nth 0 s (0, 0) = nth 0 cv (0, 0) /\ ((2 <= npoints)%Z -> last s (0, 0) = last cv (0, 0)).
Proof.
  intros cv np dg F. unfold bspline2.
  assert (F1 : fits (List.length (map fst cv)) np dg) by (rewrite map_length; auto).
  assert (F2 : fits (List.length (map snd cv)) np dg) by (rewrite map_length; auto).
  pose proof (bspline1_ok _ _ _ F1) as E1. pose proof (bspline1_ok _ _ _ F2) as E2.
  destruct (bspline1_ends _ _ _ _ E1) as (L1 & A1 & B1). destruct (bspline1_ends _ _ _ _ E2) as (L2 & A2 & B2).
  rewrite E1, E2. cbn [bind]. eexists. split; [reflexivity|].
  match goal with |- context [combine ?a ?b] => set (s1 := a) in *; set (s2 := b) in * end. clearbody s1 s2.
  assert (N : forall i, (nth i (map fst cv) 0, nth i (map snd cv) 0) = nth i cv (0, 0)).
  { intros i. pose proof (map_nth fst cv (0, 0) i) as M1. pose proof (map_nth snd cv (0, 0) i) as M2. cbn [fst snd] in M1, M2.
    rewrite M1, M2. symmetry. apply surjective_pairing. }
  assert (CL : List.length (combine s1 s2 : list pt) = Z.to_nat np) by (etransitivity; [apply combine_length|lia]).
  assert (CN : forall i, nth i (combine s1 s2 : list pt) (0, 0) = (nth i s1 0, nth i s2 0)) by (intros; apply combine_nth; lia).
  split; auto. split.
  - rewrite CN, A1, A2. apply N.
  - intros H. rewrite !last_nth_gen, CL, CN. rewrite <- L1 at 1. rewrite <- L2. rewrite <- !last_nth_gen.
    rewrite B1, B2 by auto. rewrite !last_nth_gen, !map_length. apply N.
Qed.
Lemma bspline2_line : forall cv npoints degree s a b c, bspline2 cv npoints degree = Ok s ->
  (forall p, In p cv -> a * fst p + b * snd p = c) -> forall p, In p s -> a * fst p + b * snd p = c.
Proof.
  intros cv np dg s a b c H L p P. pose proof (bspline2_affine cv np dg s a b 0 0 0 0 H) as H2.
  assert (E : map (affine a b 0 0 0 0) cv = map (fun _ => (c, 0)) cv).
  { apply map_ext_in. intros q Q. unfold affine. f_equal; [rewrite <- (L q Q)|]; ring. }
  rewrite E in H2. unfold bspline2 in H2. apply bind_ok in H2. destruct H2 as (xs & X & H2).
  apply bind_ok in H2. destruct H2 as (ys & Y & H2). injection H2 as H2.
  assert (B := bspline1_hull _ _ _ _ c c X).
  assert (I : In (affine a b 0 0 0 0 p) (combine xs ys)) by (rewrite H2; apply in_map; auto).
  unfold affine in I at 1. apply in_combine_l in I.
  assert (c <= a * fst p + b * snd p + 0 <= c); [|lra]. apply B; auto.
  intros v V. rewrite map_map in V. apply in_map_iff in V. destruct V as (q & <- & _). simpl. lra.
Qed.
