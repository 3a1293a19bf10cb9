(** Proofs about the B-spline evaluation. *)
From Coq Require Import Reals List ZArith Lra Lia.
From Verif Require Import Base SolveProofs BsplineModel BsplineSpec.
Import ListNotations.
Open Scope R_scope.

(** ** The recurrence with a given interval *)
Section Knots.
Variable t : nat -> R.
Hypothesis mono : forall i j, (i <= j)%nat -> t i <= t j.

Definition w (a d : R) : R := if Req_EM_T d 0 then 0 else a / d.
Fixpoint D (x : R) (l k i : nat) : R :=
  match k with
  | O => if Nat.eqb i l then 1 else 0
  | S k' => w (x - t i) (t (i + k)%nat - t i) * D x l k' i +
      w (t (S (i + k)) - x) (t (S (i + k)) - t (S i)) * D x l k' (S i)
  end.

Lemma D_support : forall x l k i, (i + k < l \/ l < i)%nat -> D x l k i = 0.
Proof.
  induction k; simpl; intros i H.
  - destruct (Nat.eqb_spec i l); auto. lia.
  - rewrite !IHk by lia. ring.
Qed.

Lemma raise_spec : forall x l k n i a carry,
  (a + 1 + S k = l + i)%nat -> (a + n = l)%nat -> (1 <= i)%nat ->
  carry = w (x - t a) (t (a + S k)%nat - t a) * D x l k a ->
  raise_degree t x l (S k) i carry (map (D x l k) (seq (S a) n)) = map (D x l (S k)) (seq a (S n)).
Proof.
  induction n; intros i a carry E F G C.
  - simpl. f_equal. rewrite C. rewrite (D_support x l k (S a)) by lia. ring.
  - cbn [seq map raise_degree].
    replace (l + i)%nat with (S (a + S k)) by lia.
    replace (S (a + S k) - S k)%nat with (S a) by lia.
    assert (U : (if Req_EM_T (t (S (a + S k))) (t (S a)) then 0 else D x l k (S a) / (t (S (a + S k)) - t (S a))) =
      w 1 (t (S (a + S k)) - t (S a)) * D x l k (S a)).
    { unfold w. destruct (Req_EM_T (t (S (a + S k))) (t (S a))); destruct (Req_EM_T (t (S (a + S k)) - t (S a)) 0); try lra; field; auto. }
    rewrite U.
    assert (W : forall y d, w y d = w 1 d * y) by (intros y d; unfold w; destruct (Req_EM_T d 0); [lra|field; auto]).
    apply (f_equal2 cons).
    + cbn [D]. rewrite C. rewrite (W (t (S (a + S k)) - x)). ring.
    + rewrite (IHn (S i) (S a)); try lia; auto.
      replace (S a + S k)%nat with (S (a + S k)) by lia. rewrite (W (x - t (S a))). ring.
Qed.
Lemma fpbspl_spec : forall x l k, (k <= l)%nat -> fpbspl t x l k = map (D x l k) (seq (l - k) (S k)).
Proof.
  induction k; intros H.
  - simpl. rewrite Nat.sub_0_r, Nat.eqb_refl. auto.
  - cbn [fpbspl]. rewrite IHk by lia. replace (l - k)%nat with (S (l - S k)) by lia.
    apply raise_spec; try lia. rewrite (D_support x l k (l - S k)) by lia. ring.
Qed.

(** ** Integrated basis functions *)
Definition om (x : R) (k i : nat) : R :=
  if Rlt_dec (t i) (t (i + k)%nat) then Rmax 0 (Rmin 1 ((x - t i) / (t (i + k)%nat - t i)))
  else if Rle_dec (t i) x then 1 else 0.
Fixpoint G (x : R) (l k i : nat) : R :=
  match k with
  | O => if Nat.leb i l then 1 else 0
  | S k' => om x k i * G x l k' i + (1 - om x k i) * G x l k' (S i)
  end.
Lemma om_range : forall x k i, 0 <= om x k i <= 1.
Proof.
  intros. unfold om. destruct (Rlt_dec _ _).
  - split; [apply Rmax_l|]. apply Rmax_lub; [lra|]. apply Rmin_l.
  - destruct (Rle_dec _ _); lra.
Qed.
Lemma om_mono : forall x y k i, x <= y -> om x k i <= om y k i.
Proof.
  intros. unfold om. destruct (Rlt_dec (t i) _).
  - apply Rle_max_compat_l. apply Rle_min_compat_l. apply Rmult_le_compat_r; [|lra].
    apply Rlt_le, Rinv_0_lt_compat. lra.
  - destruct (Rle_dec (t i) x), (Rle_dec (t i) y); lra.
Qed.
Lemma G_diff : forall x l k i, 0 <= G x l k i - G x l k (S i).
Proof.
  induction k; intros i; cbn [G].
  - destruct (Nat.leb_spec i l), (Nat.leb_spec (S i) l); try lra; lia.
  - pose proof (om_range x (S k) i). pose proof (om_range x (S k) (S i)).
    replace (om x (S k) i * G x l k i + (1 - om x (S k) i) * G x l k (S i) -
      (om x (S k) (S i) * G x l k (S i) + (1 - om x (S k) (S i)) * G x l k (S (S i)))) with
      (om x (S k) i * (G x l k i - G x l k (S i)) + (1 - om x (S k) (S i)) * (G x l k (S i) - G x l k (S (S i)))) by ring.
    apply Rplus_le_le_0_compat; apply Rmult_le_pos; auto; lra.
Qed.
Lemma G_mono : forall x y l l' k i, x <= y -> (l <= l')%nat -> G x l k i <= G y l' k i.
Proof.
  intros x y l l' k. induction k; intros i H L; cbn [G].
  - destruct (Nat.leb_spec i l), (Nat.leb_spec i l'); try lra; lia.
  - pose proof (om_range x (S k) i) as A. pose proof (om_range y (S k) i) as B. pose proof (om_mono x y (S k) i H) as C.
    pose proof (IHk i H L) as I1. pose proof (IHk (S i) H L) as I2.
    pose proof (G_diff y l' k i) as D1.
    set (a := om x (S k) i) in *. set (b := om y (S k) i) in *.
    apply Rle_trans with (a * G y l' k i + (1 - a) * G y l' k (S i)).
    + apply Rplus_le_compat; apply Rmult_le_compat_l; auto; lra.
    + assert (0 <= (b - a) * (G y l' k i - G y l' k (S i))) by (apply Rmult_le_pos; lra). lra.
Qed.
Lemma G_one : forall x l k i, (i + k <= l)%nat -> G x l k i = 1.
Proof.
  induction k; intros i H; cbn [G].
  - destruct (Nat.leb_spec i l); auto; lia.
  - rewrite !IHk by lia. ring.
Qed.
Lemma G_zero : forall x l k i, (l < i)%nat -> G x l k i = 0.
Proof.
  induction k; intros i H; cbn [G].
  - destruct (Nat.leb_spec i l); auto; lia.
  - rewrite !IHk by lia. ring.
Qed.
Lemma D_G : forall x l k i, t l < t (S l) -> t l <= x <= t (S l) -> D x l k i = G x l k i - G x l k (S i).
Proof.
  intros x l k i LT X. revert i. induction k; intros i; cbn [D G].
  - destruct (Nat.eqb_spec i l), (Nat.leb_spec i l), (Nat.leb_spec (S i) l); try lra; lia.
  - rewrite !IHk.
    assert (A : w (x - t i) (t (i + S k)%nat - t i) * (G x l k i - G x l k (S i)) = om x (S k) i * (G x l k i - G x l k (S i))).
    { destruct (Nat.le_gt_cases i l) as [H1|H1]; [|rewrite !G_zero by lia; ring].
      destruct (Nat.le_gt_cases l (i + k)) as [H2|H2]; [|rewrite !G_one by lia; ring].
      pose proof (mono i l H1). pose proof (mono (S l) (i + S k) ltac:(lia)).
      f_equal. unfold w, om. destruct (Req_EM_T _ 0); [lra|]. destruct (Rlt_dec _ _); [|lra].
      rewrite Rmin_right, Rmax_right; auto.
      - apply Rmult_le_pos; [lra|]. apply Rlt_le, Rinv_0_lt_compat; lra.
      - apply Rmult_le_reg_r with (t (i + S k)%nat - t i); [lra|]. unfold Rdiv. rewrite Rmult_assoc, Rinv_l by lra. lra. }
    assert (B : w (t (S (i + S k)) - x) (t (S (i + S k)) - t (S i)) * (G x l k (S i) - G x l k (S (S i))) =
      (1 - om x (S k) (S i)) * (G x l k (S i) - G x l k (S (S i)))).
    { destruct (Nat.le_gt_cases (S i) l) as [H1|H1]; [|rewrite !G_zero by lia; ring].
      destruct (Nat.le_gt_cases l (S i + k)) as [H2|H2]; [|rewrite !G_one by lia; ring].
      pose proof (mono (S i) l H1). pose proof (mono (S l) (S (i + S k)) ltac:(lia)).
      f_equal. unfold w, om. replace (S i + S k)%nat with (S (i + S k)) by lia.
      destruct (Req_EM_T _ 0); [lra|]. destruct (Rlt_dec _ _); [|lra].
      rewrite Rmin_right, Rmax_right.
      - field. lra.
      - apply Rmult_le_pos; [lra|]. apply Rlt_le, Rinv_0_lt_compat; lra.
      - apply Rmult_le_reg_r with (t (S (i + S k)) - t (S i)); [lra|]. unfold Rdiv. rewrite Rmult_assoc, Rinv_l by lra. lra. }
    rewrite A, B. ring.
Qed.
Lemma D_cox : forall x l last k i, (forall i, cox_de_boor t last 0 i x = if Nat.eqb i l then 1 else 0) ->
  cox_de_boor t last k i x = D x l k i.
Proof.
  intros x l last k i H. revert i. induction k; intros i; [apply H|].
  cbn [cox_de_boor D]. rewrite !IHk. reflexivity.
Qed.
End Knots.

(** ** Sums *)
Lemma sumn_ext : forall n f g, (forall i, (i < n)%nat -> f i = g i) -> sumn n f = sumn n g.
Proof. induction n; simpl; intros f g H; auto. rewrite (IHn f g), H by (auto; intros; apply H; lia). auto. Qed.
Lemma sumn_zero : forall n f, (forall i, (i < n)%nat -> f i = 0) -> sumn n f = 0.
Proof. induction n; simpl; intros f H; auto. rewrite IHn, H by (auto; intros; apply H; lia). ring. Qed.
Lemma sumn_plus : forall n f g, sumn n (fun i => f i + g i) = sumn n f + sumn n g.
Proof. induction n; simpl; intros; [ring|rewrite IHn; ring]. Qed.
Lemma sumn_scal : forall n c f, sumn n (fun i => c * f i) = c * sumn n f.
Proof. induction n; simpl; intros; [ring|rewrite IHn; ring]. Qed.
Lemma sumn_le : forall n f g, (forall i, (i < n)%nat -> f i <= g i) -> sumn n f <= sumn n g.
Proof. induction n; simpl; intros f g H; [lra|]. apply Rplus_le_compat; [apply IHn; intros; apply H; lia|apply H; lia]. Qed.
Lemma sumn_telescope : forall n f, sumn n (fun i => f i - f (S i)) = f 0%nat - f n.
Proof. induction n; simpl; intros; [ring|rewrite IHn; ring]. Qed.
Lemma sumn_single : forall n f j, (j < n)%nat -> (forall i, (i < n)%nat -> i <> j -> f i = 0) -> sumn n f = f j.
Proof.
  induction n; intros f j H Z; [lia|]. simpl. destruct (Nat.eq_dec j n) as [->|N].
  - rewrite sumn_zero; [ring|]. intros; apply Z; lia.
  - rewrite (IHn f j) by (try lia; intros; apply Z; lia). rewrite (Z n) by lia. ring.
Qed.
Lemma sumn_shift : forall n f, sumn (S n) f = f 0%nat + sumn n (fun i => f (S i)).
Proof. induction n; intros; [simpl; ring|]. simpl in *. rewrite IHn. ring. Qed.
(** Summation by parts. *)
Lemma sumn_parts : forall n f g, sumn (S n) (fun i => f i * (g i - g (S i))) =
  f 0%nat * g 0%nat + sumn n (fun i => (f (S i) - f i) * g (S i)) - f n * g (S n).
Proof.
  induction n; intros f g; [simpl; ring|].
  change (sumn (S n) (fun i => f i * (g i - g (S i))) + f (S n) * (g (S n) - g (S (S n))) =
    f 0%nat * g 0%nat + (sumn n (fun i => (f (S i) - f i) * g (S i)) + (f (S n) - f n) * g (S n)) - f (S n) * g (S (S n))).
  rewrite IHn. ring.
Qed.

Lemma dot_sum : forall a n b, (List.length b = n)%nat -> (n <= List.length a)%nat -> dot a b = sumn n (fun i => nth i a 0 * nth i b 0).
Proof.
  intros a n. revert a. induction n; intros a b H L.
  - destruct b; [|discriminate]. destruct a; auto.
  - destruct b; [discriminate|]. destruct a; [simpl in L; lia|]. simpl in *. rewrite IHn by lia.
    symmetry. apply (sumn_shift n (fun i => match i with O => r0 | S m => nth m a 0 end * match i with O => r | S m => nth m b 0 end)).
Qed.
Lemma nth_skipn : forall (a : list R) n i, nth i (skipn n a) 0 = nth (n + i) a 0.
Proof. induction a; destruct n; simpl; intros; auto. destruct i; auto. Qed.

(** ** The clamped uniform knots of scipy_bspline *)
Lemma knot_mono : forall c k i j, (i <= j)%nat -> knot c k i <= knot c k j.
Proof. intros. unfold knot. apply le_INR. lia. Qed.
Lemma knot_in : forall c k l, (k <= l <= c)%nat -> knot c k l = INR (l - k).
Proof. intros. unfold knot. f_equal. lia. Qed.
Lemma knot_low : forall c k i, (i <= k)%nat -> knot c k i = 0.
Proof. intros. unfold knot. replace (i - k)%nat with 0%nat by lia. auto. Qed.
Lemma knot_high : forall c k i, (c <= i)%nat -> (k <= c)%nat -> knot c k i = INR (c - k).
Proof. intros. unfold knot. f_equal. lia. Qed.

Lemma span_spec : forall t room l x, t l <= x -> x <= t (S (l + room)) -> (forall i j, (i <= j)%nat -> t i <= t j) ->
  let m := span t room l x in (l <= m <= l + room)%nat /\ t m <= x /\ (x < t (S m) \/ m = (l + room)%nat).
Proof.
  induction room; intros l x A B M; cbn [span].
  - split; [lia|]. auto.
  - destruct (Rlt_dec x (t (S l))).
    + split; [lia|]. auto.
    + destruct (IHroom (S l) x) as (H1 & H2 & H3); auto; try lra.
      { replace (S l + room)%nat with (l + S room)%nat by lia. auto. }
      split; [lia|]. split; auto. destruct H3 as [H3|H3]; [auto|right; lia].
Qed.
Lemma knot_span : forall c k x, (k < c)%nat -> 0 <= x <= INR (c - k) ->
  let m := span (knot c k) (c - 1 - k) k x in
  (k <= m <= c - 1)%nat /\ knot c k m <= x <= knot c k (S m) /\ knot c k m < knot c k (S m) /\ (x < knot c k (S m) \/ m = (c - 1)%nat).
Proof.
  intros c k x H X m. destruct (span_spec (knot c k) (c - 1 - k) k x) as (A & B & C).
  - rewrite knot_low by lia. lra.
  - rewrite knot_high by lia. lra.
  - apply knot_mono.
  - fold m in A, B, C. split; [lia|].
    assert (LT : knot c k m < knot c k (S m)) by (rewrite !knot_in by lia; apply lt_INR; lia).
    replace (k + (c - 1 - k))%nat with (c - 1)%nat in C by lia.
    split; [|auto]. split; auto. destruct C as [C|C]; [lra|].
    rewrite C, knot_high by lia. lra.
Qed.
Lemma span_mono : forall c k x y, (k < c)%nat -> 0 <= x -> x <= y -> y <= INR (c - k) ->
  (span (knot c k) (c - 1 - k) k x <= span (knot c k) (c - 1 - k) k y)%nat.
Proof.
  intros c k x y H X L Y.
  destruct (knot_span c k x H ltac:(lra)) as (A1 & A2 & A3 & A4). destruct (knot_span c k y H ltac:(lra)) as (B1 & B2 & B3 & B4).
  set (m := span _ _ _ x) in *. set (n := span _ _ _ y) in *.
  destruct (Nat.le_gt_cases m n); auto. exfalso. destruct B4 as [B4|B4]; [|lia].
  pose proof (knot_mono c k (S n) m ltac:(lia)). lra.
Qed.
Lemma base_cox : forall c k x, (k < c)%nat -> 0 <= x <= INR (c - k) -> forall i,
  cox_de_boor (knot c k) (c - 1) 0 i x = if Nat.eqb i (span (knot c k) (c - 1 - k) k x) then 1 else 0.
Proof.
  intros c k x H X i. destruct (knot_span c k x H X) as (A1 & A2 & A3 & A4).
  set (m := span _ _ _ _) in *. cbn [cox_de_boor].
  destruct (Nat.eqb_spec i m) as [->|N].
  - destruct (Rle_dec _ _); [|lra]. destruct (Rlt_dec _ _); auto. destruct A4 as [A4|A4]; [lra|].
    destruct (Nat.eq_dec m (c - 1)); [|contradiction]. destruct (Req_EM_T _ _); auto. lra.
  - destruct (Rle_dec _ _) as [L|]; auto.
    destruct (Rlt_dec x (knot c k (S i))) as [L2|L2].
    + exfalso. destruct (Nat.lt_ge_cases i m).
      * pose proof (knot_mono c k (S i) m ltac:(lia)). lra.
      * pose proof (knot_mono c k (S m) i ltac:(lia)). destruct A4 as [A4|A4]; [lra|].
        rewrite A4 in *. replace (S (c - 1)) with c in * by lia.
        rewrite (knot_high c k (S i)) in L2 by lia. rewrite (knot_high c k c) in * by lia. lra.
    + destruct (Nat.eq_dec i (c - 1)) as [->|]; auto. destruct (Req_EM_T _ _) as [E|]; auto. exfalso.
      assert (m < c - 1)%nat by lia. destruct A4 as [A4|A4]; [|lia].
      pose proof (knot_mono c k (S m) (c - 1) ltac:(lia)). lra.
Qed.

(** Basis functions. *)
Definition Gc (c k : nat) (x : R) (i : nat) : R := G (knot c k) x (span (knot c k) (c - 1 - k) k x) k i.
Lemma basis_G : forall c k i x, (k < c)%nat -> 0 <= x <= INR (c - k) -> basis_fun c k i x = Gc c k x i - Gc c k x (S i).
Proof.
  intros c k i x H X. unfold basis_fun, Gc. rewrite (D_cox (knot c k) x (span (knot c k) (c - 1 - k) k x)) by (apply base_cox; auto).
  destruct (knot_span c k x H X) as (A1 & A2 & A3 & A4). apply D_G; auto. apply knot_mono.
Qed.
Lemma Gc_first : forall c k x, (k < c)%nat -> 0 <= x <= INR (c - k) -> Gc c k x 0 = 1.
Proof. intros c k x H X. destruct (knot_span c k x H X) as (A1 & _). apply G_one. lia. Qed.
Lemma Gc_last : forall c k x, (k < c)%nat -> 0 <= x <= INR (c - k) -> Gc c k x c = 0.
Proof. intros c k x H X. destruct (knot_span c k x H X) as (A1 & _). apply G_zero. lia. Qed.

Lemma basis_nonneg : forall c k i x, (k < c)%nat -> 0 <= x <= INR (c - k) -> 0 <= basis_fun c k i x.
Proof. intros. rewrite basis_G by auto. apply G_diff. Qed.
Lemma basis_sum : forall c k x, (k < c)%nat -> 0 <= x <= INR (c - k) -> sumn c (fun i => basis_fun c k i x) = 1.
Proof.
  intros c k x H X. rewrite (sumn_ext c _ (fun i => Gc c k x i - Gc c k x (S i))) by (intros; apply basis_G; auto).
  rewrite sumn_telescope, Gc_first, Gc_last by auto. ring.
Qed.

(** The evaluated curve is the Cox-de Boor curve. *)
Lemma splev1_value : forall cv k x, (k < List.length cv)%nat -> 0 <= x <= INR (List.length cv - k) ->
  splev1 cv k x = spline_value cv k x.
Proof.
  intros cv k x H X. unfold splev1, spline_value. set (c := List.length cv) in *.
  destruct (knot_span c k x H X) as (A1 & A2 & A3 & A4).
  set (l := span (knot c k) (c - 1 - k) k x) in *.
  rewrite fpbspl_spec by lia.
  rewrite (dot_sum _ (S k)) by (rewrite ?map_length, ?seq_length, ?skipn_length; fold c; lia).
  rewrite (sumn_ext c _ (fun i => nth i cv 0 * D (knot c k) x l k i)).
  2:{ intros. unfold basis_fun. rewrite (D_cox (knot c k) x l); auto. unfold l. apply base_cox; auto. }
  rewrite (sumn_ext (S k) _ (fun i => nth (l - k + i) cv 0 * D (knot c k) x l k (l - k + i))).
  2:{ intros i Hi. rewrite nth_skipn. f_equal. rewrite (nth_indep _ _ (D (knot c k) x l k 0)) by (rewrite map_length, seq_length; lia).
      rewrite map_nth, seq_nth by lia. auto. }
  set (f := fun i => nth i cv 0 * D (knot c k) x l k i).
  assert (Z : forall i, (i < l - k \/ l < i)%nat -> f i = 0).
  { intros i Hi. unfold f. rewrite D_support by lia. ring. }
  assert (S1 : forall n m g, sumn (n + m) g = sumn n g + sumn m (fun i => g (n + i)%nat)).
  { intros n m g. induction m; simpl; [rewrite Nat.add_0_r; ring|]. rewrite Nat.add_succ_r. simpl. rewrite IHm. ring. }
  change (sumn (S k) (fun i => f (l - k + i)%nat) = sumn c f).
  replace c with ((l - k) + (S k + (c - 1 - l)))%nat by lia. rewrite !S1.
  rewrite (sumn_zero (l - k)) by (intros; apply Z; lia).
  rewrite (sumn_zero (c - 1 - l)) by (intros; apply Z; lia). ring.
Qed.

(** End points. *)
Lemma G_start : forall c k j i, (k < c)%nat -> (k < i + j)%nat -> (j <= k)%nat -> G (knot c k) 0 k j i = 0.
Proof.
  induction j; intros i H I J; cbn [G].
  - destruct (Nat.leb_spec i k); auto; lia.
  - rewrite (IHj (S i)) by lia. destruct (Nat.le_gt_cases (i + j) k) as [L|L].
    + assert (om (knot c k) 0 (S j) i = 0) as ->; [|ring].
      unfold om. replace (i + S j)%nat with (S k) by lia. rewrite (knot_low c k i) by lia.
      rewrite (knot_in c k (S k)) by lia. replace (S k - k)%nat with 1%nat by lia. simpl INR.
      destruct (Rlt_dec 0 1); [|lra]. replace ((0 - 0) / (1 - 0)) with 0 by field.
      rewrite Rmin_right, Rmax_left; lra.
    + rewrite IHj by lia. ring.
Qed.
Lemma span_start : forall c k, (k < c)%nat -> span (knot c k) (c - 1 - k) k 0 = k.
Proof.
  intros c k H. destruct (c - 1 - k)%nat eqn:E; auto. simpl. rewrite (knot_in c k (S k)) by lia.
  replace (S k - k)%nat with 1%nat by lia. simpl INR. destruct (Rlt_dec 0 1); auto; lra.
Qed.
Lemma span_end : forall c k, (k < c)%nat -> span (knot c k) (c - 1 - k) k (INR (c - k)) = (c - 1)%nat.
Proof.
  intros c k H. pose proof (pos_INR (c - k)) as P. destruct (knot_span c k (INR (c - k)) H ltac:(lra)) as (A1 & A2 & A3 & A4).
  destruct A4 as [A4|A4]; auto. rewrite (knot_in c k) in A4 by lia. apply INR_lt in A4. lia.
Qed.
Lemma basis_start : forall c k i, (k < c)%nat -> (i < c)%nat -> basis_fun c k i 0 = if Nat.eqb i 0 then 1 else 0.
Proof.
  intros c k i H I. assert (X : 0 <= 0 <= INR (c - k)) by (pose proof (pos_INR (c - k)); lra).
  assert (Z : forall j, (1 <= j)%nat -> Gc c k 0 j = 0) by (intros; unfold Gc; rewrite span_start by auto; apply G_start; lia).
  rewrite basis_G by auto. destruct i; simpl Nat.eqb.
  - rewrite Gc_first, Z by (auto; lia). ring.
  - rewrite !Z by lia. ring.
Qed.
Lemma G_end : forall c k j i, (k < c)%nat -> (i < c)%nat -> G (knot c k) (INR (c - k)) (c - 1) j i = 1.
Proof.
  induction j; intros i H I; cbn [G].
  - destruct (Nat.leb_spec i (c - 1)); auto; lia.
  - rewrite IHj by lia. destruct (Nat.eq_dec (S i) c) as [E|E]; [|rewrite IHj by lia; ring].
    rewrite G_zero by lia. assert (om (knot c k) (INR (c - k)) (S j) i = 1) as ->; [|ring].
    unfold om. rewrite (knot_high c k (i + S j)) by lia. destruct (Rlt_dec _ _) as [L|L].
    + unfold Rdiv. rewrite Rinv_r by lra. rewrite Rmin_left, Rmax_right; lra.
    + destruct (Rle_dec _ _) as [L2|L2]; auto. exfalso. apply L2. rewrite <- (knot_high c k c) by lia. apply knot_mono. lia.
Qed.
Lemma basis_end : forall c k i, (k < c)%nat -> (i < c)%nat -> basis_fun c k i (INR (c - k)) = if Nat.eqb (S i) c then 1 else 0.
Proof.
  intros c k i H I. assert (X : 0 <= INR (c - k) <= INR (c - k)) by (pose proof (pos_INR (c - k)); lra).
  rewrite basis_G by auto. unfold Gc. rewrite span_end, (G_end c k k i) by auto.
  destruct (Nat.eqb_spec (S i) c) as [E|E].
  - rewrite G_zero by lia. ring.
  - rewrite G_end by lia. ring.
Qed.
Lemma spline_start : forall cv k, (k < List.length cv)%nat -> spline_value cv k 0 = nth 0 cv 0.
Proof.
  intros cv k H. unfold spline_value. rewrite (sumn_single _ _ 0%nat); try lia.
  - rewrite basis_start by lia. simpl. ring.
  - intros i I N. rewrite basis_start by lia. destruct (Nat.eqb_spec i 0); [lia|]. ring.
Qed.
Lemma spline_end : forall cv k, (k < List.length cv)%nat ->
  spline_value cv k (INR (List.length cv - k)) = nth (List.length cv - 1) cv 0.
Proof.
  intros cv k H. unfold spline_value. rewrite (sumn_single _ _ (List.length cv - 1)%nat); try lia.
  - rewrite basis_end by lia. destruct (Nat.eqb_spec (S (List.length cv - 1)) (List.length cv)); [ring|lia].
  - intros i I N. rewrite basis_end by lia. destruct (Nat.eqb_spec (S i) (List.length cv)); [lia|]. ring.
Qed.

(** Non-decreasing control values give a non-decreasing curve. *)
Lemma spline_monotone : forall cv k x y, (k < List.length cv)%nat ->
  (forall i, (S i < List.length cv)%nat -> nth i cv 0 <= nth (S i) cv 0) ->
  0 <= x -> x <= y -> y <= INR (List.length cv - k) -> spline_value cv k x <= spline_value cv k y.
Proof.
  intros cv k x y H M X L Y. unfold spline_value. set (c := List.length cv) in *.
  assert (R : forall z, 0 <= z <= INR (c - k) -> sumn c (fun i => nth i cv 0 * basis_fun c k i z) =
    nth 0 cv 0 + sumn (c - 1) (fun i => (nth (S i) cv 0 - nth i cv 0) * Gc c k z (S i))).
  { intros z Z. rewrite (sumn_ext c _ (fun i => nth i cv 0 * (Gc c k z i - Gc c k z (S i)))) by (intros; rewrite basis_G; auto).
    replace c with (S (c - 1)) at 1 by lia. rewrite sumn_parts. rewrite Gc_first by auto.
    replace (S (c - 1)) with c by lia. rewrite Gc_last by auto. ring. }
  rewrite !R by lra. apply Rplus_le_compat_l. apply sumn_le. intros i I.
  apply Rmult_le_compat_l.
  - specialize (M i ltac:(lia)). lra.
  - unfold Gc. apply G_mono; auto. apply span_mono; auto.
Qed.
