(** Derivatives of B-splines and independence of the basis functions. *)
From Coq Require Import Reals List ZArith Lra Lia.
From Verif Require Import Base SolveProofs BsplineModel BsplineSpec BsplineProofs BsplineProofs2.
Import ListNotations.
Open Scope R_scope.

(** ** One knot interval *)
Section Interval.
Variable t : nat -> R.
Hypothesis mono : forall i j, (i <= j)%nat -> t i <= t j.
Variable l : nat.
Hypothesis open : t l < t (S l).

(** The polynomial of degree [k] with coefficients [c] on interval [l]. *)
Definition piece (k : nat) (c : nat -> R) (x : R) : R := sumn (S l) (fun i => c i * D t x l k i).
Definition lower (k : nat) (c : nat -> R) (i : nat) : R := (c (i - 1)%nat * t (i + S k)%nat - c i * t i) / (t (i + S k)%nat - t i).
Definition slope (k : nat) (c : nat -> R) (i : nat) : R := (c i - c (i - 1)%nat) / (t (i + S k)%nat - t i).

Lemma gap : forall k i, (i <= l)%nat -> (l <= i + k)%nat -> t i < t (i + S k)%nat.
Proof. intros k i A B. pose proof (mono i l A). pose proof (mono (S l) (i + S k) ltac:(lia)). lra. Qed.

Lemma piece_ext : forall k c d x, (forall i, (i <= l)%nat -> (l <= i + k)%nat -> c i = d i) -> piece k c x = piece k d x.
Proof.
  intros k c d x H. apply sumn_ext. intros i I. destruct (Nat.le_gt_cases l (i + k)).
  - rewrite H by lia. auto.
  - rewrite D_support by lia. ring.
Qed.

Lemma piece_raise : forall k c x, (S k <= l)%nat -> piece (S k) c x = piece k (lower k c) x + x * piece k (slope k c) x.
Proof.
  intros k c x H. unfold piece.
  set (u := fun i => w (x - t i) (t (i + S k)%nat - t i) * D t x l k i).
  set (v := fun i => w (t (i + S k)%nat - x) (t (i + S k)%nat - t i) * D t x l k i).
  rewrite (sumn_ext _ _ (fun i => c i * u i + c i * v (S i))).
  2:{ intros i _. cbn [D]. unfold u, v. replace (S i + S k)%nat with (S (i + S k)) by lia. ring. }
  rewrite sumn_plus.
  assert (Z : sumn (S l) (fun i => c i * v (S i)) = sumn (S l) (fun i => c (i - 1)%nat * v i)).
  { rewrite (sumn_shift l (fun i => c (i - 1)%nat * v i)). cbn [sumn].
    assert (v (S l) = 0) as -> by (unfold v; rewrite D_support by lia; ring).
    assert (v 0%nat = 0) as -> by (unfold v; rewrite D_support by lia; ring).
    rewrite (sumn_ext l (fun i => c (S i - 1)%nat * v (S i)) (fun i => c i * v (S i))) by (intros; rewrite Nat.sub_succ, Nat.sub_0_r; auto). ring. }
  rewrite Z, <- sumn_plus, <- sumn_scal, <- sumn_plus. apply sumn_ext. intros i I. unfold u, v, lower, slope.
  destruct (Nat.le_gt_cases l (i + k)) as [L|L].
  - pose proof (gap k i ltac:(lia) L). unfold w. destruct (Req_EM_T _ _); [lra|]. field. lra.
  - rewrite D_support by lia. ring.
Qed.

Lemma slope_lower : forall k c i, (S (S k) <= l)%nat -> (i <= l)%nat -> (l <= i + k)%nat ->
  slope k (lower (S k) c) i = lower k (slope (S k) c) i.
Proof.
  intros k c i H A B. unfold slope, lower.
  pose proof (gap k i A B). pose proof (gap (S k) i A ltac:(lia)). pose proof (gap (S k) (i - 1) ltac:(lia) ltac:(lia)).
  replace (i - 1 + S (S k))%nat with (i + S k)%nat in * by lia.
  set (a := t (i + S k)%nat) in *. set (b := t (i + S (S k))%nat) in *. set (p := t i) in *. set (q := t (i - 1)%nat) in *.
  field. lra.
Qed.

Lemma piece_deriv : forall k c x, (S k <= l)%nat -> derivable_pt_lim (piece (S k) c) x (INR (S k) * piece k (slope k c) x).
Proof.
  induction k; intros c x H.
  - assert (E : forall c' y, piece 0 c' y = piece 0 c' x) by (intros; reflexivity).
    apply (derivable_pt_lim_ext (fun y => piece 0 (lower 0 c) x + y * piece 0 (slope 0 c) x)).
    { intros y. rewrite piece_raise by lia. rewrite (E (lower 0 c) y), (E (slope 0 c) y). auto. }
    replace (INR 1 * piece 0 (slope 0 c) x) with (0 + (1 * piece 0 (slope 0 c) x + x * 0)) by (simpl; ring).
    apply (derivable_pt_lim_plus (fun _ => piece 0 (lower 0 c) x) (fun y => y * piece 0 (slope 0 c) x)).
    + apply derivable_pt_lim_const.
    + apply (derivable_pt_lim_mult (fun y => y) (fun _ => piece 0 (slope 0 c) x)).
      * apply derivable_pt_lim_id.
      * apply derivable_pt_lim_const.
  - apply (derivable_pt_lim_ext (fun y => piece (S k) (lower (S k) c) y + y * piece (S k) (slope (S k) c) y)).
    { intros y. rewrite (piece_raise (S k)) by lia. auto. }
    replace (INR (S (S k)) * piece (S k) (slope (S k) c) x) with
      (INR (S k) * piece k (slope k (lower (S k) c)) x +
       (1 * piece (S k) (slope (S k) c) x + x * (INR (S k) * piece k (slope k (slope (S k) c)) x))).
    2:{ rewrite (piece_ext k (slope k (lower (S k) c)) (lower k (slope (S k) c))) by (intros; apply slope_lower; lia).
        rewrite (piece_raise k (slope (S k) c)) by lia. rewrite !S_INR. ring. }
    apply (derivable_pt_lim_plus (piece (S k) (lower (S k) c)) (fun y => y * piece (S k) (slope (S k) c) y)).
    + apply IHk. lia.
    + apply (derivable_pt_lim_mult (fun y => y) (piece (S k) (slope (S k) c))).
      * apply derivable_pt_lim_id.
      * apply IHk. lia.
Qed.

Lemma piece_one : forall k a x, (k <= l)%nat -> t l <= x <= t (S l) -> piece k (fun _ => a) x = a.
Proof.
  intros k a x H X. unfold piece. rewrite sumn_scal.
  rewrite (sumn_ext _ _ (fun i => G t x l k i - G t x l k (S i))) by (intros; apply D_G; auto).
  rewrite sumn_telescope, G_one, G_zero by lia. ring.
Qed.

Lemma pick : forall (P : nat -> R -> Prop) n, (forall i, (i < n)%nat -> exists y, P i y) -> exists f, forall i, (i < n)%nat -> P i (f i).
Proof.
  intros P. induction n; intros H.
  - exists (fun _ => 0). intros; lia.
  - destruct (IHn ltac:(intros; apply H; lia)) as (f & F). destruct (H n ltac:(lia)) as (y & Y).
    exists (fun i => if Nat.eq_dec i n then y else f i). intros i I. destruct (Nat.eq_dec i n) as [->|]; auto. apply F. lia.
Qed.

Lemma rolle : forall f g a b, a < b -> (forall x, derivable_pt_lim f x (g x)) -> f a = 0 -> f b = 0 -> exists x, a < x < b /\ g x = 0.
Proof.
  intros f g a b L Df A B.
  destruct (MVT_cor2 f g a b L) as (x & E & X).
  - intros. apply Df.
  - exists x. split; auto. rewrite A, B in E. assert (g x * (b - a) = 0) as M by lra. apply Rmult_integral in M. destruct M; lra.
Qed.

(** A polynomial of degree [k] with [k + 1] zeros in the interval has no coefficients. *)
Lemma piece_zero : forall k c xs, (k <= l)%nat ->
  (forall i, (i < k)%nat -> xs i < xs (S i)) -> (forall i, (i <= k)%nat -> t l <= xs i <= t (S l)) ->
  (forall i, (i <= k)%nat -> piece k c (xs i) = 0) -> forall i, (i <= l)%nat -> (l <= i + k)%nat -> c i = 0.
Proof.
  induction k; intros c xs H I B Z.
  - intros i A C. assert (i = l) by lia. subst i. specialize (Z 0%nat ltac:(lia)). unfold piece in Z.
    rewrite (sumn_single _ _ l) in Z; try lia.
    + cbn [D] in Z. rewrite Nat.eqb_refl in Z. lra.
    + intros j _ J. cbn [D]. destruct (Nat.eqb_spec j l); [contradiction|ring].
  - assert (R : exists ys, forall i, (i < S k)%nat -> xs i < ys i < xs (S i) /\ piece k (slope k c) (ys i) = 0).
    { apply (pick (fun i y => xs i < y < xs (S i) /\ piece k (slope k c) y = 0)). intros i J.
      destruct (rolle (piece (S k) c) (fun x => INR (S k) * piece k (slope k c) x) (xs i) (xs (S i))) as (y & Y & E).
      - apply I. auto.
      - intros x. apply piece_deriv. lia.
      - apply Z. lia.
      - apply Z. lia.
      - exists y. split; auto. apply Rmult_integral in E. destruct E as [E|]; auto. exfalso. revert E. apply not_0_INR. lia. }
    destruct R as (ys & Y).
    assert (S0 : forall i, (i <= l)%nat -> (l <= i + k)%nat -> slope k c i = 0).
    { apply (IHk (slope k c) ys); try lia.
      - intros i J. destruct (Y i ltac:(lia)) as ((_ & P) & _). destruct (Y (S i) ltac:(lia)) as ((Q & _) & _). lra.
      - intros i J. destruct (Y i ltac:(lia)) as (P & _). pose proof (B i ltac:(lia)). pose proof (B (S i) ltac:(lia)). lra.
      - intros i J. apply Y. lia. }
    assert (EQ : forall i, (i <= l)%nat -> (l <= i + k)%nat -> c i = c (i - 1)%nat).
    { intros i A C. specialize (S0 i A C). unfold slope in S0. pose proof (gap k i A C).
      assert (c i - c (i - 1)%nat = 0) as M; [|lra].
      replace (c i - c (i - 1)%nat) with ((c i - c (i - 1)%nat) / (t (i + S k)%nat - t i) * (t (i + S k)%nat - t i)) by (field; lra). rewrite S0. ring. }
    assert (K : forall j, (j <= S k)%nat -> c (l - S k + j)%nat = c (l - S k)%nat).
    { induction j; intros J.
      - rewrite Nat.add_0_r. auto.
      - rewrite EQ by lia. replace (l - S k + S j - 1)%nat with (l - S k + j)%nat by lia. apply IHj. lia. }
    assert (c (l - S k)%nat = 0) as Z0.
    { pose proof (Z 0%nat ltac:(lia)) as P. rewrite (piece_ext (S k) c (fun _ => c (l - S k)%nat)) in P.
      - rewrite piece_one in P; auto. apply B. lia.
      - intros i A C. replace i with (l - S k + (i - (l - S k)))%nat by lia. apply K. lia. }
    intros i A C. replace i with (l - S k + (i - (l - S k)))%nat by lia. rewrite K by lia. auto.
Qed.
End Interval.

(** ** The whole curve *)
Definition coef (cv : list R) (i : nat) : R := nth i cv 0.

Lemma spline_piece : forall cv k x, (k < List.length cv)%nat -> 0 <= x <= INR (List.length cv - k) ->
  let t := knot (List.length cv) k in let l := span t (List.length cv - 1 - k) k x in
  spline_value cv k x = piece t l k (coef cv) x.
Proof.
  intros cv k x H X t l. unfold spline_value, piece. set (c := List.length cv) in *.
  destruct (knot_span c k x H X) as (A & _). fold t in A. fold l in A.
  assert (E : forall i, basis_fun c k i x = D t x l k i) by (intros; apply D_cox; apply base_cox; auto).
  rewrite (sumn_ext c _ (fun i => nth i cv 0 * D t x l k i)) by (intros; rewrite E; auto).
  assert (P : forall n, (l < n)%nat -> sumn n (fun i => nth i cv 0 * D t x l k i) = sumn (S l) (fun i => nth i cv 0 * D t x l k i)).
  { induction n; intros N; [lia|]. destruct (Nat.eq_dec n l) as [->|]; auto. cbn [sumn] in *. rewrite IHn by lia. rewrite (D_support t x l k n) by lia. ring. }
  apply P. lia.
Qed.

Lemma knot_span_at : forall c k x m, (k < c)%nat -> (m < c - k)%nat -> INR m <= x < INR (S m) -> span (knot c k) (c - 1 - k) k x = (k + m)%nat.
Proof.
  intros c k x m H M X. assert (X' : 0 <= x <= INR (c - k)).
  { pose proof (pos_INR m). pose proof (le_INR (S m) (c - k) ltac:(lia)). lra. }
  destruct (knot_span c k x H X') as (A & B & _ & C). set (l := span _ _ _ _) in *.
  destruct A as (A1 & A2). rewrite !knot_in in B by lia. 
  assert (m < S (l - k))%nat. { apply INR_lt. replace (S (l - k)) with (S l - k)%nat by lia. destruct C as [C|C].
    - rewrite knot_in in C by lia. lra.
    - pose proof (lt_INR m (S l - k) ltac:(lia)). lra. }
  assert (l - k < S m)%nat by (apply INR_lt; lra). lia.
Qed.

(** ** Linear precision *)
Definition ksum (t : nat -> R) (k i : nat) : R := sumn k (fun j => t (S (i + j))).
Lemma piece_scale : forall t l k a c x, piece t l k (fun i => a * c i) x = a * piece t l k c x.
Proof. intros. unfold piece. rewrite <- sumn_scal. apply sumn_ext. intros. ring. Qed.
Lemma piece_linear : forall t l k x, (forall i j, (i <= j)%nat -> t i <= t j) -> t l < t (S l) -> (k <= l)%nat -> t l <= x <= t (S l) ->
  piece t l k (ksum t k) x = INR k * x.
Proof.
  intros t l k x M O. induction k; intros H X.
  - unfold piece, ksum. rewrite sumn_zero; [simpl; ring|]. intros. simpl. ring.
  - rewrite piece_raise by auto.
    assert (A : forall i, (1 <= i)%nat -> ksum t (S k) (i - 1) = t i + ksum t k i).
    { intros i I. unfold ksum. rewrite sumn_shift. replace (S (i - 1 + 0)) with i by lia. f_equal. apply sumn_ext. intros j _. f_equal. lia. }
    assert (B : forall i, ksum t (S k) i = ksum t k i + t (i + S k)%nat).
    { intros i. unfold ksum. cbn [sumn]. f_equal. f_equal. lia. }
    rewrite (piece_ext t l k (lower t k (ksum t (S k))) (ksum t k)).
    + rewrite (piece_ext t l k (slope t k (ksum t (S k))) (fun _ => 1)).
      * rewrite IHk, piece_one by (auto; lia). rewrite S_INR. ring.
      * intros i I J. unfold slope. rewrite A, B by lia. pose proof (gap t M l O k i I J). field. lra.
    + intros i I J. unfold lower. rewrite A, B by lia. pose proof (gap t M l O k i I J). field. lra.
Qed.
Lemma greville_linear : forall c k x, (1 <= k < c)%nat -> 0 <= x <= INR (c - k) ->
  spline_value (map (greville c k) (seq 0 c)) k x = x.
Proof.
  intros c k x H X. set (cv := map (greville c k) (seq 0 c)). assert (LC : List.length cv = c) by (unfold cv; rewrite map_length, seq_length; auto).
  rewrite spline_piece; rewrite LC; try lia; auto. destruct (knot_span c k x ltac:(lia) X) as (A & B & C & _). set (l := span _ _ _ _) in *.
  assert (P : 0 < INR k) by (apply lt_0_INR; lia).
  rewrite (piece_ext (knot c k) l k (coef cv) (fun i => / INR k * ksum (knot c k) k i)).
  - rewrite piece_scale, piece_linear; auto; try lia; [field; lra|apply knot_mono].
  - intros i I J. unfold coef, cv. rewrite (nth_indep _ 0 (greville c k 0)) by (rewrite map_length, seq_length; lia). rewrite map_nth, seq_nth by lia.
    unfold greville, ksum. simpl (0 + i)%nat. unfold Rdiv. rewrite Rmult_comm. f_equal.
Qed.
Lemma even_value : forall c k a b x, (1 <= k < c)%nat -> 0 <= x <= INR (c - k) ->
  spline_value (even_control c k a b) k x = a + x / INR (c - k) * (b - a).
Proof.
  intros c k a b x H X. pose proof (greville_linear c k x H X) as G. assert (Q : 0 < INR (c - k)) by (apply lt_0_INR; lia).
  pose proof (spline_comb (seq 0 c) (greville c k) (greville c k) ((b - a) / INR (c - k)) 0 a k x) as L. rewrite seq_length, G in L.
  unfold even_control. erewrite map_ext; [rewrite L by (auto; lia); field; lra|]. intros i. cbv beta. field. lra.
Qed.
Lemma even_length : forall c k a b, List.length (even_control c k a b) = c.
Proof. intros. unfold even_control. rewrite map_length, seq_length. auto. Qed.
Lemma even_curve : forall c npoints degree a b, fits c npoints degree -> (1 <= degree)%Z -> (2 <= npoints)%Z ->
  bspline1 (even_control c (Z.to_nat degree) a b) npoints degree = Ok (linspace a b (Z.to_nat npoints)).
Proof.
  intros c np dg a b F D2 N. pose proof F as (F1 & F2 & F3). rewrite bspline1_ok by (rewrite even_length; auto). rewrite even_length. f_equal. unfold linspace.
  apply map_ext_in. intros i I. apply in_seq in I.
  rewrite even_value; [|lia|apply sample_range; lia]. unfold sample.
  assert (0 < INR (c - Z.to_nat dg)) by (apply lt_0_INR; lia). assert (0 < INR (Z.to_nat np - 1)) by (apply lt_0_INR; lia). field. lra.
Qed.
