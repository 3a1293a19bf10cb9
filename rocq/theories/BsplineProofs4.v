(** Zeros of B-splines: as many samples as control points determine them. *)
From Coq Require Import Reals List ZArith Lra Lia Classical.
From Verif Require Import Base SolveModel SolveProofs BsplineModel BsplineSpec BsplineProofs BsplineProofs2 BsplineProofs3.
Import ListNotations.
Open Scope R_scope.

(** ** Alternating values *)
(** [n] points after [lo] and before [hi] where [f] has the signs s, -s, s, ... *)
Fixpoint alt (f : R -> R) (s lo : R) (n : nat) (hi : R) : Prop :=
  match n with
  | O => True
  | S n' => exists y, lo < y < hi /\ 0 < s * f y /\ alt f (- s) y n' hi
  end.
(** What the mean value theorem says. *)
Definition rises (f g : R -> R) (lo hi : R) : Prop :=
  forall s u v, lo <= u -> u < v -> v <= hi -> 0 < s * (f v - f u) -> exists z, u < z < v /\ 0 < s * g z.

Lemma alt_lower : forall f n s lo lo' hi, lo' <= lo -> alt f s lo n hi -> alt f s lo' n hi.
Proof. intros f [|n] s lo lo' hi L H; simpl in *; auto. destruct H as (y & Y & P & A). exists y. split; auto. lra. Qed.

Lemma alt_next : forall f g lo hi, rises f g lo hi -> forall n s y, lo <= y <= hi -> 0 < s * f y -> alt f (- s) y n hi -> alt g (- s) y n hi.
Proof.
  intros f g lo hi M. induction n; intros s y Y P A; simpl in *; auto.
  destruct A as (y' & Y' & P' & A). destruct (M (- s) y y') as (z & Z & Q); try lra.
  exists z. split; [lra|]. split; auto.
  apply (alt_lower g n _ y' z hi); [lra|]. apply (IHn (- s)); auto. lra.
Qed.
Lemma alt_next_end : forall f g lo hi, rises f g lo hi -> f hi = 0 -> forall n s y, lo <= y < hi -> 0 < s * f y -> alt f (- s) y n hi -> alt g (- s) y (S n) hi.
Proof.
  intros f g lo hi M F. induction n; intros s y Y P A.
  - destruct (M (- s) y hi) as (z & Z & Q); try (rewrite ?F; lra). exists z. simpl. split; auto.
  - simpl in A. destruct A as (y' & Y' & P' & A). destruct (M (- s) y y') as (z & Z & Q); try lra.
    exists z. split; [lra|]. split; auto.
    apply (alt_lower g (S n) _ y' z hi); [lra|]. apply (IHn (- s)); auto. lra.
Qed.

(** One derivative: one point less, one more for each end where [f] vanishes. *)
Lemma alt_step : forall f g lo hi (a b : bool), rises f g lo hi -> (a = true -> f lo = 0) -> (b = true -> f hi = 0) ->
  forall n s, alt f s lo (S n) hi -> exists s', alt g s' lo (n + (if a then 1 else 0) + (if b then 1 else 0)) hi.
Proof.
  intros f g lo hi a b M FA FB n s (y & Y & P & A).
  assert (T : alt g (- s) y (n + (if b then 1 else 0)) hi).
  { destruct b.
    - rewrite Nat.add_1_r. apply (alt_next_end f g lo hi M (FB eq_refl)); auto. lra.
    - rewrite Nat.add_0_r. apply (alt_next f g lo hi M); auto. lra. }
  destruct a.
  - destruct (M s lo y) as (z & Z & Q); try lra. { rewrite (FA eq_refl), Rminus_0_r. auto. }
    exists s. replace (n + 1 + (if b then 1 else 0))%nat with (S (n + (if b then 1 else 0))) by lia.
    exists z. split; [lra|]. split; auto. apply (alt_lower g _ _ y z hi); [lra|]. auto.
  - exists (- s). rewrite Nat.add_0_r. apply (alt_lower g _ _ y lo hi); [lra|]. auto.
Qed.

(** Zeros, with non-zero values in between. *)
Lemma alt_zeros : forall f g lo hi, rises f g lo hi -> forall n z,
  (forall i, (i < n)%nat -> z i < z (S i)) -> lo <= z 0%nat -> z n <= hi ->
  (forall i, (i <= n)%nat -> f (z i) = 0) -> (forall i, (i < n)%nat -> exists w, z i < w < z (S i) /\ f w <> 0) -> (1 <= n)%nat ->
  exists s, alt g s (z 0%nat) (S n) hi.
Proof.
  intros f g lo hi M. induction n; intros z I LO HI F W N; [lia|].
  assert (MON : forall i, (i <= S n)%nat -> z i <= hi).
  { intros i J. replace i with (S n - (S n - i))%nat by lia. generalize (S n - i)%nat. intros d. induction d.
    - rewrite Nat.sub_0_r. auto.
    - destruct (Nat.eq_dec (S n - d) 0). { replace (S n - S d)%nat with (S n - d)%nat by lia. auto. }
      specialize (I (S n - S d)%nat ltac:(lia)). replace (S (S n - S d)) with (S n - d)%nat in I by lia. lra. }
  destruct (W 0%nat ltac:(lia)) as (w & Y & FW). pose proof (MON 1%nat ltac:(lia)) as H1.
  assert (SG : forall s, s * f w <> 0 -> (exists y, z 0%nat < y < z 1%nat /\ 0 < s * g y)).
  { intros s NZ. destruct (Rtotal_order 0 (s * f w)) as [P|[P|P]]; [|congruence|].
    - destruct (M s (z 0%nat) w) as (y & Z & Q); try lra; try (rewrite (F 0%nat) by lia; lra). exists y. split; auto. lra.
    - destruct (M s w (z 1%nat)) as (y & Z & Q); try lra; try (rewrite (F 1%nat) by lia; lra). exists y. split; auto. lra. }
  destruct n.
  - destruct (Rtotal_order 0 (f w)) as [P|[P|P]]; [|congruence|].
    + exists 1. destruct (M 1 (z 0%nat) w) as (y & Z & Q); try lra; try (rewrite (F 0%nat) by lia; lra).
      destruct (M (-1) w (z 1%nat)) as (y' & Z' & Q'); try lra; try (rewrite (F 1%nat) by lia; lra).
      exists y. split; [lra|]. split; auto. exists y'. split; [lra|]. split; [|simpl; auto]. lra.
    + exists (-1). destruct (M (-1) (z 0%nat) w) as (y & Z & Q); try lra; try (rewrite (F 0%nat) by lia; lra).
      destruct (M 1 w (z 1%nat)) as (y' & Z' & Q'); try lra; try (rewrite (F 1%nat) by lia; lra).
      exists y. split; [lra|]. split; auto. exists y'. split; [lra|]. split; [|simpl; auto]. lra.
  - destruct (IHn (fun i => z (S i))) as (s & A); try lia; auto.
    + intros. apply I. lia.
    + specialize (I 0%nat ltac:(lia)). lra.
    + intros. apply F. lia.
    + intros. apply W. lia.
    + assert (s <> 0). { intros ->. destruct A as (y & _ & P & _). lra. }
      destruct (SG (- s)) as (y & Z & Q). { intros E. apply Rmult_integral in E. destruct E; [lra|contradiction]. }
      exists (- s). exists y. split; [lra|]. split; auto. rewrite Ropp_involutive. apply (alt_lower g _ _ (z 1%nat) y hi); [lra|]. exact A.
Qed.

(** ** The curve and its derivatives, knot interval by knot interval *)
Section Curve.
Variables c K : nat.
Hypothesis KC : (K < c)%nat.
Let m := (c - K)%nat.
Let t := knot c K.

Definition pc (j k : nat) (a : nat -> R) (x : R) : R := piece t (K + j) k a x.
Definition val (k : nat) (a : nat -> R) (x : R) : R := piece t (span t (c - 1 - K) K x) k a x.
(** Interval [j] does not see any coefficient. *)
Definition flat (k : nat) (a : nat -> R) (j : nat) : Prop := forall i, (i <= K + j)%nat -> (K + j <= i + k)%nat -> a i = 0.

Lemma t_at : forall j, (j <= m)%nat -> t (K + j) = INR j.
Proof. intros j J. unfold t. rewrite knot_in by (unfold m in J; lia). f_equal. lia. Qed.
Lemma t_next : forall j, (j < m)%nat -> t (S (K + j)) = INR (S j).
Proof. intros j J. replace (S (K + j)) with (K + S j)%nat by lia. apply t_at. lia. Qed.
Lemma t_open : forall j, (j < m)%nat -> t (K + j) < t (S (K + j)).
Proof. intros j J. rewrite t_at, t_next by lia. apply lt_INR. lia. Qed.

Lemma meet : forall k j a, (1 <= k <= K)%nat -> (S j < m)%nat -> pc j k a (INR (S j)) = pc (S j) k a (INR (S j)).
Proof.
  induction k; intros j a H J; [lia|]. unfold pc.
  assert (O1 := t_open j ltac:(lia)). assert (O2 := t_open (S j) ltac:(lia)).
  rewrite (piece_raise t (knot_mono c K) (K + j) O1 k) by lia. rewrite (piece_raise t (knot_mono c K) (K + S j) O2 k) by lia.
  destruct k.
  - assert (E : forall l b x, piece t l 0 b x = b l).
    { intros l b x. unfold piece. rewrite (sumn_single _ _ l); try lia.
      - cbn [D]. rewrite Nat.eqb_refl. ring.
      - intros i _ I. cbn [D]. destruct (Nat.eqb_spec i l); [contradiction|ring]. }
    rewrite !E. unfold lower, slope. rewrite !Nat.add_1_r. replace (K + S j - 1)%nat with (K + j)%nat by lia.
    rewrite t_next in * by lia. rewrite (t_next (S j)) in * by lia. rewrite (t_at (S j)) in * by lia. rewrite t_at in * by lia. field. lra.
  - pose proof (IHk j (lower t (S k) a) ltac:(lia) J) as E1. pose proof (IHk j (slope t (S k) a) ltac:(lia) J) as E2. unfold pc in E1, E2. rewrite E1, E2. auto.
Qed.

Lemma val_open : forall k a j x, (j < m)%nat -> INR j <= x < INR (S j) -> val k a x = pc j k a x.
Proof. intros k a j x J X. unfold val, pc, t. rewrite (knot_span_at c K x j) by (auto; fold m; auto). auto. Qed.
Lemma val_in : forall k a j x, (1 <= k <= K)%nat -> (j < m)%nat -> INR j <= x <= INR (S j) -> val k a x = pc j k a x.
Proof.
  intros k a j x H J X. destruct (Rle_lt_or_eq_dec _ _ (proj2 X)) as [L|E].
  - apply val_open; auto. lra.
  - destruct (Nat.eq_dec (S j) m) as [L|L].
    + unfold val, pc. rewrite E. rewrite L. unfold m, t. rewrite span_end by auto. f_equal. unfold m in L. lia.
    + rewrite E. rewrite meet by (auto; lia). apply val_open; [lia|]. split; [lra|]. apply lt_INR. lia.
Qed.
Lemma interval_of : forall x, 0 <= x < INR m -> exists j, (j < m)%nat /\ INR j <= x < INR (S j).
Proof.
  intros x. generalize m. intros n. induction n; intros X; [simpl in X; lra|]. destruct (Rlt_le_dec x (INR n)) as [L|L].
  - destruct IHn as (j & J & Y); [lra|]. exists j. split; auto.
  - exists n. split; auto. lra.
Qed.

(** Mean value theorem across knots. *)
Lemma rise_in : forall k a j s u v, (S k <= K)%nat -> (j < m)%nat -> INR j <= u -> u < v -> v <= INR (S j) ->
  0 < s * (val (S k) a v - val (S k) a u) -> exists z, u < z < v /\ 0 < s * val k (slope t k a) z.
Proof.
  intros k a j s u v H J A B C P. rewrite (val_in (S k) a j v), (val_in (S k) a j u) in P by (try split; try lra; lia).
  destruct (MVT_cor2 (pc j (S k) a) (fun x => INR (S k) * pc j k (slope t k a) x) u v B) as (z & E & Z).
  - intros x _. apply (piece_deriv t (knot_mono c K) (K + j) (t_open j J) k). lia.
  - exists z. split; auto. rewrite (val_open k _ j) by (auto; lra). rewrite E in P.
    assert (Q : 0 < INR (S k)) by (apply lt_0_INR; lia).
    replace (s * (INR (S k) * pc j k (slope t k a) z * (v - u))) with (s * pc j k (slope t k a) z * (INR (S k) * (v - u))) in P by ring.
    apply Rmult_lt_reg_r with (INR (S k) * (v - u)); [|lra]. apply Rmult_lt_0_compat; lra.
Qed.
Lemma rise_all : forall k a, (S k <= K)%nat -> rises (val (S k) a) (val k (slope t k a)) 0 (INR m).
Proof.
  intros k a H s u v A B C P.
  assert (Q : forall d j u, (m - j <= d)%nat -> (j < m)%nat -> INR j <= u < INR (S j) -> u < v -> 0 < s * (val (S k) a v - val (S k) a u) ->
    exists z, u < z < v /\ 0 < s * val k (slope t k a) z).
  { induction d; intros j w D J W WV PW; [lia|]. destruct (Rle_lt_dec v (INR (S j))) as [L|L].
    - apply (rise_in k a j s w v); auto. lra.
    - assert (SJ : (S j < m)%nat) by (apply INR_lt; lra).
      destruct (Rlt_le_dec 0 (s * (val (S k) a (INR (S j)) - val (S k) a w))) as [Y|Y].
      + destruct (rise_in k a j s w (INR (S j))) as (z & Z & ZP); auto; try lra. exists z. split; auto. lra.
      + destruct (IHd (S j) (INR (S j))) as (z & Z & ZP); auto; try lia; try lra.
        * split; [lra|]. apply lt_INR. lia.
        * exists z. split; auto. lra. }
  destruct (interval_of u ltac:(lra)) as (j & J & U). apply (Q (m - j)%nat j u); auto.
Qed.
Lemma rises_sub : forall f g lo hi lo' hi', rises f g lo hi -> lo <= lo' -> hi' <= hi -> rises f g lo' hi'.
Proof. intros f g lo hi lo' hi' M A B s u v P Q R S. apply M; auto; lra. Qed.

Lemma flat_slope : forall k a j, (S k <= K)%nat -> flat (S k) a j -> flat k (slope t k a) j.
Proof. intros k a j H Z i A B. unfold slope. rewrite (Z i), (Z (i - 1)%nat) by lia. unfold Rdiv. ring. Qed.
Lemma flat_value : forall k a j x, flat k a j -> pc j k a x = 0.
Proof.
  intros k a j x Z. unfold pc. rewrite (piece_ext t (K + j) k a (fun _ => 0)) by (intros; apply Z; auto).
  unfold piece. apply sumn_zero. intros. ring.
Qed.
Lemma flat_right : forall k a p, (1 <= k <= K)%nat -> (p < m)%nat -> (0 < p)%nat -> flat k a (p - 1) -> val k a (INR p) = 0.
Proof.
  intros k a p H P P0 Z. rewrite (val_in k a (p - 1)) by (first [lia | replace (S (p - 1)) with p by lia; split; [apply le_INR; lia|lra]]). apply flat_value; auto.
Qed.
Lemma flat_left : forall k a q, (q < m)%nat -> flat k a q -> val k a (INR q) = 0.
Proof. intros k a q Q Z. rewrite (val_open k a q) by (first [lia | split; [lra|apply lt_INR; lia]]). apply flat_value; auto. Qed.

(** A piecewise constant curve changes sign at most once per knot. *)
Lemma steps_alternate : forall a q, (q <= m)%nat -> forall n s j y, (j < m)%nat -> INR j <= y < INR (S j) -> y < INR q -> 0 < s * val 0 a y ->
  alt (val 0 a) (- s) y n (INR q) -> (n + 1 + j <= q)%nat.
Proof.
  intros a q Q. induction n; intros s j y J Y YQ P A.
  - assert (j < q)%nat by (apply INR_lt; lra). lia.
  - destruct A as (y' & Y' & P' & A). destruct (interval_of y') as (j' & J' & I').
    { pose proof (pos_INR j). pose proof (le_INR q m Q). lra. }
    assert (j <= j')%nat. { assert (j < S j')%nat by (apply INR_lt; lra). lia. }
    assert (j <> j').
    { intros <-. rewrite (val_open 0 a j) in P, P' by (auto; lra).
      assert (E : forall x, pc j 0 a x = a (K + j)%nat).
      { intros x. unfold pc, piece. rewrite (sumn_single _ _ (K + j)); try lia.
        - cbn [D]. rewrite Nat.eqb_refl. ring.
        - intros i _ I. cbn [D]. destruct (Nat.eqb_spec i (K + j)); [contradiction|ring]. }
      rewrite E in P, P'. lra. }
    specialize (IHn (- s) j' y' J' I' ltac:(lra) P' A). lia.
Qed.

(** The count of alternations on a stretch [p, q] of knot intervals. *)
Lemma alternations : forall p q (u v : bool), (p < q)%nat -> (q <= m)%nat -> (u = true -> (0 < p)%nat) -> (v = true -> (q < m)%nat) ->
  forall k a s n, (k <= K)%nat -> (u = true -> flat k a (p - 1)) -> (v = true -> flat k a q) ->
  alt (val k a) s (INR p) (S n) (INR q) -> (S n + k * ((if u then 1 else 0) + (if v then 1 else 0)) <= q - p + k)%nat.
Proof.
  intros p q u v PQ QM U V. induction k; intros a s n H FU FV A.
  - destruct A as (y & Y & P & A). destruct (interval_of y) as (j & J & I).
    { pose proof (pos_INR p). pose proof (le_INR q m QM). lra. }
    pose proof (steps_alternate a q QM n s j y J I ltac:(lra) P A) as B.
    assert (p < S j)%nat by (apply INR_lt; lra). lia.
  - assert (M : rises (val (S k) a) (val k (slope t k a)) (INR p) (INR q)).
    { apply (rises_sub _ _ 0 (INR m)); [apply rise_all; auto|apply pos_INR|apply le_INR; auto]. }
    destruct (alt_step _ _ _ _ u v M) with (n := n) (s := s) as (s' & B); auto.
    + intros E. apply flat_right; auto; lia.
    + intros E. apply flat_left; auto.
    + set (r := (n + (if u then 1 else 0) + (if v then 1 else 0))%nat) in *. destruct r eqn:ER.
      * assert (n = 0)%nat by (unfold r in ER; lia). destruct u, v; unfold r in ER; lia.
      * assert (C := IHk (slope t k a) s' n0 ltac:(lia) (fun E => flat_slope k a _ H (FU E)) (fun E => flat_slope k a _ H (FV E)) B).
        unfold r in ER. destruct u, v; lia.
Qed.

(** Between two points of an interval that is not flat the curve is not zero throughout. *)
Lemma somewhere_nonzero : forall a j u v, (1 <= K)%nat -> (j < m)%nat -> INR j <= u -> u < v -> v <= INR (S j) -> ~ flat K a j -> exists w, u < w < v /\ val K a w <> 0.
Proof.
  intros a j u v K1 J A B C N. apply NNPP. intros E. apply N. clear N.
  assert (Z : forall w, u < w < v -> pc j K a w = 0).
  { intros w W. rewrite <- (val_in K a j w) by (auto; lra). apply NNPP. intros Q. apply E. exists w. auto. }
  unfold flat. pose (xs := fun i => u + INR (S i) * ((v - u) / INR (K + 2))).
  assert (PK : 0 < INR (K + 2)) by (apply lt_0_INR; lia).
  assert (PD : 0 < (v - u) / INR (K + 2)) by (apply Rdiv_lt_0_compat; lra).
  assert (X : forall i, (i <= K)%nat -> u < xs i < v).
  { intros i I. unfold xs. assert (0 < INR (S i)) by (apply lt_0_INR; lia). assert (INR (S i) < INR (K + 2)) by (apply lt_INR; lia).
    split; [pose proof (Rmult_lt_0_compat _ _ H PD); lra|].
    pose proof (Rmult_lt_compat_r _ _ _ PD H0) as L. replace (INR (K + 2) * ((v - u) / INR (K + 2))) with (v - u) in L by (field; lra). lra. }
  apply (piece_zero t (knot_mono c K) (K + j) (t_open j J) K a xs); try lia.
  - intros i I. unfold xs. assert (INR (S i) < INR (S (S i))) by (apply lt_INR; lia). pose proof (Rmult_lt_compat_r _ _ _ PD H). lra.
  - intros i I. specialize (X i I). rewrite t_at, t_next by lia. lra.
  - intros i I. apply Z. apply X. auto.
Qed.

(** Number of zeros on a stretch of intervals none of which is flat. *)
Lemma count_zeros : forall p q (u v : bool) a n z, (1 <= K)%nat -> (p < q)%nat -> (q <= m)%nat -> (u = true -> (0 < p)%nat) -> (v = true -> (q < m)%nat) ->
  (forall j, (p <= j < q)%nat -> ~ flat K a j) -> (u = true -> flat K a (p - 1)) -> (v = true -> flat K a q) ->
  (forall i, (i < n)%nat -> z i < z (S i)) -> INR p <= z 0%nat -> z n <= INR q -> (forall i, (i <= n)%nat -> val K a (z i) = 0) -> (1 <= n)%nat ->
  (S n + (K - 1) * ((if u then 1 else 0) + (if v then 1 else 0)) <= q - p + (K - 1))%nat.
Proof.
  intros p q u v a n z K1 PQ QM U V NF FU FV I LO HI Z N.
  set (k := (K - 1)%nat). assert (EK : K = S k) by (unfold k; lia). clearbody k.
  assert (M : rises (val (S k) a) (val k (slope t k a)) (INR p) (INR q)).
  { apply (rises_sub _ _ 0 (INR m)); [apply rise_all; lia|apply pos_INR|apply le_INR; auto]. }
  assert (MON : forall i j, (i <= j)%nat -> (j <= n)%nat -> z i <= z j).
  { intros i j IJ. induction IJ; intros; [lra|]. specialize (I m0 ltac:(lia)). specialize (IHIJ ltac:(lia)). lra. }
  destruct (alt_zeros _ _ _ _ M n z) as (s & A); auto.
  - intros i J. rewrite <- EK. auto.
  - intros i J. rewrite <- EK. specialize (I i J). pose proof (MON 0%nat i ltac:(lia) ltac:(lia)). pose proof (MON (S i) n ltac:(lia) ltac:(lia)).
    pose proof (pos_INR p). pose proof (le_INR q m QM).
    destruct (interval_of (z i) ltac:(lra)) as (j & JM & J1).
    assert (p < S j)%nat by (apply INR_lt; lra). assert (j < q)%nat by (apply INR_lt; lra).
    destruct (somewhere_nonzero a j (z i) (Rmin (z (S i)) (INR (S j)))) as (w & W & NZ); auto; try lra.
    + apply Rmin_glb_lt; lra.
    + apply Rmin_r.
    + apply NF. lia.
    + exists w. split; auto. pose proof (Rmin_l (z (S i)) (INR (S j))). lra.
  - apply (alternations p q u v PQ QM U V k (slope t k a) s n); try lia.
    + intros E. apply flat_slope; [lia|]. rewrite <- EK. auto.
    + intros E. apply flat_slope; [lia|]. rewrite <- EK. auto.
    + apply (alt_lower _ _ _ (z 0%nat)); auto.
Qed.
End Curve.

(** A maximal stretch around an interval where [P] fails. *)
Lemma stretch : forall (P : nat -> Prop) m j, (j < m)%nat -> ~ P j -> exists p q (u v : bool), (p < q)%nat /\ (q <= m)%nat /\
  (forall i, (p <= i < q)%nat -> ~ P i) /\
  (if u then (0 < p)%nat /\ P (p - 1)%nat else p = 0%nat) /\ (if v then (q < m)%nat /\ P q else q = m).
Proof.
  intros P m j J N.
  assert (L : exists p (u : bool), (p <= j)%nat /\ (forall i, (p <= i <= j)%nat -> ~ P i) /\ (if u then (0 < p)%nat /\ P (p - 1)%nat else p = 0%nat)).
  { clear J. induction j.
    - exists 0%nat, false. split; auto. split; auto. intros i I. assert (i = 0%nat) as -> by lia. auto.
    - destruct (classic (P j)) as [Y|Y].
      + exists (S j), true. split; auto. split. { intros i I. assert (i = S j) as -> by lia. auto. } split; [lia|]. replace (S j - 1)%nat with j by lia. auto.
      + destruct (IHj Y) as (p & u & A & B & C). exists p, u. split; [lia|]. split; auto. intros i I. destruct (Nat.eq_dec i (S j)) as [->|]; auto. apply B. lia. }
  assert (R : exists q (v : bool), (j < q)%nat /\ (q <= m)%nat /\ (forall i, (j <= i < q)%nat -> ~ P i) /\ (if v then (q < m)%nat /\ P q else q = m)).
  { clear L. remember (m - j)%nat as d eqn:E. revert j J N E. induction d; intros j J N E; [lia|].
    destruct (Nat.eq_dec (S j) m) as [M|M].
    - exists m, false. split; auto. split; auto. split; auto. intros i I. assert (i = j) as -> by lia. auto.
    - destruct (classic (P (S j))) as [Y|Y].
      + exists (S j), true. split; auto. split; [lia|]. split. { intros i I. assert (i = j) as -> by lia. auto. } split; [lia|auto].
      + destruct (IHd (S j) ltac:(lia) Y ltac:(lia)) as (q & v & A & B & C & F). exists q, v. split; [lia|]. split; auto. split; auto.
        intros i I. destruct (Nat.eq_dec i j) as [->|]; auto. apply C. lia. }
  destruct L as (p & u & A & B & C). destruct R as (q & v & F & G & H & I). exists p, q, u, v.
  split; [lia|]. split; auto. split; auto. intros i X. destruct (Nat.le_gt_cases i j); [apply B|apply H]; lia.
Qed.

Lemma sample_strict : forall c k n i j, (k < c)%nat -> (i < j)%nat -> (j < n)%nat -> sample c k n i < sample c k n j.
Proof.
  intros c k n i j H I J. unfold sample. apply Rmult_lt_compat_r.
  - apply Rdiv_lt_0_compat; apply lt_0_INR; lia.
  - apply lt_INR. auto.
Qed.
Lemma sample_below : forall c k n i a, (2 <= n)%nat -> (i * (c - k) < a * (n - 1))%nat -> sample c k n i < INR a.
Proof.
  intros c k n i a N H. assert (P : 0 < INR (n - 1)) by (apply lt_0_INR; lia). apply lt_INR in H. rewrite !mult_INR in H. unfold sample.
  apply Rmult_lt_reg_r with (INR (n - 1)); auto. replace (INR i * (INR (c - k) / INR (n - 1)) * INR (n - 1)) with (INR i * INR (c - k)) by (field; lra). auto.
Qed.
Lemma sample_above : forall c k n i a, (2 <= n)%nat -> (a * (n - 1) < i * (c - k))%nat -> INR a < sample c k n i.
Proof.
  intros c k n i a N H. assert (P : 0 < INR (n - 1)) by (apply lt_0_INR; lia). apply lt_INR in H. rewrite !mult_INR in H. unfold sample.
  apply Rmult_lt_reg_r with (INR (n - 1)); auto. replace (INR i * (INR (c - k) / INR (n - 1)) * INR (n - 1)) with (INR i * INR (c - k)) by (field; lra). auto.
Qed.
Lemma sample_from : forall c k n i a, (2 <= n)%nat -> (a * (n - 1) <= i * (c - k))%nat -> INR a <= sample c k n i.
Proof.
  intros c k n i a N H. assert (P : 0 < INR (n - 1)) by (apply lt_0_INR; lia). apply le_INR in H. rewrite !mult_INR in H. unfold sample.
  apply Rmult_le_reg_r with (INR (n - 1)); auto. replace (INR i * (INR (c - k) / INR (n - 1)) * INR (n - 1)) with (INR i * INR (c - k)) by (field; lra). auto.
Qed.

(** Points spread over the knot intervals. *)
Definition spread (m n : nat) (x : nat -> R) : Prop :=
  (forall i, (S i < n)%nat -> x i < x (S i)) /\ 0 <= x 0%nat /\ x (n - 1)%nat <= INR m /\
  (forall q i, (q < m)%nat -> (i < q)%nat -> (i < n)%nat /\ x i < INR q) /\
  (forall p i, (0 < p)%nat -> (i < m - p)%nat -> (i < n)%nat /\ INR p < x (n - 1 - i)%nat) /\
  (forall p q, (0 < p)%nat -> (p < q)%nat -> (q < m)%nat -> exists i0, forall i, (S i < q - p)%nat -> (i0 + i < n)%nat /\ INR p < x (i0 + i)%nat < INR q).

Section Points.
Variable cv : list R.
Variables k n : nat.
Variable x : nat -> R.
Let c := List.length cv.
Hypothesis KC : (k < c)%nat.
Hypothesis N : (c <= n)%nat.
Hypothesis SP : spread (c - k) n x.
Hypothesis Z : forall i, (i < n)%nat -> spline_value cv k (x i) = 0.

Lemma spread_strict : forall i j, (i < j)%nat -> (j < n)%nat -> x i < x j.
Proof.
  intros i j H. destruct SP as (I & _). induction H; intros J.
  - apply I. auto.
  - apply Rlt_trans with (x m); [apply IHle; lia|apply I; auto].
Qed.
Lemma spread_range : forall i, (i < n)%nat -> 0 <= x i <= INR (c - k).
Proof.
  intros i I. destruct SP as (_ & A & B & _). split.
  - destruct (Nat.eq_dec i 0) as [->|]; auto. pose proof (spread_strict 0 i ltac:(lia) I). lra.
  - destruct (Nat.eq_dec i (n - 1)) as [->|]; auto. pose proof (spread_strict i (n - 1) ltac:(lia) ltac:(lia)). lra.
Qed.
Lemma val_point : forall i, (i < n)%nat -> val c k k (coef cv) (x i) = 0.
Proof. intros i I. rewrite <- (Z i I). rewrite spline_piece by (auto; apply spread_range; auto). reflexivity. Qed.

Lemma all_flat : (1 <= k)%nat -> forall j, (j < c - k)%nat -> flat k k (coef cv) j.
Proof.
  intros K1 j J. apply NNPP. intros NF. set (m := (c - k)%nat) in *.
  destruct (stretch (flat k k (coef cv)) m j J NF) as (p & q & u & v & PQ & QM & S0 & U & V).
  assert (CZ := fun l z => count_zeros c k KC p q u v (coef cv) l z K1 PQ QM). fold m in CZ.
  assert (U1 : u = true -> (0 < p)%nat) by (intros ->; tauto). assert (U2 : u = true -> flat k k (coef cv) (p - 1)) by (intros ->; tauto).
  assert (V1 : v = true -> (q < m)%nat) by (intros ->; tauto). assert (V2 : v = true -> flat k k (coef cv) q) by (intros ->; tauto).
  destruct SP as (_ & X0 & XN & HQ & HP & HPQ). fold m in XN, HQ, HP, HPQ.
  destruct u, v.
  - set (L := (q - p)%nat). destruct (HPQ p q) as (i0 & X); try lia. fold L in X.
    set (z := fun i => if Nat.eqb i 0 then INR p else if Nat.eqb i L then INR q else x (i0 + (i - 1))%nat).
    assert (C := CZ L z U1 V1 S0 U2 V2).
    assert (S L + (k - 1) * (1 + 1) <= q - p + (k - 1))%nat; [|unfold L in *; lia]. apply C; clear C CZ.
    + intros i I. unfold z. destruct (Nat.eqb_spec i L); [lia|]. destruct (Nat.eqb_spec (S i) 0); [lia|].
      destruct (Nat.eqb_spec i 0); destruct (Nat.eqb_spec (S i) L).
      * apply lt_INR. lia.
      * apply X. lia.
      * apply X. lia.
      * apply spread_strict; auto; try lia. apply X. lia.
    + unfold z. cbn. lra.
    + unfold z. destruct (Nat.eqb_spec L 0); [lia|]. rewrite Nat.eqb_refl. lra.
    + intros i I. unfold z. destruct (Nat.eqb_spec i 0); [apply flat_right; fold m; auto; lia|].
      destruct (Nat.eqb_spec i L); [apply flat_left; fold m; auto; lia|]. apply val_point. apply X. lia.
    + lia.
  - set (L := (q - p)%nat). assert (L < m)%nat by lia.
    assert (X : forall i, (1 <= i <= L)%nat -> INR p < x (n - 1 - L + i)%nat).
    { intros i I. replace (n - 1 - L + i)%nat with (n - 1 - (L - i))%nat by lia. apply HP; lia. }
    set (z := fun i => if Nat.eqb i 0 then INR p else x (n - 1 - L + i)%nat).
    assert (C := CZ L z U1 V1 S0 U2 V2).
    assert (S L + (k - 1) * (1 + 0) <= q - p + (k - 1))%nat; [|unfold L in *; lia]. apply C; clear C CZ.
    + intros i I. unfold z. destruct (Nat.eqb_spec (S i) 0); [lia|]. destruct (Nat.eqb_spec i 0).
      * apply X. lia.
      * apply spread_strict; auto; lia.
    + unfold z. cbn. lra.
    + unfold z. destruct (Nat.eqb_spec L 0); [lia|]. replace (n - 1 - L + L)%nat with (n - 1)%nat by lia. rewrite V. auto.
    + intros i I. unfold z. destruct (Nat.eqb_spec i 0); [apply flat_right; fold m; auto; lia|]. apply val_point. lia.
    + lia.
  - set (L := (q - p)%nat).
    assert (X : forall i, (i < L)%nat -> x i < INR q) by (intros i I; apply HQ; lia).
    set (z := fun i => if Nat.eqb i L then INR q else x i).
    assert (C := CZ L z U1 V1 S0 U2 V2).
    assert (S L + (k - 1) * (0 + 1) <= q - p + (k - 1))%nat; [|unfold L in *; lia]. apply C; clear C CZ.
    + intros i I. unfold z. destruct (Nat.eqb_spec i L); [lia|]. destruct (Nat.eqb_spec (S i) L).
      * apply X. lia.
      * apply spread_strict; auto; lia.
    + unfold z. destruct (Nat.eqb_spec 0 L); [lia|]. rewrite U. simpl. auto.
    + unfold z. rewrite Nat.eqb_refl. lra.
    + intros i I. unfold z. destruct (Nat.eqb_spec i L); [apply flat_left; fold m; auto; lia|]. apply val_point. lia.
    + lia.
  - assert (C := CZ (n - 1)%nat x U1 V1 S0 U2 V2).
    assert (S (n - 1) + (k - 1) * (0 + 0) <= q - p + (k - 1))%nat; [|lia]. apply C; clear C CZ.
    + intros i I. apply spread_strict; auto; lia.
    + rewrite U. simpl. auto.
    + rewrite V. auto.
    + intros i I. apply val_point. lia.
    + lia.
Qed.

Lemma points_determine : (1 <= k)%nat -> forall i, (i < c)%nat -> nth i cv 0 = 0.
Proof.
  intros K1 i I. destruct (Nat.le_gt_cases k i) as [L|L].
  - apply (all_flat ltac:(lia) (i - k)%nat); lia.
  - apply (all_flat ltac:(lia) 0%nat); lia.
Qed.
End Points.

(** ** Equally spaced samples *)
Lemma samples_spread : forall c k n, (k < c)%nat -> (c - k < n)%nat -> spread (c - k) n (sample c k n).
Proof.
  intros c k n KC N. assert (N2 : (2 <= n)%nat) by lia. set (m := (c - k)%nat) in *. split; [|split; [|split; [|split; [|split]]]].
  - intros i I. apply sample_strict; auto.
  - rewrite sample_0. lra.
  - rewrite sample_last by auto. apply Rle_refl.
  - intros q i Q I. split; [lia|]. apply sample_below; auto. fold m. nia.
  - intros p i P I. split; [lia|]. apply sample_above; auto. fold m. rewrite Nat.mul_sub_distr_r. nia.
  - intros p q P PQ Q. exists (S (p * (n - 1) / m)). set (i0 := S (p * (n - 1) / m)). intros i I. assert (M0 : (m <> 0)%nat) by lia.
    pose proof (Nat.div_mod (p * (n - 1)) m M0) as DM. pose proof (Nat.mod_upper_bound (p * (n - 1)) m M0) as MB.
    assert (LO : (p * (n - 1) < i0 * m)%nat) by (unfold i0; nia). assert (HI : (i0 * m <= p * (n - 1) + m)%nat) by (unfold i0; nia).
    assert (H : ((i0 + i) * m < q * (n - 1))%nat) by (assert (S i * m <= S i * (n - 1))%nat by nia; nia).
    split; [nia|]. split; [apply sample_above; auto; fold m; nia|apply sample_below; auto].
Qed.

Lemma samples_determine : forall cv k n, (k < List.length cv)%nat -> (List.length cv <= n)%nat ->
  (forall i, (i < n)%nat -> spline_value cv k (sample (List.length cv) k n i) = 0) -> forall i, (i < List.length cv)%nat -> nth i cv 0 = 0.
Proof.
  intros cv k n KC N Z. destruct k as [|k].
  - intros i I. set (c := List.length cv) in *. destruct (Nat.eq_dec (S i) c) as [E|E].
    + destruct (Nat.eq_dec c 1) as [C1|C1].
      * pose proof (Z 0%nat ltac:(lia)) as H. rewrite sample_0, spline_start in H by auto. replace i with 0%nat by lia. auto.
      * pose proof (Z (n - 1)%nat ltac:(lia)) as H. rewrite sample_last in H by lia. unfold c in H. rewrite spline_end in H by auto.
        fold c in H. replace i with (c - 1)%nat by lia. auto.
    + assert (X : exists s, (s < n)%nat /\ (i * (n - 1) <= s * c)%nat /\ (s * c < S i * (n - 1))%nat).
      { destruct (Nat.eq_dec n c) as [->|NC]; [exists i; nia|]. assert (C0 : (c <> 0)%nat) by lia.
        pose proof (Nat.div_mod (i * (n - 1) + (c - 1)) c C0) as DM. pose proof (Nat.mod_upper_bound (i * (n - 1) + (c - 1)) c C0) as MB.
        exists ((i * (n - 1) + (c - 1)) / c)%nat. set (s := ((i * (n - 1) + (c - 1)) / c)%nat) in *. assert (c * s <= i * (n - 1) + (c - 1))%nat by lia. assert (i * (n - 1) <= c * s)%nat by lia.
        split; [|split]; nia. }
      destruct X as (s & S1 & S2 & S3). pose proof (Z s S1) as H.
      rewrite spline_piece in H by (auto; apply sample_range; auto). fold c in H.
      rewrite (knot_span_at c 0 _ i) in H; [|lia|lia|].
      * unfold piece in H. rewrite (sumn_single _ _ i) in H; try lia.
        { cbn [D] in H. rewrite Nat.eqb_refl in H. unfold coef in H. lra. }
        intros l _ Q. cbn [D]. destruct (Nat.eqb_spec l (0 + i)); [lia|]. ring.
      * split; [apply sample_from|apply sample_below]; try lia; rewrite Nat.sub_0_r; auto.
  - apply (points_determine cv (S k) n (sample (List.length cv) (S k) n)); auto; try lia. apply samples_spread; auto. lia.
Qed.

(** ** Solving for the control points *)
Definition rowat (c k : nat) (x : R) : list R := map (fun j => basis_fun c k j x) (seq 0 c).
Lemma rowat_length : forall c k x, List.length (rowat c k x) = c.
Proof. intros. unfold rowat. rewrite map_length, seq_length. auto. Qed.
Lemma rowat_nth : forall c k x j, (j < c)%nat -> nth j (rowat c k x) 0 = basis_fun c k j x.
Proof. intros c k x j J. unfold rowat. rewrite (nth_indep _ 0 (basis_fun c k 0 x)) by (rewrite map_length, seq_length; auto). rewrite (map_nth (fun j => basis_fun c k j x)), seq_nth by auto. auto. Qed.
Lemma dot_rowat : forall v c k x, List.length v = c -> dot (rowat c k x) v = spline_value v k x.
Proof.
  intros v c k x L. rewrite (dot_sum _ c) by (rewrite ?rowat_length; lia). unfold spline_value. rewrite L. apply sumn_ext. intros j J. rewrite rowat_nth by auto. ring.
Qed.
Lemma zeros_nth : forall v n, List.length v = n -> (forall i, (i < n)%nat -> nth i v 0 = 0) -> v = zeros n.
Proof.
  intros v n <- H. unfold zeros. induction v; simpl; auto. f_equal; [apply (H 0%nat); simpl; lia|]. apply IHv. intros i I. apply (H (S i)). simpl. lia.
Qed.
Lemma nth_zeros : forall n i, nth i (zeros n) 0 = 0.
Proof. intros. unfold zeros. revert i. induction n; destruct i; simpl; auto. Qed.

Lemma solve_points : forall c k x, (forall cv, List.length cv = c -> (forall i, (i < c)%nat -> spline_value cv k (x i) = 0) -> forall i, (i < c)%nat -> nth i cv 0 = 0) ->
  forall d : nat -> R, exists v, List.length v = c /\ forall i, (i < c)%nat -> spline_value v k (x i) = d i.
Proof.
  intros c k x INJ d. set (A := map (fun i => rowat c k (x i)) (seq 0 c)). set (b := map d (seq 0 c)).
  assert (LA : List.length A = c) by (unfold A; rewrite map_length, seq_length; auto).
  assert (LB : List.length b = List.length A) by (unfold b; rewrite map_length, seq_length; auto).
  assert (SQ : square A). { unfold square. rewrite LA. unfold A. rewrite Forall_map, Forall_forall. intros. apply rowat_length. }
  assert (NA : forall v i, List.length v = c -> (i < c)%nat -> nth i (matvec A v) 0 = spline_value v k (x i)).
  { intros v i LV I. unfold matvec, A. rewrite map_map. rewrite (nth_indep _ 0 (dot (rowat c k (x 0%nat)) v)) by (rewrite map_length, seq_length; auto).
    rewrite (map_nth (fun i => dot (rowat c k (x i)) v)), seq_nth by auto. apply dot_rowat. auto. }
  destruct (proj2 (linalg_solve_ok_iff A b SQ LB)) as (v & S).
  - intros v LV MV. rewrite LA in *. apply zeros_nth; auto. apply INJ; auto. intros i I. rewrite <- NA by auto. rewrite MV. apply nth_zeros.
  - destruct (linalg_solve_sound _ _ _ S) as (LV & MV). rewrite LA in LV. exists v. split; auto. intros i I. rewrite <- NA by auto. rewrite MV. unfold b.
    rewrite (nth_indep _ 0 (d 0%nat)) by (rewrite map_length, seq_length; auto). rewrite map_nth, seq_nth by auto. auto.
Qed.
Lemma kernel_points : forall c k n x, (n < c)%nat -> exists v, List.length v = c /\ v <> zeros c /\ forall i, (i < n)%nat -> spline_value v k (x i) = 0.
Proof.
  intros c k n x N. set (A := map (fun i => if Nat.ltb i n then rowat c k (x i) else zeros c) (seq 0 c)). set (b := repeat 1 c).
  assert (LA : List.length A = c) by (unfold A; rewrite map_length, seq_length; auto).
  assert (LB : List.length b = List.length A) by (unfold b; rewrite repeat_length; auto).
  assert (SQ : square A). { unfold square. rewrite LA. unfold A. rewrite Forall_map, Forall_forall. intros i _. destruct (Nat.ltb i n); [apply rowat_length|unfold zeros; apply repeat_length]. }
  assert (NA : forall v i, (i < c)%nat -> nth i (matvec A v) 0 = dot (if Nat.ltb i n then rowat c k (x i) else zeros c) v).
  { intros v i I. unfold matvec, A. rewrite map_map. rewrite (nth_indep _ 0 (dot (if Nat.ltb 0 n then rowat c k (x 0%nat) else zeros c) v)) by (rewrite map_length, seq_length; auto).
    rewrite (map_nth (fun i => dot (if Nat.ltb i n then rowat c k (x i) else zeros c) v)), seq_nth by auto. auto. }
  destruct (linalg_solve A b) as [v|e] eqn:S.
  - exfalso. destruct (linalg_solve_sound _ _ _ S) as (LV & MV). pose proof (NA v n N) as E. rewrite MV in E. destruct (Nat.ltb_spec n n); [lia|].
    assert (dot (zeros c) v = 0) as Z by (unfold zeros; clear; revert v; induction c; destruct v; simpl; auto; rewrite IHc; ring). rewrite Z in E.
    unfold b in E. rewrite (nth_indep _ 0 1), nth_repeat in E by (rewrite repeat_length; auto). lra.
  - destruct (linalg_solve_err _ _ _ SQ LB S) as (_ & v & LV & NV & MV). rewrite LA in *. exists v. split; auto. split; auto. intros i I.
    pose proof (NA v i ltac:(lia)) as E. rewrite MV, nth_zeros in E. destruct (Nat.ltb_spec i n); [|lia]. rewrite dot_rowat in E by auto. auto.
Qed.

(** ** As few samples as control points, or fewer: anything can be met *)
Section Few.
Variables c k n : nat.
Hypothesis KC : (k < c)%nat.
Hypothesis N2 : (2 <= n)%nat.
Hypothesis NC : (n <= c)%nat.
(** The sample in cell [i] of the division into [c - 1] cells, if any. *)
Definition cell (i : nat) : nat := ((i * (n - 1) + (c - 2)) / (c - 1))%nat.
Definition mixed (i : nat) : R := if Nat.ltb (cell i * (c - 1)) (S i * (n - 1)) then sample c k n (cell i) else sample c k c i.

Lemma cell_spec : forall i, (i * (n - 1) <= cell i * (c - 1) < i * (n - 1) + (c - 1))%nat.
Proof.
  intros i. unfold cell. pose proof (Nat.div_mod (i * (n - 1) + (c - 2)) (c - 1) ltac:(lia)) as DM. pose proof (Nat.mod_upper_bound (i * (n - 1) + (c - 2)) (c - 1) ltac:(lia)) as MB. nia.
Qed.
Lemma mixed_range : forall i, sample c k c i <= mixed i < sample c k c (S i).
Proof.
  intros i. unfold mixed. assert (M : 0 < INR (c - k)) by (apply lt_0_INR; lia). assert (C1 : 0 < INR (c - 1)) by (apply lt_0_INR; lia). assert (N1 : 0 < INR (n - 1)) by (apply lt_0_INR; lia).
  destruct (Nat.ltb_spec (cell i * (c - 1)) (S i * (n - 1))) as [L|L].
  - destruct (cell_spec i) as (A & _). apply le_INR in A. apply lt_INR in L. rewrite !mult_INR in A, L. unfold sample.
    assert (E : forall a b, 0 < b -> INR a * (INR (c - k) / b) = INR a / b * INR (c - k)) by (intros; field; lra). rewrite !E by auto.
    split; [apply Rmult_le_compat_r; [lra|]|apply Rmult_lt_compat_r; [lra|]].
    + apply Rmult_le_reg_r with (INR (c - 1) * INR (n - 1)); [apply Rmult_lt_0_compat; auto|].
      replace (INR i / INR (c - 1) * (INR (c - 1) * INR (n - 1))) with (INR i * INR (n - 1)) by (field; lra).
      replace (INR (cell i) / INR (n - 1) * (INR (c - 1) * INR (n - 1))) with (INR (cell i) * INR (c - 1)) by (field; lra). lra.
    + apply Rmult_lt_reg_r with (INR (c - 1) * INR (n - 1)); [apply Rmult_lt_0_compat; auto|].
      replace (INR (S i) / INR (c - 1) * (INR (c - 1) * INR (n - 1))) with (INR (S i) * INR (n - 1)) by (field; lra).
      replace (INR (cell i) / INR (n - 1) * (INR (c - 1) * INR (n - 1))) with (INR (cell i) * INR (c - 1)) by (field; lra). lra.
  - split; [lra|]. unfold sample. apply Rmult_lt_compat_r; [apply Rdiv_lt_0_compat; auto|apply lt_INR; auto].
Qed.
Lemma mixed_hit : forall j, (j < n)%nat -> exists i, (i < c)%nat /\ cell i = j /\ mixed i = sample c k n j.
Proof.
  intros j J. set (i := (j * (c - 1) / (n - 1))%nat). exists i.
  pose proof (Nat.div_mod (j * (c - 1)) (n - 1) ltac:(lia)) as DM. pose proof (Nat.mod_upper_bound (j * (c - 1)) (n - 1) ltac:(lia)) as MB. fold i in DM.
  destruct (cell_spec i) as (A & B). assert (NM : (n - 1 <= c - 1)%nat) by lia. rewrite (Nat.mul_comm (n - 1) i) in DM. set (r := (j * (c - 1)) mod (n - 1)) in *. clearbody i r. assert (E : cell i = j).
  { assert (A1 : (cell i * (c - 1) < S j * (c - 1))%nat) by lia. assert (A2 : (j * (c - 1) < S (cell i) * (c - 1))%nat) by (rewrite Nat.mul_succ_l; lia).
    apply Nat.mul_lt_mono_pos_r in A1; [|lia]. apply Nat.mul_lt_mono_pos_r in A2; lia. }
  split; [nia|]. split; auto. unfold mixed. rewrite E. destruct (Nat.ltb_spec (j * (c - 1)) (S i * (n - 1))); auto. nia.
Qed.
Lemma mixed_spread : (1 <= k)%nat -> spread (c - k) c mixed.
Proof.
  intros K1. set (m := (c - k)%nat). split; [|split; [|split; [|split; [|split]]]].
  - intros i I. pose proof (mixed_range i). pose proof (mixed_range (S i)). lra.
  - pose proof (mixed_range 0) as H. rewrite sample_0 in H. lra.
  - destruct (mixed_hit (n - 1) ltac:(lia)) as (i & I & E & H). rewrite sample_last in H by auto.
    assert (i = (c - 1)%nat) as <-. { destruct (Nat.eq_dec i (c - 1)); auto. pose proof (mixed_range i). pose proof (sample_range c k c (S i) ltac:(lia)). lra. }
    rewrite H. apply Rle_refl.
  - intros q i Q I. split; [lia|]. apply Rlt_le_trans with (1 := proj2 (mixed_range i)).
    apply Rmult_le_reg_r with (INR (c - 1)); [apply lt_0_INR; lia|]. unfold sample. fold m.
    replace (INR (S i) * (INR m / INR (c - 1)) * INR (c - 1)) with (INR (S i) * INR m) by (field; apply Rgt_not_eq, lt_0_INR; lia).
    rewrite <- !mult_INR. apply le_INR. nia.
  - intros p i P I. split; [lia|]. apply Rlt_le_trans with (2 := proj1 (mixed_range _)). apply sample_above; [lia|]. fold m. rewrite Nat.mul_sub_distr_r. nia.
  - intros p q P PQ Q. exists (S (p * (c - 1) / m)). set (i0 := S (p * (c - 1) / m)). intros i I. assert (M0 : (m <> 0)%nat) by lia.
    pose proof (Nat.div_mod (p * (c - 1)) m M0) as DM. pose proof (Nat.mod_upper_bound (p * (c - 1)) m M0) as MB.
    assert (LO : (p * (c - 1) < i0 * m)%nat) by (unfold i0; nia). assert (HI : (i0 * m <= p * (c - 1) + m)%nat) by (unfold i0; nia).
    assert (H : (S (i0 + i) * m <= q * (c - 1))%nat) by (assert (S (S i) * m <= S (S i) * (c - 1))%nat by nia; nia).
    split; [nia|]. split.
    + apply Rlt_le_trans with (2 := proj1 (mixed_range _)). apply sample_above; [lia|]. fold m. nia.
    + apply Rlt_le_trans with (1 := proj2 (mixed_range _)). apply Rmult_le_reg_r with (INR (c - 1)); [apply lt_0_INR; lia|]. unfold sample. fold m.
      replace (INR (S (i0 + i)) * (INR m / INR (c - 1)) * INR (c - 1)) with (INR (S (i0 + i)) * INR m) by (field; apply Rgt_not_eq, lt_0_INR; lia).
      rewrite <- !mult_INR. apply le_INR. auto.
Qed.
Lemma meet_samples : (1 <= k)%nat -> forall d : nat -> R, exists v, List.length v = c /\ forall j, (j < n)%nat -> spline_value v k (sample c k n j) = d j.
Proof.
  intros K1 d. destruct (solve_points c k mixed) with (d := fun i => d (cell i)) as (v & L & V).
  - intros cv LC Z. rewrite <- LC. apply (points_determine cv k c mixed); auto; rewrite ?LC; auto. apply mixed_spread; auto.
  - exists v. split; auto. intros j J. destruct (mixed_hit j J) as (i & I & E & H). rewrite <- H, V, E by auto. auto.
Qed.
End Few.

Lemma meet_steps : forall c n (d : nat -> R), (2 <= n)%nat -> (n <= c)%nat ->
  exists v, List.length v = c /\ forall j, (j < n)%nat -> spline_value v 0 (sample c 0 n j) = d j.
Proof.
  intros c n d N2 NC. set (f := fun i => d ((i * (n - 1) + (c - 1)) / c)%nat). exists (map f (seq 0 c)).
  assert (L : List.length (map f (seq 0 c)) = c) by (rewrite map_length, seq_length; auto). split; auto. intros j J.
  assert (NF : forall i, (i < c)%nat -> nth i (map f (seq 0 c)) 0 = f i).
  { intros i I. rewrite (nth_indep _ 0 (f 0%nat)) by lia. rewrite map_nth, seq_nth by auto. auto. }
  assert (Q : forall i, (i * (n - 1) <= j * c)%nat -> (j * c < i * (n - 1) + c)%nat -> f i = d j).
  { intros i A B. unfold f. f_equal. symmetry. apply Nat.div_unique with (r := (i * (n - 1) + (c - 1) - c * j)%nat); nia. }
  destruct (Nat.eq_dec j (n - 1)) as [E|E].
  - rewrite E, sample_last by auto. rewrite <- L at 2. rewrite spline_end by lia. rewrite L, NF by lia. rewrite <- E. apply Q; nia.
  - assert (X : exists i, (i < c)%nat /\ (i * (n - 1) <= j * c)%nat /\ (j * c < S i * (n - 1))%nat).
    { exists (j * c / (n - 1))%nat. pose proof (Nat.div_mod (j * c) (n - 1) ltac:(lia)) as DM. pose proof (Nat.mod_upper_bound (j * c) (n - 1) ltac:(lia)) as MB.
      set (i := (j * c / (n - 1))%nat) in *. split; [|split]; nia. }
    destruct X as (i & I & A & B). rewrite spline_piece; rewrite L; try lia; [|apply sample_range; auto].
    rewrite (knot_span_at c 0 _ i) by (first [lia | split; [apply sample_from|apply sample_below]; try lia; rewrite Nat.sub_0_r; auto]).
    unfold piece. rewrite (sumn_single _ _ i); try lia.
    + cbn [D]. rewrite Nat.eqb_refl. unfold coef. rewrite NF by auto. rewrite Q by nia. ring.
    + intros l _ H. cbn [D]. destruct (Nat.eqb_spec l (0 + i)); [lia|]. ring.
Qed.

(** ** The model function *)
Lemma bspline1_injective : forall u v npoints degree s, List.length u = List.length v -> (Z.of_nat (List.length u) <= npoints)%Z ->
  bspline1 u npoints degree = Ok s -> bspline1 v npoints degree = Ok s -> u = v.
Proof.
  intros u v npoints degree s L N U V.
  pose proof (bspline1_inv _ _ _ _ U) as (F1 & F2 & F3).
  pose proof (bspline1_linear u v 1 (-1) _ _ _ _ L U V) as E.
  set (d := map2 (fun p q => 1 * p + -1 * q) u v) in *.
  assert (LD : List.length d = List.length u) by (unfold d; rewrite map2_length; lia).
  destruct (bspline1_spec _ _ _ _ E) as (S1 & S2 & S3 & S4). rewrite LD in *.
  assert (Z : forall i, (i < List.length u)%nat -> nth i d 0 = 0).
  { intros i I. rewrite <- LD in I. revert i I. apply (samples_determine d (Z.to_nat degree) (Z.to_nat npoints)); rewrite ?LD; auto.
    - lia.
    - intros i I. rewrite <- S4 by auto. clear -I. revert I. generalize (Z.to_nat npoints). intros n _.
      revert i. induction s; intros [|i]; simpl; auto; ring. }
  apply (nth_ext _ _ 0 0); auto. intros i I. specialize (Z i I). unfold d in Z.
  clear -Z L I. revert v i L Z I. induction u; intros [|b v] [|i] L Z I; simpl in *; try lia; try lra. apply IHu; auto; lia.
Qed.

Lemma bspline1_value : forall v npoints degree s, fits (List.length v) npoints degree -> List.length s = Z.to_nat npoints ->
  (forall i, (i < Z.to_nat npoints)%nat -> spline_value v (Z.to_nat degree) (sample (List.length v) (Z.to_nat degree) (Z.to_nat npoints) i) = nth i s 0) ->
  bspline1 v npoints degree = Ok s.
Proof.
  intros v np dg s F L V. pose proof (bspline1_ok v np dg F) as E. destruct (bspline1_spec _ _ _ _ E) as (_ & _ & L' & V'). rewrite E. f_equal.
  apply (nth_ext _ _ 0 0); [rewrite L, L'; auto|]. intros i I. rewrite L' in I. rewrite V' by auto. apply V. auto.
Qed.
Lemma bspline1_surjective : forall c npoints degree s, fits c npoints degree -> (npoints <= Z.of_nat c)%Z -> List.length s = Z.to_nat npoints ->
  exists v, List.length v = c /\ bspline1 v npoints degree = Ok s.
Proof.
  intros c np dg s F N L. pose proof F as (F1 & F2 & F3). set (n := Z.to_nat np) in *. set (k := Z.to_nat dg) in *.
  destruct (Nat.eq_dec n 1) as [N1|N1].
  - exists (repeat (nth 0 s 0) c). rewrite repeat_length. split; auto. apply bspline1_value; rewrite ?repeat_length; auto. fold n k. rewrite N1.
    intros i I. assert (i = 0%nat) as -> by lia. rewrite sample_0, spline_start by (rewrite repeat_length; auto). destruct c; [lia|]. reflexivity.
  - assert (X : exists v, List.length v = c /\ forall j, (j < n)%nat -> spline_value v k (sample c k n j) = nth j s 0).
    { destruct (Nat.eq_dec k 0) as [->|K0]; [apply (meet_steps c n (fun j => nth j s 0)); lia|apply (meet_samples c k n F3) with (d := fun j => nth j s 0); lia]. }
    destruct X as (v & LV & V). exists v. split; auto. apply bspline1_value; rewrite ?LV; auto.
Qed.
Lemma bspline1_ambiguous : forall c npoints degree, fits c npoints degree -> (npoints < Z.of_nat c)%Z ->
  exists u v s, List.length u = c /\ List.length v = c /\ u <> v /\ bspline1 u npoints degree = Ok s /\ bspline1 v npoints degree = Ok s.
Proof.
  intros c np dg F N. pose proof F as (F1 & F2 & F3). set (n := Z.to_nat np) in *. set (k := Z.to_nat dg) in *.
  destruct (kernel_points c k n (sample c k n) ltac:(lia)) as (v & LV & NV & V). exists v, (zeros c), (zeros n).
  assert (LZ : forall m, List.length (zeros m) = m) by (intros; apply repeat_length).
  split; auto. split; auto. split; auto. split; apply bspline1_value; rewrite ?LV, ?LZ; auto; fold n k; intros i I; rewrite nth_zeros; auto.
  unfold spline_value. apply sumn_zero. intros j _. rewrite nth_zeros. ring.
Qed.
Lemma bspline1_unique_iff : forall c npoints degree, fits c npoints degree ->
  ((forall u v s, List.length u = c -> List.length v = c -> bspline1 u npoints degree = Ok s -> bspline1 v npoints degree = Ok s -> u = v) <-> (Z.of_nat c <= npoints)%Z).
Proof.
  intros c np dg F. split.
  - intros H. destruct (Z_le_gt_dec (Z.of_nat c) np) as [|G]; auto. exfalso.
    destruct (bspline1_ambiguous c np dg F ltac:(lia)) as (u & v & s & LU & LV & NE & U & V). apply NE. exact (H u v s LU LV U V).
  - intros N u v s LU LV. apply bspline1_injective; [congruence|]. rewrite LU. auto.
Qed.

(** ** Planar curves *)
Lemma bspline2_parts : forall w npoints degree s, bspline2 w npoints degree = Ok s ->
  bspline1 (map fst w) npoints degree = Ok (map fst s) /\ bspline1 (map snd w) npoints degree = Ok (map snd s).
Proof.
  intros w np dg s W. pose proof (bspline2_inv _ _ _ _ W) as F. rewrite bspline2_ok in W by auto. injection W as <-. rewrite !bspline1_ok by (rewrite map_length; auto). rewrite !map_map. cbn [fst snd]. rewrite !map_length. auto.
Qed.
Lemma bspline2_injective : forall u v npoints degree s, List.length u = List.length v -> (Z.of_nat (List.length u) <= npoints)%Z ->
  bspline2 u npoints degree = Ok s -> bspline2 v npoints degree = Ok s -> u = v.
Proof.
  intros u v np dg s L N U V. destruct (bspline2_parts _ _ _ _ U) as (U1 & U2). destruct (bspline2_parts _ _ _ _ V) as (V1 & V2).
  assert (E1 : map fst u = map fst v) by (refine (bspline1_injective _ _ np dg _ _ _ U1 V1); rewrite !map_length; auto).
  assert (E2 : map snd u = map snd v) by (refine (bspline1_injective _ _ np dg _ _ _ U2 V2); rewrite !map_length; auto).
  clear -E1 E2. revert v E1 E2. induction u as [|[a b] u IH]; intros [|[c d] v] E1 E2; try discriminate; auto. cbn in *. injection E1 as -> E1. injection E2 as -> E2. f_equal; auto.
Qed.
