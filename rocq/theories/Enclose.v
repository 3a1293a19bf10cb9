(** Interval arithmetic on integers, used to compare the model with recorded
    numbers.  Nothing in this file is about the code. *)
From Coq Require Import Reals List ZArith Lra Lia Psatz Machin.
Import ListNotations.
Open Scope R_scope.

(** An interval [a/2^32, b/2^32]; None is the whole line. *)
Definition iv : Type := option (Z * Z).
Definition den : Z := 4294967296.
Definition inside (i : iv) (x : R) : Prop :=
  match i with None => True | Some (a, b) => IZR a <= x * IZR den <= IZR b end.
Definition down (z : Z) : Z := Z.shiftr z 32.
Definition up (z : Z) : Z := Z.opp (Z.shiftr (Z.opp z) 32).
Definition lift2 (f : Z * Z -> Z * Z -> iv) (i j : iv) : iv :=
  match i, j with Some p, Some q => f p q | _, _ => None end.
Definition iadd := lift2 (fun p q => Some (fst p + fst q, snd p + snd q)%Z).
Definition isub := lift2 (fun p q => Some (fst p - snd q, snd p - fst q)%Z).
Definition ineg (i : iv) : iv := match i with None => None | Some (a, b) => Some (- b, - a)%Z end.
Definition products (p q : Z * Z) : Z * Z :=
  let '(a, b) := p in let '(c, d) := q in
  if (0 <=? a)%Z then
    if (0 <=? c)%Z then (a * c, b * d)%Z else if (d <=? 0)%Z then (b * c, a * d)%Z else (b * c, b * d)%Z
  else if (b <=? 0)%Z then
    if (0 <=? c)%Z then (a * d, b * c)%Z else if (d <=? 0)%Z then (b * d, a * c)%Z else (a * d, a * c)%Z
  else (Z.min (a * d) (b * c), Z.max (a * c) (b * d))%Z.
Definition imul := lift2 (fun p q => let '(l, h) := products p q in Some (down l, up h)).
(** The fraction p/q, q > 0. *)
Definition cdiv (a b : Z) : Z := (- (- a / b))%Z.
Definition frac (p q : Z) : iv := if (0 <? q)%Z then Some (p * den / q, cdiv (p * den) q)%Z else None.
Definition idivz (i : iv) (k : Z) : iv :=
  match i with None => None | Some (a, b) => if (0 <? k)%Z then Some (a / k, cdiv b k)%Z else None end.
Definition iinv (i : iv) : iv :=
  match i with None => None | Some (a, b) => if (0 <? a)%Z then Some (den * den / b, cdiv (den * den) a)%Z else None end.
Definition idiv (i j : iv) : iv := imul i (iinv j).
Definition isqrt (i : iv) : iv :=
  match i with None => None | Some (a, b) => Some (Z.sqrt (Z.max a 0 * den), Z.sqrt (Z.max b 0 * den) + 1)%Z end.
Definition hull := lift2 (fun p q => Some (Z.min (fst p) (fst q), Z.max (snd p) (snd q))).

Lemma den_pos : 0 < IZR den. Proof. unfold den. lra. Qed.
Lemma down_le : forall z, IZR (down z) * IZR den <= IZR z.
Proof.
  intros z. unfold down. rewrite Z.shiftr_div_pow2 by lia. change (2 ^ 32)%Z with den. rewrite <- mult_IZR. apply IZR_le.
  rewrite Z.mul_comm. apply Z.mul_div_le. reflexivity.
Qed.
Lemma up_ge : forall z, IZR z <= IZR (up z) * IZR den.
Proof.
  intros z. unfold up. pose proof (down_le (- z)) as H. unfold down in H. rewrite opp_IZR in *. lra.
Qed.
Lemma div_le : forall a b, (0 < b)%Z -> IZR (a / b) * IZR b <= IZR a.
Proof. intros a b H. rewrite <- mult_IZR. apply IZR_le. rewrite Z.mul_comm. apply Z.mul_div_le. exact H. Qed.
Lemma cdiv_ge : forall a b, (0 < b)%Z -> IZR a <= IZR (cdiv a b) * IZR b.
Proof. intros a b H. unfold cdiv. pose proof (div_le (- a) b H) as K. rewrite opp_IZR in *. lra. Qed.

Lemma iadd_ok : forall i j x y, inside i x -> inside j y -> inside (iadd i j) (x + y).
Proof. intros [[a b]|] [[c d]|] x y; cbn; auto. intros H K. rewrite !plus_IZR. lra. Qed.
Lemma isub_ok : forall i j x y, inside i x -> inside j y -> inside (isub i j) (x - y).
Proof. intros [[a b]|] [[c d]|] x y; cbn; auto. intros H K. rewrite !minus_IZR. lra. Qed.
Lemma ineg_ok : forall i x, inside i x -> inside (ineg i) (- x).
Proof. intros [[a b]|] x; cbn; auto. intros H. rewrite !opp_IZR. lra. Qed.
Lemma products_ok : forall a b c d x y, IZR a <= x <= IZR b -> IZR c <= y <= IZR d ->
  IZR (fst (products (a, b) (c, d))) <= x * y <= IZR (snd (products (a, b) (c, d))).
Proof.
  intros a b c d x y H K. unfold products.
  destruct (Z.leb_spec 0 a) as [A|A]; [apply IZR_le in A|apply IZR_lt in A].
  - destruct (Z.leb_spec 0 c) as [C|C]; [apply IZR_le in C|apply IZR_lt in C].
    + cbn [fst snd]. rewrite !mult_IZR. split; nra.
    + destruct (Z.leb_spec d 0) as [D|D]; [apply IZR_le in D|apply IZR_lt in D]; cbn [fst snd]; rewrite !mult_IZR; split; nra.
  - destruct (Z.leb_spec b 0) as [B|B]; [apply IZR_le in B|apply IZR_lt in B].
    + destruct (Z.leb_spec 0 c) as [C|C]; [apply IZR_le in C|apply IZR_lt in C].
      * cbn [fst snd]. rewrite !mult_IZR. split; nra.
      * destruct (Z.leb_spec d 0) as [D|D]; [apply IZR_le in D|apply IZR_lt in D]; cbn [fst snd]; rewrite !mult_IZR; split; nra.
    + cbn [fst snd]. split.
      * destruct (Rle_or_lt 0 y).
        { apply Rle_trans with (IZR (a * d)); [apply IZR_le; lia|]. rewrite mult_IZR. nra. }
        { apply Rle_trans with (IZR (b * c)); [apply IZR_le; lia|]. rewrite mult_IZR. nra. }
      * destruct (Rle_or_lt 0 y).
        { apply Rle_trans with (IZR (b * d)); [rewrite mult_IZR; nra|apply IZR_le; lia]. }
        { apply Rle_trans with (IZR (a * c)); [rewrite mult_IZR; nra|apply IZR_le; lia]. }
Qed.
Lemma imul_ok : forall i j x y, inside i x -> inside j y -> inside (imul i j) (x * y).
Proof.
  intros [[a b]|] [[c d]|] x y; cbn [inside imul lift2]; auto. intros H K. pose proof (products_ok _ _ _ _ _ _ H K) as P.
  destruct (products (a, b) (c, d)) as [l h]. cbn [fst snd] in P. cbn [inside]. pose proof (down_le l). pose proof (up_ge h). pose proof den_pos.
  replace (x * IZR den * (y * IZR den)) with (x * y * IZR den * IZR den) in P by ring.
  split; apply Rmult_le_reg_r with (IZR den); lra.
Qed.
Lemma frac_ok : forall p q, inside (frac p q) (IZR p / IZR q).
Proof.
  intros p q. unfold frac. destruct (Z.ltb_spec 0 q) as [Q|Q]; [|exact I]. cbn [inside]. pose proof (div_le (p * den) q Q) as A. pose proof (cdiv_ge (p * den) q Q) as B.
  apply IZR_lt in Q. rewrite mult_IZR in *.
  split; apply Rmult_le_reg_r with (IZR q); auto; replace (IZR p / IZR q * IZR den * IZR q) with (IZR p * IZR den) by (field; lra); assumption.
Qed.
Lemma idivz_ok : forall i x k, inside i x -> inside (idivz i k) (x / IZR k).
Proof.
  intros [[a b]|] x k; cbn [inside idivz]; auto. intros H. destruct (Z.ltb_spec 0 k) as [Q|Q]; [|exact I]. cbn [inside].
  pose proof (div_le a k Q) as A. pose proof (cdiv_ge b k Q) as B. apply IZR_lt in Q.
  split; apply Rmult_le_reg_r with (IZR k); auto; replace (x / IZR k * IZR den * IZR k) with (x * IZR den) by (field; lra); lra.
Qed.
Lemma iinv_ok : forall i x, inside i x -> inside (iinv i) (/ x).
Proof.
  intros [[a b]|] x; cbn [inside iinv]; auto. intros H. destruct (Z.ltb_spec 0 a) as [Q|Q]; [|exact I]. cbn [inside].
  pose proof den_pos as D. apply IZR_lt in Q. assert (0 < x) by nra. assert (B : (0 < b)%Z) by (apply lt_IZR; lra).
  pose proof (div_le (den * den) b B) as E. assert (A : (0 < a)%Z) by (apply lt_IZR; lra). pose proof (cdiv_ge (den * den) a A) as F. rewrite mult_IZR in *.
  apply IZR_lt in B. split.
  - apply Rmult_le_reg_r with (IZR b); auto. apply Rle_trans with (IZR den * IZR den); auto.
    replace (IZR den * IZR den) with (/ x * IZR den * (x * IZR den)) by (field; lra). apply Rmult_le_compat_l; [|lra].
    apply Rmult_le_pos; [|lra]. apply Rlt_le, Rinv_0_lt_compat. lra.
  - apply Rmult_le_reg_r with (IZR a); auto. apply Rle_trans with (IZR den * IZR den); auto.
    replace (IZR den * IZR den) with (/ x * IZR den * (x * IZR den)) by (field; lra). apply Rmult_le_compat_l; [|lra].
    apply Rmult_le_pos; [|lra]. apply Rlt_le, Rinv_0_lt_compat. lra.
Qed.
Lemma idiv_ok : forall i j x y, inside i x -> inside j y -> inside (idiv i j) (x / y).
Proof. intros. unfold idiv, Rdiv. apply imul_ok; auto. apply iinv_ok; auto. Qed.
Lemma isqrt_ok : forall i x, inside i x -> inside (isqrt i) (sqrt x).
Proof.
  intros [[a b]|] x; cbn [inside isqrt]; auto. intros [H1 H2]. pose proof den_pos as D.
  assert (K : forall z, (0 <= z)%Z -> IZR (Z.sqrt z) * IZR (Z.sqrt z) <= IZR z < (IZR (Z.sqrt z) + 1) * (IZR (Z.sqrt z) + 1) /\ 0 <= IZR (Z.sqrt z)).
  { intros z Z0. pose proof (Z.sqrt_spec z Z0) as [S1 S2]. apply IZR_le in S1. apply IZR_lt in S2. rewrite mult_IZR in S1.
    rewrite mult_IZR, succ_IZR in S2. split; [lra|]. apply IZR_le, Z.sqrt_nonneg. }
  assert (KA : (0 <= Z.max a 0 * den)%Z) by (apply Z.mul_nonneg_nonneg; [lia|discriminate]).
  assert (KB : (0 <= Z.max b 0 * den)%Z) by (apply Z.mul_nonneg_nonneg; [lia|discriminate]).
  destruct (K _ KA) as ((A1 & _) & A2). destruct (K _ KB) as ((_ & B1) & B2). rewrite mult_IZR in A1, B1.
  pose proof (sqrt_pos x) as SP. rewrite plus_IZR. set (p := IZR (Z.sqrt (Z.max a 0 * den))) in *. set (q := IZR (Z.sqrt (Z.max b 0 * den))) in *.
  assert (MB : IZR b <= IZR (Z.max b 0)) by (apply IZR_le; lia). assert (MZ : 0 <= IZR (Z.max b 0)) by (apply IZR_le; lia).
  split.
  - destruct (Z.leb_spec 0 a) as [A|A].
    + rewrite Z.max_l in A1 by lia. apply IZR_le in A. assert (X : 0 <= x) by nra. rewrite <- (sqrt_sqrt x X) in H1.
      apply Rsqr_incr_0_var; [|nra]. unfold Rsqr. set (s := sqrt x) in *. replace (s * IZR den * (s * IZR den)) with (s * s * IZR den * IZR den) by ring.
      apply Rle_trans with (IZR a * IZR den); auto. apply Rmult_le_compat_r; lra.
    + rewrite Z.max_r in A1 by lia. assert (p = 0) by nra. nra.
  - destruct (Rle_or_lt 0 x) as [X|X].
    + rewrite <- (sqrt_sqrt x X) in H2. set (s := sqrt x) in *. apply Rsqr_incr_0_var; [|lra]. unfold Rsqr.
      replace (s * IZR den * (s * IZR den)) with (s * s * IZR den * IZR den) by ring.
      apply Rle_trans with (IZR (Z.max b 0) * IZR den); [|lra]. apply Rmult_le_compat_r; lra.
    + rewrite sqrt_neg_0 by lra. lra.
Qed.
Lemma hull_ok : forall i j x y z, inside i x -> inside j y -> (x <= z <= y \/ y <= z <= x) -> inside (hull i j) z.
Proof.
  intros [[a b]|] [[c d]|] x y z; cbn [inside hull lift2]; auto. intros H K M. cbn [fst snd]. pose proof den_pos.
  assert (IZR (Z.min a c) <= IZR a /\ IZR (Z.min a c) <= IZR c) as (? & ?) by (split; apply IZR_le; lia).
  assert (IZR b <= IZR (Z.max b d) /\ IZR d <= IZR (Z.max b d)) as (? & ?) by (split; apply IZR_le; lia).
  destruct M as [M|M]; split; nra.
Qed.

(** ** Sine and cosine *)
Fixpoint alt (n : nat) (k : Z) (a2 t : iv) : iv :=
  match n with O => t | S m => isub t (alt m (k + 2) a2 (idivz (imul t a2) (k * (k + 1)))) end.
Fixpoint ralt (n : nat) (k : Z) (a2 t : R) : R :=
  match n with O => t | S m => t - ralt m (k + 2) a2 (t * a2 / IZR (k * (k + 1))) end.
Lemma alt_ok : forall n k i j a2 t, inside i a2 -> inside j t -> inside (alt n k i j) (ralt n k a2 t).
Proof. induction n as [|n IH]; intros k i j a2 t H K; cbn [alt ralt]; auto. apply isub_ok; auto. apply IH; auto. apply idivz_ok, imul_ok; auto. Qed.
Lemma ralt_sum : forall n k a2 t, (0 < k)%nat ->
  ralt n (Z.of_nat k) a2 t = sum_f_R0 (fun i => (-1) ^ i * (t * a2 ^ i * INR (fact (k - 1)) / INR (fact (k - 1 + 2 * i)))) n.
Proof.
  induction n as [|n IH]; intros k a2 t H.
  - cbn [ralt sum_f_R0]. cbn [pow]. rewrite Nat.mul_0_r, Nat.add_0_r. field. apply INR_fact_neq_0.
  - rewrite decomp_sum by lia. cbn [pred ralt].
    replace (Z.of_nat k + 2)%Z with (Z.of_nat (k + 2)) by lia. rewrite IH by lia.
    cbn [pow]. rewrite Nat.mul_0_r, Nat.add_0_r. unfold Rminus. f_equal; [field; apply INR_fact_neq_0|].
    rewrite <- Ropp_mult_distr_l_reverse || idtac.
    replace (- sum_f_R0 (fun i => (-1) ^ i * (t * a2 / IZR (Z.of_nat k * (Z.of_nat k + 1)) * a2 ^ i * INR (fact (k + 2 - 1)) / INR (fact (k + 2 - 1 + 2 * i)))) n)
      with (-1 * sum_f_R0 (fun i => (-1) ^ i * (t * a2 / IZR (Z.of_nat k * (Z.of_nat k + 1)) * a2 ^ i * INR (fact (k + 2 - 1)) / INR (fact (k + 2 - 1 + 2 * i)))) n) by ring.
    rewrite scal_sum. apply sum_eq. intros i I.
    replace (k - 1 + 2 * S i)%nat with (k + 2 - 1 + 2 * i)%nat by lia.
    assert (F : INR (fact (k + 2 - 1)) = IZR (Z.of_nat k * (Z.of_nat k + 1)) * INR (fact (k - 1))).
    { destruct k as [|k]; [lia|]. replace (S k + 2 - 1)%nat with (S (S k)) by lia. replace (S k - 1)%nat with k by lia.
      rewrite !fact_simpl, !mult_INR. rewrite mult_IZR, plus_IZR, <- !INR_IZR_INZ, !S_INR. ring. }
    rewrite F. assert (P : 0 < IZR (Z.of_nat k * (Z.of_nat k + 1))) by (apply IZR_lt; nia).
    field. split; [apply INR_fact_neq_0|lra].
Qed.
Lemma ralt_sin : forall n a, ralt n 2 (a * a) a = sin_approx a n.
Proof.
  intros n a. change 2%Z with (Z.of_nat 2). rewrite ralt_sum by lia. unfold sin_approx. apply sum_eq. intros i _. unfold sin_term. f_equal.
  change (2 - 1)%nat with 1%nat. replace (1 + 2 * i)%nat with (2 * i + 1)%nat by lia.
  replace (a ^ (2 * i + 1)) with (a * (a * a) ^ i).
  2:{ rewrite pow_add, pow_mult. replace (a ^ 2) with (a * a) by ring. ring. }
  replace (INR (fact 1)) with 1 by reflexivity. field. apply INR_fact_neq_0.
Qed.
Lemma ralt_cos : forall n a, ralt n 1 (a * a) 1 = cos_approx a n.
Proof.
  intros n a. change 1%Z with (Z.of_nat 1). rewrite ralt_sum by lia. unfold cos_approx. apply sum_eq. intros i _. unfold cos_term. f_equal.
  change (1 - 1)%nat with 0%nat. replace (0 + 2 * i)%nat with (2 * i)%nat by lia. rewrite pow_mult. replace (a ^ 2) with (a * a) by ring.
  replace (INR (fact 0)) with 1 by reflexivity. field. apply INR_fact_neq_0.
Qed.
Lemma ralt_opp : forall n k q t, ralt n k q (- t) = - ralt n k q t.
Proof.
  induction n as [|n IH]; intros k q t; cbn [ralt]; [ring|]. replace (- t * q / IZR (k * (k + 1))) with (- (t * q / IZR (k * (k + 1)))) by (unfold Rdiv; ring).
  rewrite IH. ring.
Qed.
Definition small (i : iv) : bool := match i with None => false | Some (a, b) => ((- 2 * den <=? a) && (b <=? 2 * den))%Z%bool end.
Lemma small_ok : forall i x, small i = true -> inside i x -> -2 <= x <= 2.
Proof.
  intros [[a b]|] x H K; [|discriminate]. cbn [small inside] in *. apply Bool.andb_true_iff in H. destruct H as (H1 & H2).
  apply Z.leb_le in H1. apply Z.leb_le in H2. apply IZR_le in H1. apply IZR_le in H2. rewrite mult_IZR in *. pose proof den_pos. nra.
Qed.
Definition isin (i : iv) : iv :=
  if small i then let q := imul i i in hull (alt 7 2 q i) (alt 8 2 q i) else None.
Definition icos (i : iv) : iv :=
  if small i then let q := imul i i in hull (alt 7 1 q (frac 1 1)) (alt 8 1 q (frac 1 1)) else None.
Lemma isin_ok : forall i x, inside i x -> inside (isin i) (sin x).
Proof.
  intros i x H. unfold isin. destruct (small i) eqn:S; [|exact I]. pose proof (small_ok _ _ S H) as B.
  assert (Q : inside (imul i i) (x * x)) by (apply imul_ok; auto).
  apply (hull_ok _ _ _ _ _ (alt_ok 7 2 _ _ _ _ Q H) (alt_ok 8 2 _ _ _ _ Q H)). rewrite !ralt_sin.
  destruct (Rle_or_lt 0 x) as [X|X].
  - left. change 7%nat with (2 * 3 + 1)%nat. change 8%nat with (2 * (3 + 1))%nat. apply pre_sin_bound; lra.
  - right. assert (N : forall n, sin_approx x n = - sin_approx (- x) n).
    { intros n. rewrite <- (ralt_sin n x), <- (ralt_sin n (- x)), ralt_opp. replace (- x * - x) with (x * x) by ring. ring. }
    rewrite !N. replace (sin x) with (- sin (- x)) by (rewrite sin_neg; ring).
    assert (P := pre_sin_bound (- x) 3 ltac:(lra) ltac:(lra)). change (2 * 3 + 1)%nat with 7%nat in P. change (2 * (3 + 1))%nat with 8%nat in P. lra.
Qed.
Lemma icos_ok : forall i x, inside i x -> inside (icos i) (cos x).
Proof.
  intros i x H. unfold icos. destruct (small i) eqn:S; [|exact I]. pose proof (small_ok _ _ S H) as B.
  assert (Q : inside (imul i i) (x * x)) by (apply imul_ok; auto).
  assert (O : inside (frac 1 1) 1). { pose proof (frac_ok 1 1) as O. replace (1 / 1) with 1 in O by field. exact O. }
  apply (hull_ok _ _ _ _ _ (alt_ok 7 1 _ _ _ _ Q O) (alt_ok 8 1 _ _ _ _ Q O)). rewrite !ralt_cos.
  left. change 7%nat with (2 * 3 + 1)%nat. change 8%nat with (2 * (3 + 1))%nat. apply pre_cos_bound; lra.
Qed.

(** ** Pi *)
Lemma PI_bounds : 314159265358 / 100000000000 <= PI <= 314159265360 / 100000000000.
Proof.
  pose proof (PI_2_3_7_ineq 5) as [L _]. pose proof (PI_2_3_7_ineq 6) as [_ H]. split.
  - cbv [sum_f_R0 tg_alt PI_2_3_7_tg Ratan_seq Nat.mul Nat.add pow INR] in L. lra.
  - cbv [sum_f_R0 tg_alt PI_2_3_7_tg Ratan_seq Nat.mul Nat.add pow INR] in H. lra.
Qed.
Definition ipi : iv := hull (frac 314159265358 100000000000) (frac 314159265360 100000000000).
Lemma ipi_ok : inside ipi PI.
Proof. eapply hull_ok; [apply frac_ok|apply frac_ok|left; apply PI_bounds]. Qed.

(** ** Comparison with decimals: distance at most 3/20000000 from z / 10^10, the
    bound of numpy.testing.assert_almost_equal. *)
Definition near (x : R) (z : Z) : Prop := Rabs (x - IZR z / 10000000000) <= 15 / 100000000.
Definition nearby (i : iv) (z : Z) : bool :=
  match i with
  | None => false
  | Some (a, b) => ((z * den - 1500 * den <=? a * 10000000000) && (b * 10000000000 <=? z * den + 1500 * den))%Z%bool
  end.
Lemma nearby_ok : forall i x z, inside i x -> nearby i z = true -> near x z.
Proof.
  intros [[a b]|] x z H K; [|discriminate]. cbn [inside nearby] in *. apply Bool.andb_true_iff in K. destruct K as (K1 & K2).
  apply Z.leb_le in K1. apply Z.leb_le in K2. apply IZR_le in K1. apply IZR_le in K2. rewrite minus_IZR, !mult_IZR in K1. rewrite plus_IZR, !mult_IZR in K2.
  pose proof den_pos. unfold near. apply Rabs_le. split.
  - apply Rmult_le_reg_r with (IZR den); auto. nra.
  - apply Rmult_le_reg_r with (IZR den); auto. nra.
Qed.
Lemma all_near : forall (ev : nat -> iv) (l : list R) (zs : list Z),
  (forall k x, nth_error l k = Some x -> inside (ev k) x) -> length l = length zs ->
  forallb (fun kz => nearby (ev (fst kz)) (snd kz)) (combine (seq 0 (length zs)) zs) = true -> Forall2 near l zs.
Proof.
  intros ev l zs. cut (forall s, (forall k x, nth_error l k = Some x -> inside (ev (s + k)%nat) x) -> length l = length zs ->
    forallb (fun kz => nearby (ev (fst kz)) (snd kz)) (combine (seq s (length zs)) zs) = true -> Forall2 near l zs).
  { intros C H L F. apply (C 0%nat); auto. }
  revert l. induction zs as [|z zs IH]; intros l s H L F.
  - destruct l; [constructor|discriminate].
  - destruct l as [|x l]; [discriminate|]. cbn [length seq combine forallb fst snd] in F. apply Bool.andb_true_iff in F. destruct F as (F1 & F2). constructor.
    + eapply nearby_ok; [|exact F1]. replace s with (s + 0)%nat by lia. apply H. reflexivity.
    + apply (IH l (S s)); [|cbn in L; lia|exact F2]. intros k y E. replace (S s + k)%nat with (s + S k)%nat by lia. apply H. exact E.
Qed.
