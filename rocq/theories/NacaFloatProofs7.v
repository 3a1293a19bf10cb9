(** Coordinates of NACA foils in binary64 against the exact ones. *)
From Coq Require Import Reals ZArith List Lra Lia Bool Sorted.
From Flocq Require Import Core BinarySingleNaN.
From Verif Require Import Base PpgFloatModel PpgFloatProofs FloatModel FloatSpec FloatProofs ShapeFloatModel ShapeFloatProofs SectionFloatModel SectionFloatProofs SectionFloatProofs4 NacaModel NacaSpec NacaBounds NacaProofs NacaFloatModel NacaFloatSpec NacaFloatProofs NacaFloatProofs2 NacaFloatProofs3 NacaFloatProofs4 NacaFloatProofs5.
Import ListNotations.
Open Scope R_scope.

(** ** Relative errors *)
Definition rel (v k : R) (x : b64) : Prop := finite x = true /\ Rabs (val x - v) <= k * (eps * v).
Lemma eps_part : forall k v, 0 <= k <= 1000 -> 0 <= v -> 0 <= k * (eps * v) <= / 1000 * v.
Proof.
  intros k v K V. pose proof eps_bounds as (e0 & _). assert (0 <= eps * v) by (apply Rmult_le_pos; lra). split; [apply Rmult_le_pos; lra|].
  rewrite <- Rmult_assoc. apply Rmult_le_compat_r; auto. rewrite eps_val. lra.
Qed.
Lemma eps_small : forall k v, 0 <= k <= 1000 -> 0 <= v -> 0 <= k * (eps * v) <= / 10 ^ 12 * v.
Proof.
  intros k v K V. pose proof eps_bounds as (e0 & _). assert (0 <= eps * v) by (apply Rmult_le_pos; lra). split; [apply Rmult_le_pos; lra|].
  rewrite <- Rmult_assoc. apply Rmult_le_compat_r; auto. rewrite eps_val. lra.
Qed.
Lemma rel_near : forall v k x W, rel v k x -> 0 <= k -> 0 <= v <= W -> near v (k * W) x.
Proof. intros v k x W (F & E) K V. split; auto. eapply Rle_trans; [exact E|]. pose proof eps_bounds as (e0 & _). rewrite Rmult_assoc. apply Rmult_le_compat_l; auto. rewrite (Rmult_comm W). apply Rmult_le_compat_l; lra. Qed.
Lemma rel_div : forall u v k1 k2 m x y, rel u k1 x -> rel v k2 y -> 0 <= k1 <= 100 -> 0 <= k2 <= 100 -> u = 0 \/ 1 / 1000 <= u -> u <= 1 -> 1 / 1000 <= v <= 1 ->
  k1 + k2 + 11 / 10 <= m -> rel (u / v) m (fdiv64 x y).
Proof.
  intros u v k1 k2 m x y (Fx & Ex) (Fy & Ey) K1 K2 U1 U2 V M. assert (U0 : 0 <= u) by lra. pose proof eps_bounds as (e0 & _).
  pose proof (eps_small k1 u ltac:(lra) U0) as P1. pose proof (eps_small k2 v ltac:(lra) ltac:(lra)) as P2. apply Rabs_le_inv in Ex as Ex'. apply Rabs_le_inv in Ey as Ey'.
  set (q := u / v). assert (Q : 0 <= q <= 1000). { unfold q, Rdiv. split; [apply Rmult_le_pos; [lra|left; apply Rinv_0_lt_compat; lra]|]. replace 1000 with (1 * / (1 / 1000)) by lra. apply Rmult_le_compat; try lra. left. apply Rinv_0_lt_compat. lra. apply Rinv_le_contravar; lra. }
  assert (QV : q * v = u) by (unfold q; field; lra). assert (Y : 0 < val y) by lra. assert (YV : v <= val y * (1 + / 10 ^ 11)) by lra.
  assert (D : Rabs (val x / val y - q) <= (k1 + k2 + / 1000) * (eps * q)).
  { replace (val x / val y - q) with (((val x - u) - q * (val y - v)) * / val y) by (rewrite <- QV; field; lra). rewrite Rabs_mult, (Rabs_pos_eq (/ val y)) by (left; apply Rinv_0_lt_compat; lra).
    apply Rmult_le_reg_r with (val y); auto. rewrite Rmult_assoc, Rinv_l, Rmult_1_r by lra.
    apply Rle_trans with (k1 * (eps * u) + q * (k2 * (eps * v))).
    - unfold Rminus at 1. eapply Rle_trans; [apply Rabs_triang|]. rewrite Rabs_Ropp, Rabs_mult, (Rabs_pos_eq q) by lra. apply Rplus_le_compat; auto. apply Rmult_le_compat_l; lra.
    - rewrite <- QV at 1. replace (k1 * (eps * (q * v)) + q * (k2 * (eps * v))) with ((k1 + k2) * (eps * q) * v) by ring.
      assert (Z0 : 0 <= eps * q) by (apply Rmult_le_pos; lra). assert (Z1 : 0 <= (k1 + k2) * (eps * q)) by (apply Rmult_le_pos; lra).
      apply Rle_trans with ((k1 + k2) * (eps * q) * (val y * (1 + / 10 ^ 11))); [apply Rmult_le_compat_l; auto|].
      assert (0 <= eps * q * val y) by (apply Rmult_le_pos; lra). assert ((k1 + k2) * (eps * q * val y) <= 200 * (eps * q * val y)) by (apply Rmult_le_compat_r; lra). lra. }
  assert (Z0 : 0 <= eps * q) by (apply Rmult_le_pos; lra). pose proof (eps_small (k1 + k2 + / 1000) q ltac:(lra) ltac:(lra)) as P3. apply Rabs_le_inv in D as D'.
  pose proof huge_big. destruct (fdiv_fine x y Fx) as (E & F); [lra|apply Rabs_le; lra|]. split; auto. rewrite E.
  destruct U1 as [U1|U1].
  - assert (q = 0) by (unfold q; rewrite U1; field; lra). assert (Z : val x / val y = 0) by lra. rewrite Z, rnd_0. fold q. rewrite H0, Rminus_0_r, Rabs_R0. lra.
  - assert (Q1 : 1 / 1000 <= q). { unfold q, Rdiv. rewrite <- (Rmult_1_r (1 * / 1000)). apply Rmult_le_compat; try lra. rewrite <- Rinv_1 at 1. apply Rinv_le_contravar; lra. }
    assert (R : Rabs (rnd (val x / val y) - val x / val y) <= eps * (val x / val y)).
    { pose proof (rnd_error (val x / val y)) as W. rewrite (Rabs_pos_eq (val x / val y)) in W by lra. apply W. apply Rle_trans with (bpow radix2 (-11)); [apply bpow_le; lia|]. cbn. lra. }
    fold q. replace (rnd (val x / val y) - q) with ((rnd (val x / val y) - val x / val y) + (val x / val y - q)) by ring. eapply Rle_trans; [apply Rabs_triang|].
    assert (eps * (val x / val y) <= eps * (q * (1 + / 1000))) by (apply Rmult_le_compat_l; lra).
    assert ((k1 + k2 + 11 / 10) * (eps * q) <= m * (eps * q)) by (apply Rmult_le_compat_r; lra). lra.
Qed.
Lemma rel_pow : forall L v k m x, good_powers L -> rel v k x -> 0 <= k <= 40 -> 1 / 20 <= v <= 95 / 100 -> 2 * k + 81 / 10 <= m -> rel (v ^ 2) m (pow64 L x 2).
Proof.
  intros L v k m x G (F & E) K V M. pose proof (eps_small k v ltac:(lra) ltac:(lra)) as P. apply Rabs_le_inv in E as E'. pose proof eps_bounds as (e0 & _).
  destruct (G x 2%Z F) as (N & _ & Q); [unfold real; fold (val x); lra|lia|]. split; auto. unfold real in Q. fold (val x) in Q. replace (powerRZ (val x) 2) with (val x ^ 2) in Q by reflexivity. fold (val (pow64 L x 2)) in Q.
  assert (T : bpow radix2 (-1071) <= / 10 ^ 7 * eps). { pose proof eta_tiny as T. unfold eta in T. change (-1071)%Z with (-1075 + 4)%Z. rewrite bpow_plus. change (bpow radix2 4) with 16. lra. }
  set (e := val x - v) in *. assert (X : val x ^ 2 = v ^ 2 + (2 * v * e + e * e)) by (unfold e; ring).
  assert (E2 : Rabs (2 * v * e + e * e) <= (2 * k + / 1000) * (eps * v ^ 2)).
  { replace (2 * v * e + e * e) with (e * (2 * v + e)) by ring. rewrite Rabs_mult, (Rabs_pos_eq (2 * v + e)) by lra. apply Rle_trans with (k * (eps * v) * (2 * v + / 10 ^ 12 * v)).
    - apply Rmult_le_compat; try lra. apply Rabs_pos.
    - assert (0 <= eps * v * v) by (apply Rmult_le_pos; [apply Rmult_le_pos|]; lra). assert (k * (eps * v * v) <= 40 * (eps * v * v)) by (apply Rmult_le_compat_r; lra). lra. }
  assert (V2 : 1 / 400 <= v ^ 2 <= 1) by nra. pose proof (eps_small (2 * k + / 1000) (v ^ 2) ltac:(lra) ltac:(lra)) as P2.
  assert (XX : val x ^ 2 <= v ^ 2 * (1 + / 10 ^ 11)) by (apply Rabs_le_inv in E2; lra). assert (8 * eps * val x ^ 2 <= 8 * eps * (v ^ 2 * (1 + / 10 ^ 11))) by (apply Rmult_le_compat_l; lra).
  assert (EV : eps * (1 / 400) <= eps * v ^ 2) by (apply Rmult_le_compat_l; lra). assert ((2 * k + 81 / 10) * (eps * v ^ 2) <= m * (eps * v ^ 2)) by (apply Rmult_le_compat_r; lra).
  replace (val (pow64 L x 2) - v ^ 2) with ((val (pow64 L x 2) - val x ^ 2) + (2 * v * e + e * e)) by (rewrite X; ring). eapply Rle_trans; [apply Rabs_triang|]. lra.
Qed.

(** ** Lipschitz bounds *)
Lemma atan_lip : forall a b, Rabs (atan a - atan b) <= Rabs (a - b).
Proof.
  assert (H : forall a b, a < b -> Rabs (atan b - atan a) <= Rabs (b - a)).
  { intros a b L. destruct (MVT_cor2 atan (fun x => / (1 + x ^ 2)) a b L) as (c & E & _).
    - intros c _. pose proof (derivable_pt_lim_atan c) as D. replace (c²) with (c ^ 2) in D by (unfold Rsqr; ring). exact D.
    - rewrite E, Rabs_mult. rewrite <- (Rmult_1_l (Rabs (b - a))) at 2. apply Rmult_le_compat_r; [apply Rabs_pos|].
      pose proof (pow2_ge_0 c). rewrite Rabs_pos_eq by (left; apply Rinv_0_lt_compat; lra). rewrite <- Rinv_1. apply Rinv_le_contravar; lra. }
  intros a b. destruct (Rtotal_order a b) as [L|[->|L]].
  - rewrite (Rabs_minus_sym (atan a)), (Rabs_minus_sym a). apply H. exact L.
  - rewrite !(Rminus_diag_eq _ _ eq_refl). lra.
  - apply H. exact L.
Qed.
Lemma sin_lip : forall a b, Rabs (sin a - sin b) <= Rabs (a - b) /\ Rabs (cos a - cos b) <= Rabs (a - b).
Proof.
  assert (H : forall a b, a < b -> Rabs (sin b - sin a) <= Rabs (b - a) /\ Rabs (cos b - cos a) <= Rabs (b - a)).
  { intros a b L. split.
    - destruct (MVT_cor2 sin cos a b L) as (c & E & _); [intros; apply derivable_pt_lim_sin|]. rewrite E, Rabs_mult. rewrite <- (Rmult_1_l (Rabs (b - a))) at 2. apply Rmult_le_compat_r; [apply Rabs_pos|]. apply Rabs_le. apply COS_bound.
    - destruct (MVT_cor2 cos (fun x => - sin x) a b L) as (c & E & _); [intros; apply derivable_pt_lim_cos|]. rewrite E, Rabs_mult, Rabs_Ropp. rewrite <- (Rmult_1_l (Rabs (b - a))) at 2. apply Rmult_le_compat_r; [apply Rabs_pos|]. apply Rabs_le. apply SIN_bound. }
  intros a b. destruct (Rtotal_order a b) as [L|[->|L]].
  - rewrite (Rabs_minus_sym (sin a)), (Rabs_minus_sym (cos a)), (Rabs_minus_sym a). apply H. exact L.
  - rewrite !(Rminus_diag_eq _ _ eq_refl). lra.
  - apply H. exact L.
Qed.

(** ** Camber and slope *)
Section Accuracy.
Variables (L : mathlib) (a b : nat).
Hypothesis G : good_library L.
Hypothesis A : digit a.
Hypothesis B : (1 <= b <= 9)%nat.
Let m64 := fdiv64 (of_int (Z.of_nat a)) hundred64.
Let p64 := fdiv64 (of_int (Z.of_nat b)) ten64.
Let m := INR a / 100.
Let p := INR b / 10.
Lemma m_rel : rel m 1 m64 /\ 0 <= m <= 9 / 100 /\ (m = 0 \/ 1 / 1000 <= m).
Proof.
  destruct hundred_val as (V & F). unfold digit in A. destruct (quotient_val a hundred64 100 F V ltac:(lra) ltac:(lia)) as (Fm & Em & _). pose proof (pos_INR a).
  assert (A9 : INR a <= 9) by (replace 9 with (INR 9) by (cbn; lra); apply le_INR; auto).
  split; [split; auto; fold m64 m in Em |- *; lra|]. unfold m. split; [lra|]. destruct a as [|k]; [left; cbn; lra|right]. assert (1 <= INR (S k)) by (apply (le_INR 1); lia). lra.
Qed.
Lemma p_rel : rel p 1 p64 /\ 1 / 10 <= p <= 9 / 10.
Proof.
  destruct ten_val as (V & F). destruct (quotient_val b ten64 10 F V ltac:(lra) ltac:(lia)) as (Fm & Em & _).
  assert (B9 : INR b <= 9) by (replace 9 with (INR 9) by (cbn; lra); apply le_INR; lia). assert (B1 : 1 <= INR b) by (apply (le_INR 1); lia).
  split; [split; auto; fold p64 p in Em |- *; lra|]. unfold p. lra.
Qed.
Lemma q_rel : rel (1 - p) (102 / 10) (fsub one64 p64).
Proof.
  destruct p_rel as ((F & E) & R). destruct one_val as (V1 & F1). pose proof huge_big. pose proof eps_bounds as (e0 & _). pose proof (eps_small 1 p ltac:(lra) ltac:(lra)) as P. apply Rabs_le_inv in E as E'.
  destruct (fsub_ok one64 p64 F1 F) as (V & FF). rewrite V1. apply Rabs_le; lra. split; auto. rewrite V, V1.
  pose proof (diff_error one64 p64) as D. rewrite V1, (Rabs_pos_eq (1 - val p64)) in D by lra.
  replace (rnd (1 - val p64) - (1 - p)) with ((rnd (1 - val p64) - (1 - val p64)) + - (val p64 - p)) by ring. eapply Rle_trans; [apply Rabs_triang|]. rewrite Rabs_Ropp.
  assert (eps * (1 - val p64) <= eps * (1 - p + / 1000)) by (apply Rmult_le_compat_l; lra). assert (eps * p <= eps * (9 * (1 - p))) by (apply Rmult_le_compat_l; lra). assert (eps * / 10 <= eps * (1 - p)) by (apply Rmult_le_compat_l; lra). lra.
Qed.
Lemma front_ratio : near (m / p ^ 2) 117 (fdiv64 m64 (pow64 L p64 2)) /\ 0 <= m / p ^ 2 <= 9.
Proof.
  destruct m_rel as (Rm & Bm & Zm). destruct p_rel as (Rp & Bp). assert (P2 : 1 / 100 <= p ^ 2 <= 1) by nra.
  assert (Q : 0 <= m / p ^ 2 <= 9). { unfold Rdiv. split; [apply Rmult_le_pos; [lra|left; apply Rinv_0_lt_compat; lra]|]. replace 9 with (9 * / 100 * / (1 * / 100)) by lra. apply Rmult_le_compat; try lra. left; apply Rinv_0_lt_compat; lra. apply Rinv_le_contravar; lra. }
  split; auto. apply near_weaken with (13 * 9); [|lra]. apply rel_near; try lra. apply rel_div with (k1 := 1) (k2 := 102 / 10); auto; try lra. apply rel_pow with (k := 1); auto; try lra. apply G.
Qed.
Lemma rear_ratio : near (m / (1 - p) ^ 2) 279 (fdiv64 m64 (pow64 L (fsub one64 p64) 2)) /\ 0 <= m / (1 - p) ^ 2 <= 9.
Proof.
  destruct m_rel as (Rm & Bm & Zm). destruct p_rel as (Rp & Bp). assert (P2 : 1 / 100 <= (1 - p) ^ 2 <= 1) by nra.
  assert (Q : 0 <= m / (1 - p) ^ 2 <= 9). { unfold Rdiv. split; [apply Rmult_le_pos; [lra|left; apply Rinv_0_lt_compat; lra]|]. replace 9 with (9 * / 100 * / (1 * / 100)) by lra. apply Rmult_le_compat; try lra. left; apply Rinv_0_lt_compat; lra. apply Rinv_le_contravar; lra. }
  split; auto. apply near_weaken with (31 * 9); [|lra]. apply rel_near; try lra. apply rel_div with (k1 := 1) (k2 := 289 / 10); auto; try lra. apply rel_pow with (k := 102 / 10); auto using q_rel; try lra. apply G.
Qed.
Lemma p_near : near p 1 p64 /\ near (2 * p) 4 (fmul two64 p64) /\ near (1 - 2 * p) 5 (fsub one64 (fmul two64 p64)).
Proof.
  destruct p_rel as (Rp & Bp). destruct two64_val as (V2 & F2). destruct one_val as (V1 & F1).
  assert (N : near p 1 p64). { apply near_weaken with (1 * (9 / 10)); [|lra]. apply rel_near; auto; lra. }
  assert (N2 : near (2 * p) 4 (fmul two64 p64)). { rewrite <- V2. apply near_mul with (k1 := 0) (k2 := 1) (U := 2) (V := 9 / 10); auto using near_exact; try lra; rewrite ?V2; apply Rabs_le; lra. }
  split; auto. split; auto. rewrite <- V1. apply near_sub with (k1 := 0) (k2 := 4) (W := 8 / 10); auto using near_exact; try lra; rewrite ?V1; apply Rabs_le; lra.
Qed.

Section At.
Variable x : b64.
Hypothesis Fx : finite x = true.
Hypothesis Bx : 0 <= val x <= 1.
Lemma front_near : near (m / p ^ 2 * val x * (2 * p - val x)) 300 (camber_front64 L m64 p64 x).
Proof.
  destruct front_ratio as (N & R). destruct p_near as (_ & N2 & _). destruct p_rel as (_ & Bp). unfold camber_front64. assert (RX : 0 <= m / p ^ 2 * val x <= 9). { split; [apply Rmult_le_pos; lra|]. replace 9 with (9 * 1) by lra. apply Rmult_le_compat; lra. }
  apply near_mul with (k1 := 127) (k2 := 6) (U := 9) (V := 18 / 10); try lra; try (apply Rabs_le; lra).
  - apply near_mul with (k1 := 117) (k2 := 0) (U := 9) (V := 1); auto using near_exact; try lra; apply Rabs_le; lra.
  - apply near_sub with (k1 := 4) (k2 := 0) (W := 18 / 10); auto using near_exact; try lra; apply Rabs_le; lra.
Qed.
Lemma rear_near : near (m / (1 - p) ^ 2 * (1 - 2 * p + val x) * (1 - val x)) 640 (camber_rear64 L m64 p64 x).
Proof.
  destruct rear_ratio as (N & R). destruct p_near as (_ & _ & N2). destruct p_rel as (_ & Bp). unfold camber_rear64. destruct one_val as (V1 & F1).
  assert (RX : Rabs (m / (1 - p) ^ 2 * (1 - 2 * p + val x)) <= 9 * (18 / 10)). { rewrite Rabs_mult. apply Rmult_le_compat; auto using Rabs_pos; apply Rabs_le; lra. }
  apply near_mul with (k1 := 583) (k2 := 2) (U := 9 * (18 / 10)) (V := 1); try lra; try (apply Rabs_le; lra).
  - apply near_mul with (k1 := 279) (k2 := 7) (U := 9) (V := 18 / 10); auto; try lra; try (apply Rabs_le; lra). apply near_add with (k1 := 5) (k2 := 0) (W := 18 / 10); auto using near_exact; try lra; apply Rabs_le; lra.
  - rewrite <- V1. apply near_sub with (k1 := 0) (k2 := 0) (W := 1); auto using near_exact; try lra; rewrite ?V1; apply Rabs_le; lra.
Qed.
Lemma double_near : near (2 * p - 2 * val x) 9 (fsub (fmul two64 p64) (fmul two64 x)).
Proof.
  destruct p_near as (_ & N2 & _). destruct p_rel as (_ & Bp). destruct two64_val as (V2 & F2).
  apply near_sub with (k1 := 4) (k2 := 3) (W := 18 / 10); auto; try lra; try (apply Rabs_le; lra). rewrite <- V2. apply near_mul with (k1 := 0) (k2 := 0) (U := 2) (V := 1); auto using near_exact; try lra; rewrite ?V2; apply Rabs_le; lra.
Qed.
Lemma front_slope_near : near (m / p ^ 2 * (2 * p - 2 * val x)) 600 (slope_front64 L m64 p64 x).
Proof. destruct front_ratio as (N & R). destruct p_rel as (_ & Bp). unfold slope_front64. apply near_mul with (k1 := 117) (k2 := 9) (U := 9) (V := 18 / 10); auto using double_near; try lra; apply Rabs_le; lra. Qed.
Lemma rear_slope_near : near (m / (1 - p) ^ 2 * (2 * p - 2 * val x)) 600 (slope_rear64 L m64 p64 x).
Proof. destruct rear_ratio as (N & R). destruct p_rel as (_ & Bp). unfold slope_rear64. apply near_mul with (k1 := 279) (k2 := 9) (U := 9) (V := 18 / 10); auto using double_near; try lra; apply Rabs_le; lra. Qed.

(** Between the rounded and the exact junction the two formulas differ by little. *)
Lemma at_junction : Rabs (val x - p) <= eps * p ->
  Rabs (m / p ^ 2 * val x * (2 * p - val x) - m / (1 - p) ^ 2 * (1 - 2 * p + val x) * (1 - val x)) <= eps /\
  Rabs (m / p ^ 2 * (2 * p - 2 * val x) - m / (1 - p) ^ 2 * (2 * p - 2 * val x)) <= 18 * eps.
Proof.
  intros H. destruct front_ratio as (_ & R1). destruct rear_ratio as (_ & R2). destruct p_rel as (_ & Bp). pose proof eps_bounds as (e0 & _).
  assert (D : Rabs (val x - p) <= eps) by (assert (eps * p <= eps * 1) by (apply Rmult_le_compat_l; lra); lra).
  assert (DR : Rabs (m / (1 - p) ^ 2 - m / p ^ 2) <= 9) by (apply Rabs_le; lra). split.
  - replace (m / p ^ 2 * val x * (2 * p - val x) - m / (1 - p) ^ 2 * (1 - 2 * p + val x) * (1 - val x)) with ((m / (1 - p) ^ 2 - m / p ^ 2) * ((val x - p) * (val x - p))) by (field; lra).
    rewrite !Rabs_mult. apply Rle_trans with (9 * (eps * eps)); [repeat apply Rmult_le_compat; auto using Rabs_pos; apply Rmult_le_pos; apply Rabs_pos|].
    rewrite <- Rmult_assoc. rewrite <- (Rmult_1_l eps) at 3. apply Rmult_le_compat_r; [lra|]. rewrite eps_val. lra.
  - replace (m / p ^ 2 * (2 * p - 2 * val x) - m / (1 - p) ^ 2 * (2 * p - 2 * val x)) with ((m / (1 - p) ^ 2 - m / p ^ 2) * (2 * (val x - p))) by (field; lra).
    rewrite !Rabs_mult, (Rabs_pos_eq 2) by lra. apply Rle_trans with (9 * (2 * eps)); [|lra]. apply Rmult_le_compat; auto using Rabs_pos; try lra. apply Rmult_le_pos; [lra|apply Rabs_pos].
Qed.
Lemma near_shift : forall u v k j y, near u k y -> Rabs (u - v) <= j * eps -> near v (k + j) y.
Proof. intros u v k j y (F & E) H. split; auto. replace (val y - v) with ((val y - u) + (u - v)) by ring. eapply Rle_trans; [apply Rabs_triang|]. lra. Qed.
Lemma cam_near : near (camber_line4 m p (val x)) 641 (cam L m64 p64 x) /\ near (slope4 m p (val x)) 618 (slope L m64 p64 x).
Proof.
  destruct p_rel as ((Fp & Ep) & Bp). apply Rabs_le_inv in Ep as Ep'. unfold cam, slope. rewrite leb_val by auto.
  assert (E1 : m * (1 - ((p - val x) / p) ^ 2) = m / p ^ 2 * val x * (2 * p - val x)) by (field; lra).
  assert (E2 : m * (1 - ((val x - p) / (1 - p)) ^ 2) = m / (1 - p) ^ 2 * (1 - 2 * p + val x) * (1 - val x)) by (field; lra).
  assert (E3 : 2 * m / p ^ 2 * (p - val x) = m / p ^ 2 * (2 * p - 2 * val x)) by (field; lra).
  assert (E4 : 2 * m / (1 - p) ^ 2 * (p - val x) = m / (1 - p) ^ 2 * (2 * p - 2 * val x)) by (field; lra).
  unfold camber_line4, slope4. rewrite E1, E2, E3, E4. pose proof front_near as FN. pose proof rear_near as RN. pose proof front_slope_near as FS. pose proof rear_slope_near as RS.
  case Rle_bool_spec; intros J; destruct (Rle_dec (val x) p) as [I|I].
  - split; eapply near_weaken; eauto; lra.
  - destruct at_junction as (J1 & J2); [apply Rabs_le; lra|]. split; (eapply near_weaken; [eapply near_shift; [eassumption|]|]). rewrite <- (Rmult_1_l eps) in J1. exact J1. lra. exact J2. lra.
  - destruct at_junction as (J1 & J2); [apply Rabs_le; lra|]. rewrite Rabs_minus_sym in J1, J2. split; (eapply near_weaken; [eapply near_shift; [eassumption|]|]). rewrite <- (Rmult_1_l eps) in J1. exact J1. lra. exact J2. lra.
  - split; eapply near_weaken; eauto; lra.
Qed.
Lemma angle_near : small 20 (slope L m64 p64 x) -> near (sin (atan (slope4 m p (val x)))) 626 (sine L m64 p64 x) /\ near (cos (atan (slope4 m p (val x)))) 626 (cosi L m64 p64 x).
Proof.
  intros (FS & BS). destruct G as (_ & _ & Q). destruct (Q (slope L m64 p64 x) FS BS) as (S1 & _ & S2 & C1 & _ & C2). destruct cam_near as (_ & (_ & N)). unfold real in *. fold (val (slope L m64 p64 x)) in *.
  pose proof (atan_lip (val (slope L m64 p64 x)) (slope4 m p (val x))) as T. destruct (sin_lip (atan (val (slope L m64 p64 x))) (atan (slope4 m p (val x)))) as (T1 & T2).
  split; (split; [assumption|]).
  - change (val (sine L m64 p64 x)) with (B2R (sine L m64 p64 x)). unfold sine at 1. replace (B2R (sin64 L (atan64 L (slope L m64 p64 x))) - sin (atan (slope4 m p (val x)))) with ((B2R (sin64 L (atan64 L (slope L m64 p64 x))) - sin (atan (val (slope L m64 p64 x)))) + (sin (atan (val (slope L m64 p64 x))) - sin (atan (slope4 m p (val x))))) by ring.
    eapply Rle_trans; [apply Rabs_triang|]. lra.
  - unfold cosi at 1. replace (B2R (cos64 L (atan64 L (slope L m64 p64 x))) - cos (atan (slope4 m p (val x)))) with ((B2R (cos64 L (atan64 L (slope L m64 p64 x))) - cos (atan (val (slope L m64 p64 x)))) + (cos (atan (val (slope L m64 p64 x))) - cos (atan (slope4 m p (val x))))) by ring.
    eapply Rle_trans; [apply Rabs_triang|]. lra.
Qed.
Lemma camber_bound : 0 <= camber_line4 m p (val x) <= 9 / 100.
Proof.
  destruct m_rel as (_ & Bm & _). destruct p_rel as (_ & Bp).
  assert (S : forall r, -1 <= r <= 1 -> 0 <= m * (1 - r ^ 2) <= 9 / 100). { intros r Hr. assert (0 <= r ^ 2 <= 1) by nra. split; [apply Rmult_le_pos; lra|]. replace (9 / 100) with (9 / 100 * 1) by lra. apply Rmult_le_compat; lra. }
  assert (D : forall u v, 0 < v -> 0 <= u <= v -> -1 <= u / v <= 1). { intros u v Hv Hu. assert (0 <= u / v) by (apply Rmult_le_pos; [lra|left; apply Rinv_0_lt_compat; lra]). split; [lra|]. apply Rmult_le_reg_r with v; auto. unfold Rdiv. rewrite Rmult_assoc, Rinv_l by lra. lra. }
  unfold camber_line4. destruct (Rle_dec (val x) p); apply S; apply D; lra.
Qed.
End At.
End Accuracy.

Definition close_points (a b c d : nat) (cosine : bool) (x : R) (xu xd yu yd : b64) : Prop :=
  let h := half4 c d x in let th := angle4 a b cosine x in let C := camber4 a b x in
  near (x - h * sin th) 420 xu /\ near (x + h * sin th) 420 xd /\ near (C + h * cos th) 1060 yu /\ near (C - h * cos th) 1060 yd.
Lemma thick_near : forall L c d x, good_library L -> digit c -> digit d -> finite x = true -> 0 <= val x <= 1 ->
  near (half4 c d (val x)) 65 (half_thickness64 L (thickness_of c d) x) /\ 0 <= half4 c d (val x) <= 55 / 100.
Proof.
  intros L c d x G C D Fx Bx. destruct (thickness_val c d C D) as (T & R & _). unfold digit in *. destruct hundred_val as (V100 & F100). destruct (quotient_val (10 * c + d) hundred64 100 F100 V100 ltac:(lra) ltac:(lia)) as (Ft & _). fold (thickness_of c d) in Ft.
  unfold half4. set (t := thickness_of c d) in *. set (T' := INR (10 * c + d) / 100) in *. pose proof eps_bounds as (e0 & _). pose proof (poly_bounds _ Bx) as PB. apply Rabs_le_inv in T as T2.
  assert (ET : 0 <= eps * T' <= / 10 ^ 12 * T'). { split; [apply Rmult_le_pos; lra|apply Rmult_le_compat_r; [lra|]]. rewrite eps_val. lra. }
  destruct (half_near L t x (proj1 G) Ft ltac:(lra) Fx Bx) as (F & N). rewrite half_poly in N |- *. split.
  - split; auto. replace (val (half_thickness64 L t x) - 5 * T' * poly (val x)) with ((val (half_thickness64 L t x) - 5 * val t * poly (val x)) + (val t - T') * (5 * poly (val x))) by ring.
    eapply Rle_trans; [apply Rabs_triang|]. rewrite Rabs_mult, (Rabs_pos_eq (5 * _)) by lra. assert (Rabs (val t - T') * (5 * poly (val x)) <= eps * T' * 1) by (apply Rmult_le_compat; try lra; apply Rabs_pos).
    assert (eps * T' <= eps * 1) by (apply Rmult_le_compat_l; lra). lra.
  - split; [apply Rmult_le_pos; lra|]. apply Rle_trans with (5 * 1 * (11 / 100)); [apply Rmult_le_compat; lra|lra].
Qed.
Lemma close_foil : forall L a b c d cosine n, good_library L -> digit a -> digit b -> digit c -> digit d -> (2 <= n)%nat -> (Z.of_nat n <= 2 ^ 30)%Z ->
  exists XU XD YU YD, naca_foil64 L a b c d cosine n = Ok (mkF (map XU (linspace64 n)) (map XD (linspace64 n)) (map YU (linspace64 n)) (map YD (linspace64 n))) /\
    forall x, finite x = true -> 0 <= val x <= 1 -> close_points a b c d cosine (val x) (XU x) (XD x) (YU x) (YD x).
Proof.
  intros L a b c d cosine n G A B C D N M. pose proof (thick_near L c d) as TN. unfold digit in A, B. destruct ten_val as (V10 & F10). destruct hundred_val as (V100 & F100).
  destruct (quotient_val a hundred64 100 F100 V100 ltac:(lra) ltac:(lia)) as (Fm & Em & _). destruct (quotient_val b ten64 10 F10 V10 ltac:(lra) ltac:(lia)) as (Fp & Ep & Zp).
  unfold naca_foil64. fold (thickness_of c d). unfold naca4_64.
  assert (EB : Beqb (fdiv64 (of_int (Z.of_nat b)) ten64) zero64 = Req_bool (val (fdiv64 (of_int (Z.of_nat b)) ten64)) 0) by (apply (@Beqb_correct 53 1024); auto). rewrite EB. destruct b as [|b].
  - rewrite Req_bool_true by (apply Zp; auto). exists (fun x => x), (fun x => x), (half_thickness64 L (thickness_of c d)), (fun x => fneg (half_thickness64 L (thickness_of c d) x)). rewrite map_id, map_map. split; auto.
    intros x Fx Bx. destruct (TN x G C D Fx Bx) as (H & HB). unfold close_points, angle4, camber4. cbn [Nat.eqb orb]. rewrite sin_0, cos_0, Rmult_0_r, Rmult_1_r, Rminus_0_r, Rplus_0_r, Rplus_0_l.
    assert (X : near (val x) 420 x) by (apply near_weaken with 0; [apply near_exact; auto|lra]). split; [exact X|]. split; [exact X|]. split; [apply near_weaken with 65; [exact H|lra]|].
    destruct H as (F & E). split; [rewrite fneg_finite; auto|]. rewrite fneg_val. replace (- val (half_thickness64 L (thickness_of c d) x) - (0 - half4 c d (val x))) with (- (val (half_thickness64 L (thickness_of c d) x) - half4 c d (val x))) by ring. rewrite Rabs_Ropp. pose proof eps_bounds. lra.
  - assert (BB : (1 <= S b <= 9)%nat) by lia. pose proof (cam_near L a (S b) G A BB) as CN. pose proof (angle_near L a (S b) G A BB) as AN. pose proof (camber_bound a (S b) A BB) as CB.
    destruct (m_rel a (S b) A BB) as (_ & Bm' & _). destruct (p_rel (S b) BB) as (_ & Bp').
    set (m := fdiv64 (of_int (Z.of_nat a)) hundred64) in *. set (p := fdiv64 (of_int (Z.of_nat (S b))) ten64) in *. pose proof eps_bounds as (e0 & e1).
    assert (Bm : 0 <= val m <= 901 / 10000). { apply Rabs_le_inv in Em. assert (0 <= eps * (INR a / 100) <= / 10 ^ 6 * (INR a / 100)) by (split; [apply Rmult_le_pos; lra|apply Rmult_le_compat_r; [lra|rewrite eps_val; lra]]). lra. }
    assert (Bp : 999 / 10000 <= val p <= 9001 / 10000). { apply Rabs_le_inv in Ep. rewrite eps_val in Ep. lra. }
    rewrite Req_bool_false by lra. destruct (stations_sorted n N M) as (SS & FS). rewrite !(split_map _ _ p) by auto. fold (cam L m p). destruct cosine.
    + rewrite map_map. repeat (rewrite ?vzip_maps, ?vzip_left; cbn [bind]). do 4 eexists. split; [reflexivity|]. intros x Fx Bx. cbv beta.
      destruct (TN x G C D Fx Bx) as (H & HB). destruct (CN x Fx Bx) as (NC & _). specialize (CB x Bx).
      destruct (AN x Fx Bx) as (NS & NN). { destruct (slopes_small L m p G Fm Bm Fp Bp x Fx Bx) as (S1 & S2). unfold slope. destruct (Bleb x p); assumption. }
      unfold close_points, angle4, camber4. cbn [Nat.eqb orb negb]. set (th := atan (slope4 (INR a / 100) (INR (S b) / 10) (val x))) in *. set (h := half4 c d (val x)) in *.
      pose proof (SIN_bound th) as SB. pose proof (COS_bound th) as KB. set (C4 := camber_line4 (INR a / 100) (INR (S b) / 10) (val x)) in *.
      assert (HS : Rabs (h * sin th) <= 55 / 100) by (rewrite Rabs_mult, <- (Rmult_1_r (55 / 100)); apply Rmult_le_compat; auto using Rabs_pos; apply Rabs_le; lra).
      assert (HC : Rabs (h * cos th) <= 55 / 100) by (rewrite Rabs_mult, <- (Rmult_1_r (55 / 100)); apply Rmult_le_compat; auto using Rabs_pos; apply Rabs_le; lra).
      assert (N1 : near (h * sin th) 411 (fmul (half_thickness64 L (thickness_of c d) x) (sine L m p x))) by (apply near_mul with (k1 := 65) (k2 := 626) (U := 55 / 100) (V := 1); auto; try lra; apply Rabs_le; lra).
      assert (N2 : near (h * cos th) 411 (fmul (half_thickness64 L (thickness_of c d) x) (cosi L m p x))) by (apply near_mul with (k1 := 65) (k2 := 626) (U := 55 / 100) (V := 1); auto; try lra; apply Rabs_le; lra).
      apply Rabs_le_inv in HS. apply Rabs_le_inv in HC.
      split; [apply near_sub with (k1 := 0) (k2 := 411) (W := 2); auto using near_exact; try lra; apply Rabs_le; lra|].
      split; [apply near_add with (k1 := 0) (k2 := 411) (W := 2); auto using near_exact; try lra; apply Rabs_le; lra|].
      split; [apply near_add with (k1 := 641) (k2 := 411) (W := 1); auto; try lra; apply Rabs_le; lra|apply near_sub with (k1 := 641) (k2 := 411) (W := 1); auto; try lra; apply Rabs_le; lra].
    + rewrite !vzip_maps. cbn [bind]. exists (fun x => x), (fun x => x), (fun x => fadd (cam L m p x) (half_thickness64 L (thickness_of c d) x)), (fun x => fsub (cam L m p x) (half_thickness64 L (thickness_of c d) x)). rewrite map_id. split; auto.
      intros x Fx Bx. destruct (TN x G C D Fx Bx) as (H & HB). destruct (CN x Fx Bx) as (NC & _). specialize (CB x Bx).
      unfold close_points, angle4, camber4. cbn [Nat.eqb orb negb]. rewrite sin_0, cos_0, Rmult_0_r, Rmult_1_r, Rminus_0_r, Rplus_0_r.
      set (C4 := camber_line4 (INR a / 100) (INR (S b) / 10) (val x)) in *. set (h := half4 c d (val x)) in *.
      assert (X : near (val x) 420 x) by (apply near_weaken with 0; [apply near_exact; auto|lra]). split; [exact X|]. split; [exact X|].
      split; [apply near_add with (k1 := 641) (k2 := 65) (W := 1); auto; try lra; apply Rabs_le; lra|apply near_sub with (k1 := 641) (k2 := 65) (W := 1); auto; try lra; apply Rabs_le; lra].
Qed.
Lemma coordinates : forall L a b c d n cosine p, naca_input L a b c d n -> naca_foil64 L a b c d cosine n = Ok p -> forall i, (i < n)%nat ->
  exists x, Rabs (x - INR i / INR (n - 1)) <= 3 * eps /\ 0 <= x <= 1 /\ (i = 0%nat -> x = 0) /\ (i = (n - 1)%nat -> x = 1) /\
  let h := half4 c d x in let C := camber4 a b x in let th := angle4 a b cosine x in
  Rabs (real (fst (up64 p i)) - (x - h * sin th)) <= 420 * eps /\ Rabs (real (fst (down64 p i)) - (x + h * sin th)) <= 420 * eps /\
  Rabs (real (snd (up64 p i)) - (C + h * cos th)) <= 1060 * eps /\ Rabs (real (snd (down64 p i)) - (C - h * cos th)) <= 1060 * eps.
Proof.
  intros L a b c d n cosine p (G & A & B & C & D & N & M) E i I. destruct (close_foil L a b c d cosine n G A B C D N M) as (XU & XD & YU & YD & E' & Q). rewrite E' in E. injection E as <-.
  destruct (station_facts n i N M I) as (_ & SE & S0 & S1 & _). destruct (station_range n i N M I) as (F & R). destruct (Q _ F R) as ((_ & Q1) & (_ & Q2) & (_ & Q3) & (_ & Q4)).
  exists (val (station n i)). split; [exact SE|]. split; [exact R|]. split; [exact S0|]. split. { intros W. rewrite S1 by auto. apply one_val. }
  unfold up64, down64. cbn [fst snd fxup fxdown fyup fydown]. rewrite !nth_station by auto. unfold real. cbv zeta. auto.
Qed.
