(** Points of NACA foils in binary64. *)
From Coq Require Import Reals ZArith List Lra Lia Bool Sorted.
From Flocq Require Import Core BinarySingleNaN.
From Verif Require Import Base PpgFloatModel PpgFloatProofs FloatModel FloatSpec FloatProofs ShapeFloatModel ShapeFloatProofs SectionFloatModel SectionFloatProofs SectionFloatProofs4 NacaModel NacaBounds NacaProofs NacaFloatModel NacaFloatSpec NacaFloatProofs NacaFloatProofs2.
Import ListNotations.
Open Scope R_scope.

(** A finite number of bounded size. *)
Definition small (W : R) (x : b64) : Prop := finite x = true /\ Rabs (val x) <= W.
Lemma small_weaken : forall W W' x, small W x -> W <= W' -> small W' x.
Proof. intros W W' x (F & B) H. split; auto. lra. Qed.
Lemma rnd_size : forall u W, Rabs u <= W -> W <= 1000000 -> Rabs (rnd u) <= W + / 1000.
Proof.
  intros u W B H. pose proof (rnd_error_any u) as E. pose proof eta_tiny. pose proof eps_bounds. pose proof eps_val as ev. pose proof (Rabs_pos u).
  replace (rnd u) with ((rnd u - u) + u) by ring. eapply Rle_trans; [apply Rabs_triang|]. assert (eps * Rabs u <= eps * 1000000) by (apply Rmult_le_compat_l; lra). rewrite ev in *. lra.
Qed.
Lemma small_mul : forall U V W x y, small U x -> small V y -> U * V + / 1000 <= W -> W <= 1000 -> small W (fmul x y).
Proof.
  intros U V W x y (F1 & B1) (F2 & B2) H K. assert (P : Rabs (val x * val y) <= U * V) by (rewrite Rabs_mult; apply Rmult_le_compat; auto using Rabs_pos).
  pose proof huge_big. destruct (fmul_fine x y F1 F2) as (E & F); [lra|]. split; auto. rewrite E. pose proof (rnd_size _ _ P ltac:(lra)). lra.
Qed.
Lemma small_add : forall U V W x y, small U x -> small V y -> U + V + / 1000 <= W -> W <= 1000 -> small W (fadd x y).
Proof.
  intros U V W x y (F1 & B1) (F2 & B2) H K. assert (P : Rabs (val x + val y) <= U + V) by (eapply Rle_trans; [apply Rabs_triang|]; lra).
  pose proof huge_big. destruct (fadd_ok x y F1 F2) as (E & F); [lra|]. split; auto. rewrite E. pose proof (rnd_size _ _ P ltac:(lra)). lra.
Qed.
Lemma small_sub : forall U V W x y, small U x -> small V y -> U + V + / 1000 <= W -> W <= 1000 -> small W (fsub x y).
Proof.
  intros U V W x y (F1 & B1) (F2 & B2) H K. assert (P : Rabs (val x - val y) <= U + V) by (unfold Rminus; eapply Rle_trans; [apply Rabs_triang|]; rewrite Rabs_Ropp; lra).
  pose proof huge_big. destruct (fsub_ok x y F1 F2) as (E & F); [lra|]. split; auto. rewrite E. pose proof (rnd_size _ _ P ltac:(lra)). lra.
Qed.
Lemma near_size : forall v k x W, near v k x -> 0 <= k <= 10 ^ 6 -> Rabs v <= W -> small (W + / 1000) x.
Proof. intros v k x W N K B. split; [apply N|]. exact (near_small _ _ _ _ N K B). Qed.
Lemma zero_mul : forall W x y, small W x -> finite y = true -> val y = 0 -> val (fmul x y) = 0 /\ val (fmul y x) = 0.
Proof.
  intros W x y (F & _) Fy V. split.
  - destruct (fmul_fine x y F Fy) as (E & _). rewrite V, Rmult_0_r, Rabs_R0. unfold huge. apply bpow_ge_0. rewrite E, V, Rmult_0_r. apply rnd_0.
  - destruct (fmul_fine y x Fy F) as (E & _). rewrite V, Rmult_0_l, Rabs_R0. unfold huge. apply bpow_ge_0. rewrite E, V, Rmult_0_l. apply rnd_0.
Qed.
Lemma from_zero : forall x y W, finite x = true -> val x = 0 -> small W y -> W <= 1000 -> val (fadd x y) = val y /\ val (fsub x y) = - val y.
Proof.
  intros x y W F V (Fy & B) H. pose proof huge_big. split.
  - destruct (fadd_ok x y F Fy) as (E & _). rewrite V, Rplus_0_l; lra. rewrite E, V, Rplus_0_l. apply rnd_exact, format_val.
  - destruct (fsub_ok x y F Fy) as (E & _). rewrite V, Rminus_0_l, Rabs_Ropp; lra. rewrite E, V, Rminus_0_l, rnd_opp, rnd_exact; auto. apply format_val.
Qed.

(** Two ordinates about the camber are in order. *)
Lemma in_order : forall c h, small 20 c -> small 1 h -> / 2 ^ 46 <= val h -> val (fsub c h) < val (fadd c h).
Proof.
  intros c h (Fc & Bc) (Fh & Bh) H. pose proof huge_big.
  assert (B1 : Rabs (val c + val h) <= 21) by (eapply Rle_trans; [apply Rabs_triang|]; lra).
  assert (B2 : Rabs (val c - val h) <= 21) by (unfold Rminus; eapply Rle_trans; [apply Rabs_triang|]; rewrite Rabs_Ropp; lra).
  destruct (fadd_ok c h Fc Fh ltac:(lra)) as (-> & _). destruct (fsub_ok c h Fc Fh ltac:(lra)) as (-> & _).
  pose proof (rnd_error_any (val c + val h)) as E1. pose proof (rnd_error_any (val c - val h)) as E2. pose proof eps_bounds as (e0 & _). pose proof eta_tiny.
  assert (eps * Rabs (val c + val h) <= eps * 21) by (apply Rmult_le_compat_l; lra). assert (eps * Rabs (val c - val h) <= eps * 21) by (apply Rmult_le_compat_l; lra).
  apply Rabs_le_inv in E1. apply Rabs_le_inv in E2. pose proof eps_val as ev. rewrite ev in *. lra.
Qed.

(** ** Camber *)
Section Digits.
Variables (L : mathlib) (m p t : b64).
Hypothesis G : good_library L.
Hypothesis Fm : finite m = true. Hypothesis Bm : 0 <= val m <= 901 / 10000.
Hypothesis Fp : finite p = true. Hypothesis Bp : 999 / 10000 <= val p <= 9001 / 10000.
Hypothesis Ft : finite t = true. Hypothesis Bt : 0 <= val t <= 1.

Lemma ratio_small : forall q, finite q = true -> 998 / 10000 <= val q <= 9011 / 10000 -> small (91 / 10) (fdiv64 m (pow64 L q 2)).
Proof.
  intros q Fq Bq. pose proof (pow_near L q 2 (proj1 G) Fq ltac:(lra) ltac:(lia)) as N. change (Z.of_nat 2) with 2%Z in N. destruct N as (F & E).
  set (w := pow64 L q 2) in *. assert (Q : 995 / 100000 <= val q ^ 2 <= 1) by (split; nra). apply Rabs_le_inv in E. rewrite eps_val in E.
  assert (W : 994 / 100000 <= val w <= 2) by lra. assert (I : 0 < / val w <= 100000 / 994). { split; [apply Rinv_0_lt_compat; lra|]. replace (100000 / 994) with (/ (994 / 100000)) by (field). apply Rinv_le_contravar; lra. }
  assert (B : 0 <= val m / val w <= 907 / 100). { unfold Rdiv. split; [apply Rmult_le_pos; lra|]. apply Rle_trans with (901 / 10000 * (100000 / 994)); [apply Rmult_le_compat; lra|]. lra. }
  pose proof huge_big. destruct (fdiv_fine m w Fm) as (V & FV); [lra|rewrite Rabs_pos_eq; lra|]. split; auto. rewrite V. pose proof (rnd_size (val m / val w) (907 / 100) ltac:(rewrite Rabs_pos_eq; lra) ltac:(lra)). lra.
Qed.
Lemma one_minus_p : finite (fsub one64 p) = true /\ 998 / 10000 <= val (fsub one64 p) <= 9011 / 10000.
Proof.
  destruct one_val as (V1 & F1). pose proof huge_big. destruct (fsub_ok one64 p F1 Fp) as (V & F). rewrite V1. apply Rabs_le; lra. split; auto. rewrite V, V1.
  pose proof (rnd_error_any (1 - val p)) as E.  pose proof eta_tiny as T. assert (A : Rabs (1 - val p) <= 1) by (apply Rabs_le; lra). pose proof eps_bounds as (e0 & _).
  assert (A2 : eps * Rabs (1 - val p) <= eps * 1) by (apply Rmult_le_compat_l; lra).
  assert (Q : Rabs (rnd (1 - val p) - (1 - val p)) <= 2 * eps) by lra. apply Rabs_le_inv in Q. rewrite eps_val in Q. lra.
Qed.

Section At.
Variable x : b64.
Hypothesis Fx : finite x = true. Hypothesis Bx : 0 <= val x <= 1.
Lemma sx : small 1 x. Proof. split; auto. apply Rabs_le; lra. Qed.
Lemma s1 : small 1 one64. Proof. destruct one_val as (V & F). split; auto. rewrite V. apply Rabs_le; lra. Qed.
Lemma two_p : small (181 / 100) (fmul two64 p) /\ small (82 / 100) (fsub one64 (fmul two64 p)) /\ 199 / 1000 <= val (fmul two64 p) <= 1802 / 1000.
Proof.
  destruct two64_val as (V2 & F2). destruct one_val as (V1 & F1). pose proof huge_big.
  assert (N : near (2 * val p) 2 (fmul two64 p)). { rewrite <- V2. apply near_mul with (k1 := 0) (k2 := 0) (U := 2) (V := 902 / 1000); auto using near_exact; try lra; rewrite ?V2; apply Rabs_le; lra. }
  assert (N1 : near (1 - 2 * val p) 3 (fsub one64 (fmul two64 p))). { rewrite <- V1. apply near_sub with (k1 := 0) (k2 := 2) (W := 802 / 1000); auto using near_exact; try lra; rewrite ?V1; apply Rabs_le; lra. }
  split; [|split].
  - apply small_weaken with (1803 / 1000 + / 1000); [|lra]. apply near_size with (1 := N); try lra. apply Rabs_le; lra.
  - apply small_weaken with (802 / 1000 + / 1000); [|lra]. apply near_size with (1 := N1); try lra. apply Rabs_le; lra.
  - destruct N as (_ & E). apply Rabs_le_inv in E. rewrite eps_val in E. lra.
Qed.
Lemma two_p_minus : small (182 / 100) (fsub (fmul two64 p) x) /\ small (202 / 100) (fsub (fmul two64 p) (fmul two64 x)).
Proof.
  destruct two64_val as (V2 & F2). destruct two_p as ((F & B) & _ & R).
  assert (N : near (2 * val x) 3 (fmul two64 x)). { rewrite <- V2. apply near_mul with (k1 := 0) (k2 := 0) (U := 2) (V := 1); auto using near_exact; try lra; rewrite ?V2; apply Rabs_le; lra. }
  split.
  - apply small_weaken with (1802 / 1000 + / 1000); [|lra]. apply near_size with (v := val (fmul two64 p) - val x) (k := 3); try lra; [|apply Rabs_le; lra].
    apply near_sub with (k1 := 0) (k2 := 0) (W := 1802 / 1000); auto using near_exact; try lra; apply Rabs_le; lra.
  - apply small_weaken with (1802 / 1000 + / 1000); [|lra]. apply near_size with (v := val (fmul two64 p) - 2 * val x) (k := 6); try lra; [|apply Rabs_le; lra].
    apply near_sub with (k1 := 0) (k2 := 3) (W := 1802 / 1000); auto using near_exact; try lra; apply Rabs_le; lra.
Qed.
Lemma one_minus_x : small (1001 / 1000) (fsub one64 x).
Proof.
  destruct one_val as (V1 & F1). apply small_weaken with (1 + / 1000); [|lra]. apply near_size with (v := 1 - val x) (k := 2); try lra; [|apply Rabs_le; lra].
  rewrite <- V1. apply near_sub with (k1 := 0) (k2 := 0) (W := 1); auto using near_exact; try lra; rewrite ?V1; apply Rabs_le; lra.
Qed.
Lemma p_ratio : small (91 / 10) (fdiv64 m (pow64 L p 2)). Proof. apply ratio_small; auto; lra. Qed.
Lemma q_ratio : small (91 / 10) (fdiv64 m (pow64 L (fsub one64 p) 2)). Proof. apply ratio_small; apply one_minus_p. Qed.
Lemma front_small : small 20 (camber_front64 L m p x).
Proof.
  unfold camber_front64. apply small_mul with (9102 / 1000) (182 / 100); try lra; [|apply two_p_minus]. apply small_mul with (91 / 10) 1; try lra; [apply p_ratio|apply sx].
Qed.
Lemma rear_small : small 20 (camber_rear64 L m p x).
Proof.
  unfold camber_rear64. apply small_mul with (1660 / 100) (1001 / 1000); try lra; [|apply one_minus_x]. apply small_mul with (91 / 10) (1822 / 1000); try lra; [apply q_ratio|].
  apply small_add with (82 / 100) 1; try lra; [apply two_p|apply sx].
Qed.
Lemma slopes_small : small 20 (slope_front64 L m p x) /\ small 20 (slope_rear64 L m p x).
Proof. split; unfold slope_front64, slope_rear64; (apply small_mul with (91 / 10) (202 / 100); try lra; [apply p_ratio || apply q_ratio|apply two_p_minus]). Qed.
Lemma half_small : small 1 (half_thickness64 L t x).
Proof.
  pose proof (half_near L t x (proj1 G) Ft Bt Fx Bx) as N. apply small_weaken with (51 / 100 + / 1000); [|lra]. apply near_size with (1 := N); try lra.
  pose proof (half_bounds (val t) (val x) ltac:(lra) Bx) as H. apply Rabs_le. lra.
Qed.
Lemma half_large : / 200 <= val t -> / 2 ^ 31 <= val x <= 1 - / 2 ^ 31 -> / 2 ^ 40 <= val (half_thickness64 L t x) <= 1.
Proof.
  intros T I. pose proof half_small as (_ & S). apply Rabs_le_inv in S. split; [|lra]. pose proof (half_near L t x (proj1 G) Ft Bt Fx Bx) as (_ & E). apply Rabs_le_inv in E.
  pose proof (half_low (val t) (val x) ltac:(lra) Bx) as H.
  assert (Q : / 2 ^ 32 <= val x * (1 - val x)). { assert (0 <= (val x - / 2 ^ 31) * (1 - / 2 ^ 31 - val x)) by (apply Rmult_le_pos; lra). lra. }
  assert (/ 200 * / 2 ^ 32 <= val t * (val x * (1 - val x))) by (apply Rmult_le_compat; lra). rewrite eps_val in E. lra.
Qed.
End At.

Definition cam (x : b64) : b64 := if Bleb x p then camber_front64 L m p x else camber_rear64 L m p x.
Definition slope (x : b64) : b64 := if Bleb x p then slope_front64 L m p x else slope_rear64 L m p x.
Definition sine (x : b64) : b64 := sin64 L (atan64 L (slope x)).
Definition cosi (x : b64) : b64 := cos64 L (atan64 L (slope x)).
Lemma cam_small : forall x, finite x = true -> 0 <= val x <= 1 -> small 20 (cam x).
Proof. intros x F B. unfold cam. destruct (Bleb x p). apply front_small; auto. apply rear_small; auto. Qed.
Lemma angles : forall x, finite x = true -> 0 <= val x <= 1 -> small 1 (sine x) /\ small 1 (cosi x) /\ 1 / 32 <= val (cosi x) <= 1.
Proof.
  intros x F B. assert (S : small 20 (slope x)). { unfold slope. pose proof (slopes_small x F B). destruct (Bleb x p); tauto. }
  destruct S as (FS & BS). destruct G as (_ & _ & A). destruct (A (slope x) FS BS) as (A1 & A2 & _ & A3 & A4 & _).
  assert (A5 : Rabs (real (cosi x)) <= 1) by (apply Rabs_le; unfold cosi; lra). repeat split; auto; apply A4.
Qed.
Lemma cam_zero : forall x, finite x = true -> val x = 0 -> val (cam x) = 0.
Proof.
  intros x F V. unfold cam. rewrite leb_val by auto. rewrite Rle_bool_true by lra. unfold camber_front64.
  pose proof (small_mul (91 / 10) 1 10 _ _ p_ratio (sx x F ltac:(lra)) ltac:(lra) ltac:(lra)) as (F1 & _). refine (proj2 (zero_mul (182 / 100) _ _ _ F1 _)). apply two_p_minus; auto; lra. exact (proj1 (zero_mul (91 / 10) _ _ p_ratio F V)).
Qed.
Lemma cam_one : val (cam one64) = 0.
Proof.
  destruct one_val as (V1 & F1). unfold cam. rewrite leb_val by auto. rewrite Rle_bool_false by lra. unfold camber_rear64.
  destruct (fsub_ok one64 one64 F1 F1) as (E & F). replace (val one64 - val one64) with 0 by ring. rewrite Rabs_R0. unfold huge. apply bpow_ge_0.
  refine (proj1 (zero_mul (1660 / 100) _ _ _ F _)). 2:{ rewrite E. replace (val one64 - val one64) with 0 by ring. apply rnd_0. }
  apply small_mul with (91 / 10) (1822 / 1000); try lra; [apply q_ratio|]. apply small_add with (82 / 100) 1; try lra; [apply two_p|apply s1].
Qed.

End Digits.
