(** Camber lines of five-digit NACA foils in binary64. *)
From Coq Require Import Reals ZArith List Lra Lia Bool Sorted.
From Flocq Require Import Core BinarySingleNaN.
From Verif Require Import Base PpgFloatModel PpgFloatProofs FloatModel FloatSpec FloatProofs ShapeFloatModel ShapeFloatProofs SectionFloatModel SectionFloatProofs SectionFloatProofs4 NacaModel NacaSpec NacaBounds NacaProofs NacaProofs2 NacaFloatModel NacaFloatSpec NacaFloatProofs NacaFloatProofs2 NacaFloatProofs3 NacaFloatProofs4 NacaFloatProofs5 NacaFloatProofs7 NacaFiveModel NacaFiveSpec.
Import ListNotations.
Open Scope R_scope.

Lemma near_big : forall u v k1 k2 U V m x y, near u k1 x -> near v k2 y -> Rabs u <= U -> Rabs v <= V ->
  0 <= k1 <= 100 -> 0 <= k2 <= 100 -> U <= 1000 -> V <= 1000 -> U * k2 + V * k1 + U * V + / 500 <= m -> near (u * v) m (fmul x y).
Proof.
  intros u v k1 k2 U V m x y N1 N2 BU BV K1 K2 UU VV H.
  pose proof (near_small _ _ _ _ N1 ltac:(lra) BU) as X. pose proof (near_small _ _ _ _ N2 ltac:(lra) BV) as Y.
  destruct N1 as (F1 & E1). destruct N2 as (F2 & E2). pose proof (Rabs_pos u). pose proof (Rabs_pos v). pose proof (Rabs_pos (val x)). pose proof (Rabs_pos (val y)).
  assert (P : Rabs (val x * val y) <= huge).
  { rewrite Rabs_mult. pose proof huge_big. apply Rle_trans with (1001 * 1001); [apply Rmult_le_compat; lra|]. lra. }
  destruct (fmul_fine x y F1 F2 P) as (E & F). split; auto. rewrite E.
  pose proof eps_bounds as (e0 & _). set (d1 := val x - u) in *. set (d2 := val y - v) in *.
  assert (D : Rabs (val x * val y - u * v) <= (U * k2 + V * k1 + / 1000) * eps).
  { replace (val x * val y - u * v) with (u * d2 + (v * d1 + d1 * d2)) by (unfold d1, d2; ring).
    eapply Rle_trans; [apply Rabs_triang|]. apply Rle_trans with (Rabs (u * d2) + (Rabs (v * d1) + Rabs (d1 * d2))); [apply Rplus_le_compat_l, Rabs_triang|].
    rewrite !Rabs_mult. assert (A1 : Rabs u * Rabs d2 <= U * (k2 * eps)) by (apply Rmult_le_compat; auto using Rabs_pos).
    assert (A2 : Rabs v * Rabs d1 <= V * (k1 * eps)) by (apply Rmult_le_compat; auto using Rabs_pos).
    assert (A3 : Rabs d1 * Rabs d2 <= (1000 * eps) * (1000 * eps)).
    { apply Rmult_le_compat; auto using Rabs_pos; (eapply Rle_trans; [eassumption|]); apply Rmult_le_compat_r; lra. }
    assert (A4 : (1000 * eps) * (1000 * eps) <= / 1000 * eps). { rewrite <- Rmult_assoc. apply Rmult_le_compat_r; [lra|]. rewrite eps_val. lra. }
    lra. }
  assert (B : Rabs (u * v) <= U * V) by (rewrite Rabs_mult; apply Rmult_le_compat; auto).
  assert (0 <= U * k2) by (apply Rmult_le_pos; lra). assert (0 <= V * k1) by (apply Rmult_le_pos; lra).
  assert (U * k2 <= 1000 * 100) by (apply Rmult_le_compat; lra). assert (V * k1 <= 1000 * 100) by (apply Rmult_le_compat; lra).
  apply (rnd_near _ _ _ (U * V) _ D); auto; lra.
Qed.
Lemma near_div : forall u k U m x D, near u k x -> finite D = true -> 1 / 4 <= val D -> Rabs u <= U -> U <= 1000 -> 0 <= k <= 1000 ->
  k / val D + U / val D + / 1000 <= m -> near (u / val D) m (fdiv64 x D).
Proof.
  intros u k U m x D N FD BD BU UU K H. pose proof (near_small _ _ _ _ N ltac:(lra) BU) as X. destruct N as (F & E). pose proof huge_big.
  assert (I : 0 < / val D <= 4). { split; [apply Rinv_0_lt_compat; lra|]. replace 4 with (/ (1 / 4)) by lra. apply Rinv_le_contravar; lra. }
  assert (Q : Rabs (val x / val D) <= 1001 * 4). { unfold Rdiv. rewrite Rabs_mult, (Rabs_pos_eq (/ val D)) by lra. apply Rmult_le_compat; try lra. apply Rabs_pos. }
  destruct (fdiv_fine x D F) as (E' & F'); [lra|lra|]. split; auto. rewrite E'. apply rnd_near with (k := k / val D) (W := U / val D); auto.
  - replace (val x / val D - u / val D) with ((val x - u) * / val D) by (field; lra). rewrite Rabs_mult, (Rabs_pos_eq (/ val D)) by lra. unfold Rdiv. replace (k * / val D * eps) with (k * eps * / val D) by ring. apply Rmult_le_compat_r; lra.
  - unfold Rdiv. split; [apply Rmult_le_pos; lra|]. apply Rle_trans with (1000 * 4); [apply Rmult_le_compat; lra|lra].
  - unfold Rdiv. rewrite Rabs_mult, (Rabs_pos_eq (/ val D)) by lra. apply Rmult_le_compat_r; lra.
Qed.
Lemma pow_fine : forall L x k B, good_powers L -> finite x = true -> 0 <= val x <= 1 -> (2 <= k <= 4)%nat -> val x ^ k <= B -> near (val x ^ k) (8 * B + / 1000) (pow64 L x (Z.of_nat k)).
Proof.
  intros L x k B G F R K HB. destruct (G x (Z.of_nat k) F R ltac:(lia)) as (N & _ & E). split; auto. unfold real in E. rewrite <- pow_powerRZ in E.
  assert (T : bpow radix2 (-1071) <= / 1000 * eps). { pose proof eta_tiny as Q. unfold eta in Q. change (-1071)%Z with (-1075 + 4)%Z. rewrite bpow_plus. change (bpow radix2 4) with 16. pose proof eps_bounds. lra. }
  pose proof eps_bounds as (e0 & _). eapply Rle_trans; [exact E|]. fold (val x). assert (eps * val x ^ k <= eps * B) by (apply Rmult_le_compat_l; lra). lra.
Qed.

Ltac cval := split; [|reflexivity]; unfold val, c15_64, c30_64, six64, three64; cbn; unfold F2R; cbn; lra.
Lemma six_val : val six64 = 6 /\ finite six64 = true. Proof. cval. Qed.
Lemma three_val : val three64 = 3 /\ finite three64 = true. Proof. cval. Qed.
Lemma c15_val : val c15_64 = 5404319552844595 / 36028797018963968 /\ finite c15_64 = true. Proof. cval. Qed.
Lemma c30_val : val c30_64 = 5404319552844595 / 18014398509481984 /\ finite c30_64 = true. Proof. cval. Qed.

Section Camber.
Variables (L : mathlib) (k m : b64).
Hypothesis G : good_library L.
Hypothesis Fk : finite k = true. Hypothesis Fm : finite m = true.
Hypothesis Bk : 0 <= val k <= 400. Hypothesis Bm : 1 / 100 <= val m <= 1 / 2. Hypothesis Bkm : val k * val m ^ 2 <= 5 / 4.
Lemma mbounds : 0 <= val m ^ 2 <= val m / 2 /\ 0 <= val m ^ 3 <= val m ^ 2 / 2 /\ 0 <= val k * val m ^ 2 /\ 0 <= val k * val m ^ 3 <= val k * val m ^ 2 / 2 /\ 0 <= val m ^ 4 <= val m ^ 3 / 2 /\ 0 <= val k * val m <= 200.
Proof.
  assert (A : 0 <= val m ^ 2 <= val m / 2) by nra. assert (B : 0 <= val m ^ 3 <= val m ^ 2 / 2) by (replace (val m ^ 3) with (val m ^ 2 * val m) by ring; nra).
  assert (C : 0 <= val k * val m ^ 2) by (apply Rmult_le_pos; lra). assert (D : 0 <= val k * val m ^ 3 <= val k * (val m ^ 2 / 2)) by (split; [apply Rmult_le_pos; lra|apply Rmult_le_compat_l; lra]).
  assert (E : 0 <= val m ^ 4 <= val m ^ 3 / 2) by (replace (val m ^ 4) with (val m ^ 3 * val m) by ring; nra). assert (F : 0 <= val k * val m <= 400 * (1 / 2)) by (split; [apply Rmult_le_pos|apply Rmult_le_compat]; lra). repeat split; lra.
Qed.
Lemma k6_near : near (val k / 6) (val k / 6 + / 1000) (fdiv64 k six64).
Proof. destruct six_val as (V & F). rewrite <- V. apply near_div with (k := 0) (U := val k); auto using near_exact; try lra. apply Rabs_le; lra. Qed.
Lemma arm_near : near (val m ^ 2 * (3 - val m)) (31 * val m ^ 2 + / 100) (fmul (pow64 L m 2) (fsub three64 m)).
Proof.
  destruct mbounds as (Q & C & _). destruct three_val as (V & F). apply near_mul with (k1 := 8 * val m ^ 2 + / 1000) (k2 := 3 + / 1000) (U := val m ^ 2) (V := 3); try lra.
  - apply (pow_fine L m 2); try lia; try lra; auto. apply G.
  - rewrite <- V. apply near_sub with (k1 := 0) (k2 := 0) (W := 3); auto using near_exact; try lra; apply Rabs_le; lra.
  - apply Rabs_le; lra.
  - apply Rabs_le; lra.
Qed.

Section Front.
Variable x : b64.
Hypothesis Fx : finite x = true. Hypothesis Bx : 0 <= val x <= val m.
Lemma xbounds : 0 <= val x ^ 2 <= val m ^ 2 /\ 0 <= val x ^ 3 <= val m ^ 3 /\ 0 <= val m * val x ^ 2 <= val m ^ 3 /\ 0 <= val m ^ 2 * val x <= val m ^ 3 /\ 0 <= val m * val x <= val m ^ 2 /\ 0 <= val m ^ 3 * val x <= val m ^ 4.
Proof.
  destruct mbounds as (Q & C & _). assert (A : 0 <= val x ^ 2 <= val m ^ 2) by (split; [apply pow_le; lra|apply pow_incr; lra]). assert (B : 0 <= val x ^ 3 <= val m ^ 3) by (split; [apply pow_le; lra|apply pow_incr; lra]).
  split; auto. split; auto. split; [|split; [|split]].
  - split; [apply Rmult_le_pos; lra|]. replace (val m ^ 3) with (val m * val m ^ 2) by ring. apply Rmult_le_compat_l; lra.
  - split; [apply Rmult_le_pos; lra|]. replace (val m ^ 3) with (val m ^ 2 * val m) by ring. apply Rmult_le_compat_l; lra.
  - split; [apply Rmult_le_pos; lra|]. replace (val m ^ 2) with (val m * val m) by ring. apply Rmult_le_compat_l; lra.
  - split; [apply Rmult_le_pos; lra|]. replace (val m ^ 4) with (val m ^ 3 * val m) by ring. apply Rmult_le_compat_l; lra.
Qed.
Lemma front5_near : near (val k / 6 * (val x ^ 3 - 3 * val m * val x ^ 2 + val m ^ 2 * (3 - val m) * val x)) 12 (camber5_front64 L k m x) /\
  Rabs (val k / 6 * (val x ^ 3 - 3 * val m * val x ^ 2 + val m ^ 2 * (3 - val m) * val x)) <= 1 / 2.
Proof.
  destruct mbounds as (Q & C & KQ & KC & M4 & KM). destruct xbounds as (X2 & X3 & MX2 & M2X & MX & M3X). destruct three_val as (V & F).
  assert (N2 : near (3 * val m) (3 * val m + / 500) (fmul three64 m)). { rewrite <- V at 1. apply near_mul with (k1 := 0) (k2 := 0) (U := 3) (V := val m); auto using near_exact; try lra; rewrite ?V; apply Rabs_le; lra. }
  assert (N4 : near (3 * val m * val x ^ 2) (30 * val m ^ 3 + / 100) (fmul (fmul three64 m) (pow64 L x 2))).
  { apply near_mul with (k1 := 3 * val m + / 500) (k2 := 8 * val m ^ 2 + / 1000) (U := 3 * val m) (V := val m ^ 2); auto; try lra; try (apply Rabs_le; lra). apply (pow_fine L x 2); try lia; try lra; auto. apply G. }
  assert (N5 : near (val x ^ 3 - 3 * val m * val x ^ 2) (41 * val m ^ 3 + / 50) (fsub (pow64 L x 3) (fmul (fmul three64 m) (pow64 L x 2)))).
  { apply near_sub with (k1 := 8 * val m ^ 3 + / 1000) (k2 := 30 * val m ^ 3 + / 100) (W := 3 * val m ^ 3); auto; try lra; try (apply Rabs_le; lra). apply (pow_fine L x 3); try lia; try lra; auto. apply G. }
  assert (N9 : near (val m ^ 2 * (3 - val m) * val x) (34 * val m ^ 3 + / 100) (fmul (fmul (pow64 L m 2) (fsub three64 m)) x)).
  { apply near_mul with (k1 := 31 * val m ^ 2 + / 100) (k2 := 0) (U := 3 * val m ^ 2) (V := val m); auto using near_exact, arm_near; try lra; apply Rabs_le; lra. }
  assert (N10 : near (val x ^ 3 - 3 * val m * val x ^ 2 + val m ^ 2 * (3 - val m) * val x) (79 * val m ^ 3 + / 25) (fadd (fsub (pow64 L x 3) (fmul (fmul three64 m) (pow64 L x 2))) (fmul (fmul (pow64 L m 2) (fsub three64 m)) x))).
  { apply near_add with (k1 := 41 * val m ^ 3 + / 50) (k2 := 34 * val m ^ 3 + / 100) (W := 4 * val m ^ 3); auto; try lra; apply Rabs_le; lra. }
  assert (Z : Rabs (val x ^ 3 - 3 * val m * val x ^ 2 + val m ^ 2 * (3 - val m) * val x) <= 4 * val m ^ 3) by (apply Rabs_le; lra). split.
  - apply near_mul with (k1 := val k / 6 + / 1000) (k2 := 79 * val m ^ 3 + / 25) (U := val k / 6) (V := 4 * val m ^ 3); auto using k6_near; try lra. apply Rabs_le; lra.
  - rewrite Rabs_mult. apply Rle_trans with (val k / 6 * (4 * val m ^ 3)); [|lra]. apply Rmult_le_compat; auto using Rabs_pos. rewrite Rabs_pos_eq; lra.
Qed.
Lemma front5_slope : near (val k / 6 * (3 * val x ^ 2 - 6 * val m * val x + val m ^ 2 * (3 - val m))) 26 (slope5_front64 L k m x) /\
  Rabs (val k / 6 * (3 * val x ^ 2 - 6 * val m * val x + val m ^ 2 * (3 - val m))) <= 5 / 4.
Proof.
  destruct mbounds as (Q & C & KQ & KC & M4 & KM). destruct xbounds as (X2 & X3 & MX2 & M2X & MX & M3X). destruct three_val as (V & F). destruct six_val as (V6 & F6). destruct one_val as (V1 & F1).
  assert (N1 : near (3 * val x ^ 2) (27 * val m ^ 2 + / 100) (fmul three64 (pow64 L x 2))).
  { rewrite <- V at 1. apply near_mul with (k1 := 0) (k2 := 8 * val m ^ 2 + / 1000) (U := 3) (V := val m ^ 2); auto using near_exact; try lra; rewrite ?V; try (apply Rabs_le; lra). apply (pow_fine L x 2); try lia; try lra; auto. apply G. }
  assert (N2 : near (6 * val m) (6 * val m + / 500) (fmul six64 m)). { rewrite <- V6 at 1. apply near_mul with (k1 := 0) (k2 := 0) (U := 6) (V := val m); auto using near_exact; try lra; rewrite ?V6; apply Rabs_le; lra. }
  assert (N3 : near (6 * val m * val x) (12 * val m ^ 2 + / 100) (fmul (fmul six64 m) x)) by (apply near_mul with (k1 := 6 * val m + / 500) (k2 := 0) (U := 6 * val m) (V := val m); auto using near_exact; try lra; apply Rabs_le; lra).
  assert (N4 : near (3 * val x ^ 2 - 6 * val m * val x) (45 * val m ^ 2 + / 25) (fsub (fmul three64 (pow64 L x 2)) (fmul (fmul six64 m) x))) by (apply near_sub with (k1 := 27 * val m ^ 2 + / 100) (k2 := 12 * val m ^ 2 + / 100) (W := 6 * val m ^ 2); auto; try lra; apply Rabs_le; lra).
  assert (Z : Rabs (3 * val x ^ 2 - 6 * val m * val x + val m ^ 2 * (3 - val m)) <= 6 * val m ^ 2) by (apply Rabs_le; lra).
  assert (N5 : near (3 * val x ^ 2 - 6 * val m * val x + val m ^ 2 * (3 - val m)) (82 * val m ^ 2 + / 16) (fadd (fsub (fmul three64 (pow64 L x 2)) (fmul (fmul six64 m) x)) (fmul (pow64 L m 2) (fsub three64 m)))) by (apply near_add with (k1 := 45 * val m ^ 2 + / 25) (k2 := 31 * val m ^ 2 + / 100) (W := 6 * val m ^ 2); auto using arm_near; try lra; apply Rabs_le; lra).
  assert (N6 : near (1 / 6) (17 / 100) (fdiv64 one64 six64)) by (rewrite <- V6, <- V1; apply near_div with (k := 0) (U := 1); auto using near_exact; rewrite ?V6, ?V1; try lra; apply Rabs_le; lra).
  assert (N7 : near (val k / 6) (337 / 1000 * val k + / 500) (fmul (fdiv64 one64 six64) k)). { replace (val k / 6) with (1 / 6 * val k) by field. apply near_big with (k1 := 17 / 100) (k2 := 0) (U := 1 / 6) (V := val k); auto using near_exact; try lra; apply Rabs_le; lra. }
  split.
  - apply near_mul with (k1 := 337 / 1000 * val k + / 500) (k2 := 82 * val m ^ 2 + / 16) (U := val k / 6) (V := 6 * val m ^ 2); auto; try lra. apply Rabs_le; lra.
  - rewrite Rabs_mult. apply Rle_trans with (val k / 6 * (6 * val m ^ 2)); [|lra]. apply Rmult_le_compat; auto using Rabs_pos. rewrite Rabs_pos_eq; lra.
Qed.
End Front.
Section Rear.
Variable x : b64.
Hypothesis Fx : finite x = true. Hypothesis Bx : 0 <= val x <= 1.
Lemma tip_near : near (val k / 6 * val m ^ 3) 2 (fmul (fdiv64 k six64) (pow64 L m 3)) /\ 0 <= val k / 6 * val m ^ 3 <= 11 / 100.
Proof.
  destruct mbounds as (Q & C & KQ & KC & M4 & KM). split; [|lra]. apply near_mul with (k1 := val k / 6 + / 1000) (k2 := 8 * val m ^ 3 + / 1000) (U := val k / 6) (V := val m ^ 3); auto using k6_near; try lra; try (apply Rabs_le; lra). apply (pow_fine L m 3); try lia; try lra; auto. apply G.
Qed.
Lemma rear5_near : near (val k / 6 * val m ^ 3 * (1 - val x)) 3 (camber5_rear64 L k m x) /\ Rabs (val k / 6 * val m ^ 3 * (1 - val x)) <= 1 / 2.
Proof.
  destruct tip_near as (N & B). destruct one_val as (V1 & F1). assert (N1 : near (1 - val x) (1 + / 1000) (fsub one64 x)) by (rewrite <- V1 at 1; apply near_sub with (k1 := 0) (k2 := 0) (W := 1); auto using near_exact; try lra; rewrite ?V1; apply Rabs_le; lra). split.
  - apply near_mul with (k1 := 2) (k2 := 1 + / 1000) (U := 11 / 100) (V := 1); auto; try lra; apply Rabs_le; lra.
  - rewrite Rabs_mult. apply Rle_trans with (11 / 100 * 1); [|lra]. apply Rmult_le_compat; auto using Rabs_pos; apply Rabs_le; lra.
Qed.
Lemma rear5_slope : near (- (val k / 6 * val m ^ 3)) 26 (slope5_rear64 L k m x) /\ Rabs (- (val k / 6 * val m ^ 3)) <= 5 / 4.
Proof.
  destruct mbounds as (Q & C & KQ & KC & M4 & KM). destruct tip_near as (_ & B). destruct six_val as (V6 & F6). destruct one_val as (V1 & F1).
  assert (N6 : near (-1 / 6) (17 / 100) (fdiv64 (fneg one64) six64)). { assert (VN : val (fneg one64) = -1) by (rewrite fneg_val, V1; ring). rewrite <- V6, <- VN. apply near_div with (k := 0) (U := 1); auto; rewrite ?V6; try lra. apply near_exact. rewrite fneg_finite. auto. rewrite VN. apply Rabs_le; lra. }
  assert (N7 : near (-1 / 6 * val k) (337 / 1000 * val k + / 500) (fmul (fdiv64 (fneg one64) six64) k)) by (apply near_big with (k1 := 17 / 100) (k2 := 0) (U := 1 / 6) (V := val k); auto using near_exact; try lra; apply Rabs_le; lra).
  split; [|apply Rabs_le; lra]. replace (- (val k / 6 * val m ^ 3)) with (-1 / 6 * val k * val m ^ 3) by field.
  apply near_mul with (k1 := 337 / 1000 * val k + / 500) (k2 := 8 * val m ^ 3 + / 1000) (U := val k / 6) (V := val m ^ 3); auto; try lra; try (apply Rabs_le; lra). apply (pow_fine L m 3); try lia; try lra; auto. apply G.
Qed.
End Rear.

Definition cam5 (x : b64) : b64 := if Bleb x m then camber5_front64 L k m x else camber5_rear64 L k m x.
Definition slo5 (x : b64) : b64 := if Bleb x m then slope5_front64 L k m x else slope5_rear64 L k m x.
Definition sin5 (x : b64) : b64 := sin64 L (atan64 L (slo5 x)).
Definition cos5 (x : b64) : b64 := cos64 L (atan64 L (slo5 x)).
Lemma cam5_near : forall x, finite x = true -> 0 <= val x <= 1 -> near (camber_line5 (val k) (val m) (val x)) 12 (cam5 x) /\ Rabs (camber_line5 (val k) (val m) (val x)) <= 1 / 2.
Proof.
  intros x F B. unfold cam5, camber_line5. rewrite leb_val by auto. destruct (Rle_dec (val x) (val m)) as [I|I].
  - rewrite Rle_bool_true by auto. apply front5_near; auto; lra.
  - rewrite Rle_bool_false by lra. replace (val k / 6 * (val m ^ 3 * (1 - val x))) with (val k / 6 * val m ^ 3 * (1 - val x)) by ring. destruct (rear5_near x F B) as (N & R). split; auto. apply near_weaken with 3; [exact N|lra].
Qed.
Lemma slo5_near : forall x, finite x = true -> 0 <= val x <= 1 -> near (slope_line5 (val k) (val m) (val x)) 26 (slo5 x) /\ Rabs (slope_line5 (val k) (val m) (val x)) <= 5 / 4.
Proof.
  intros x F B. unfold slo5, slope_line5. rewrite leb_val by auto. destruct (Rle_dec (val x) (val m)) as [I|I].
  - rewrite Rle_bool_true by auto. apply front5_slope; auto; lra.
  - rewrite Rle_bool_false by lra. apply rear5_slope.
Qed.
Lemma angles5 : forall x, finite x = true -> 0 <= val x <= 1 ->
  near (sin (atan (slope_line5 (val k) (val m) (val x)))) 34 (sin5 x) /\ near (cos (atan (slope_line5 (val k) (val m) (val x)))) 34 (cos5 x) /\ small 1 (sin5 x) /\ small 1 (cos5 x) /\ 1 / 32 <= val (cos5 x) <= 1.
Proof.
  intros x F B. destruct (slo5_near x F B) as (N & S). pose proof (near_small _ _ _ _ N ltac:(lra) S) as BS. destruct N as (FN & N).
  destruct G as (_ & _ & Q). destruct (Q (slo5 x) FN) as (S1 & S2 & S3 & C1 & C2 & C3). { unfold real. fold (val (slo5 x)). lra. } unfold real in *. fold (val (slo5 x)) in *.
  set (y := slope_line5 (val k) (val m) (val x)) in *. pose proof (atan_lip (val (slo5 x)) y) as T. destruct (sin_lip (atan (val (slo5 x))) (atan y)) as (T1 & T2).
  assert (P1 : Rabs (val (sin5 x) - sin (atan y)) <= 34 * eps). { unfold sin5. replace (val (sin64 L (atan64 L (slo5 x))) - sin (atan y)) with ((val (sin64 L (atan64 L (slo5 x))) - sin (atan (val (slo5 x)))) + (sin (atan (val (slo5 x))) - sin (atan y))) by ring. eapply Rle_trans; [apply Rabs_triang|]. unfold val in *. lra. }
  assert (P2 : Rabs (val (cos5 x) - cos (atan y)) <= 34 * eps). { unfold cos5. replace (val (cos64 L (atan64 L (slo5 x))) - cos (atan y)) with ((val (cos64 L (atan64 L (slo5 x))) - cos (atan (val (slo5 x)))) + (cos (atan (val (slo5 x))) - cos (atan y))) by ring. eapply Rle_trans; [apply Rabs_triang|]. unfold val in *. lra. }
  split; [split; auto|]. split; [split; auto|]. split; [split; auto|]. split; [split; auto|exact C2]. apply Rabs_le. assert (1 / 32 <= val (cos5 x) <= 1) by exact C2. lra.
Qed.
Lemma cam5_zero : forall x, finite x = true -> val x = 0 -> val (cam5 x) = 0.
Proof.
  intros x F V. unfold cam5. rewrite leb_val by auto. rewrite Rle_bool_true by lra. unfold camber5_front64. destruct three_val as (V3 & F3). destruct mbounds as (Q & C & _).
  destruct G as (_ & EP & _). destruct (EP x 3%Z ltac:(lia) F) as (E3 & _). destruct (EP x 2%Z ltac:(lia) F) as (E2 & _). specialize (E3 V). specialize (E2 V). unfold real in E3, E2. fold (val (pow64 L x 3)) in E3. fold (val (pow64 L x 2)) in E2.
  assert (P3 : finite (pow64 L x 3) = true) by apply (pow_fine L x 3 1 (proj1 G) F ltac:(lra) ltac:(lia) ltac:(rewrite V; lra)). assert (P2 : finite (pow64 L x 2) = true) by apply (pow_fine L x 2 1 (proj1 G) F ltac:(lra) ltac:(lia) ltac:(rewrite V; lra)).
  assert (SM : small 2 (fmul three64 m)) by (apply small_mul with 3 (1 / 2); try lra; split; auto; rewrite ?V3; apply Rabs_le; lra).
  pose proof (proj1 (zero_mul 2 _ _ SM P2 E2)) as Z1. assert (F1 : small 1 (fmul (fmul three64 m) (pow64 L x 2))). { split; [|rewrite Z1, Rabs_R0; lra]. apply (small_mul 2 (1 / 10) 1); try lra; auto. split; auto. rewrite E2, Rabs_R0. lra. }
  destruct (from_zero _ _ 1 P3 E3 F1 ltac:(lra)) as (_ & Z2). rewrite Z1 in Z2.
  pose proof (near_size _ _ _ (3 * (1 / 4)) arm_near ltac:(lra)) as SA. assert (SA' : small 1 (fmul (pow64 L m 2) (fsub three64 m))). { apply small_weaken with (3 * (1 / 4) + / 1000); [|lra]. apply SA. rewrite Rabs_mult. apply Rle_trans with (1 / 4 * 3); [|lra]. apply Rmult_le_compat; auto using Rabs_pos; apply Rabs_le; lra. }
  pose proof (proj1 (zero_mul 1 _ _ SA' F V)) as Z3. assert (F3' : small 1 (fmul (fmul (pow64 L m 2) (fsub three64 m)) x)). { split; [|rewrite Z3, Rabs_R0; lra]. apply (small_mul 1 (1 / 10) 1); try lra; auto. split; auto. rewrite V, Rabs_R0. lra. }
  assert (F2' : small 2 (fsub (pow64 L x 3) (fmul (fmul three64 m) (pow64 L x 2)))). { apply small_sub with (1 / 10) 1; auto; try lra. split; auto. rewrite E3, Rabs_R0. lra. }
  destruct (from_zero _ _ 1 (proj1 F2') ltac:(lra) F3' ltac:(lra)) as (Z4 & _). rewrite Z3 in Z4. 
  assert (F4 : small 4 (fadd (fsub (pow64 L x 3) (fmul (fmul three64 m) (pow64 L x 2))) (fmul (fmul (pow64 L m 2) (fsub three64 m)) x))) by (apply small_add with 2 1; auto; lra).
  assert (SK : small 100 (fdiv64 k six64)). { apply small_weaken with (67 + / 1000); [|lra]. apply (near_size _ _ _ _ k6_near); [lra|]. apply Rabs_le; lra. }
  exact (proj1 (zero_mul 100 _ _ SK (proj1 F4) Z4)).
Qed.
Lemma cam5_one : val (cam5 one64) = 0.
Proof.
  destruct one_val as (V1 & F1). unfold cam5. rewrite leb_val by auto. rewrite Rle_bool_false by lra. unfold camber5_rear64.
  destruct (fsub_ok one64 one64 F1 F1) as (E & F). replace (val one64 - val one64) with 0 by ring. rewrite Rabs_R0. unfold huge. apply bpow_ge_0.
  destruct tip_near as (N & B). refine (proj1 (zero_mul _ _ _ (near_size _ _ _ (11 / 100) N ltac:(lra) _) F _)). apply Rabs_le; lra. rewrite E. replace (val one64 - val one64) with 0 by ring. apply rnd_0.
Qed.
End Camber.
