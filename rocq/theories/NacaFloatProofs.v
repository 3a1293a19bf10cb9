(** Half thickness of NACA foils in binary64. *)
From Coq Require Import Reals ZArith List Lra Lia Bool.
From Flocq Require Import Core BinarySingleNaN.
From Verif Require Import Base PpgFloatModel PpgFloatProofs FloatModel FloatSpec FloatProofs ShapeFloatModel ShapeFloatProofs SectionFloatModel SectionFloatProofs SectionFloatProofs4 NacaModel NacaBounds NacaProofs NacaFloatModel NacaFloatSpec.
Import ListNotations.
Open Scope R_scope.

(** A finite number within [k] half units of [v]. *)
Definition near (v k : R) (x : b64) : Prop := finite x = true /\ Rabs (val x - v) <= k * eps.

Lemma near_exact : forall x, finite x = true -> near (val x) 0 x.
Proof. intros x F. split; auto. replace (val x - val x) with 0 by ring. rewrite Rabs_R0. lra. Qed.
Lemma near_weaken : forall v k k' x, near v k x -> k <= k' -> near v k' x.
Proof. intros v k k' x (F & E) H. split; auto. pose proof eps_bounds. nra. Qed.
Lemma rnd_near : forall v u k W m, Rabs (u - v) <= k * eps -> 0 <= k <= 10 ^ 6 -> Rabs v <= W -> k + W + / 1000 <= m -> Rabs (rnd u - v) <= m * eps.
Proof.
  intros v u k W m E K B H. pose proof (rnd_error_any u). pose proof eta_tiny. pose proof eps_bounds as (e0 & _).
  assert (V : Rabs u <= W + k * eps). { replace u with ((u - v) + v) by ring. eapply Rle_trans; [apply Rabs_triang|]. lra. }
  replace (rnd u - v) with ((rnd u - u) + (u - v)) by ring. eapply Rle_trans; [apply Rabs_triang|].
  assert (S : eps * Rabs u <= eps * (W + k * eps)) by (apply Rmult_le_compat_l; lra).
  assert (k * eps <= / 2000). { rewrite eps_val. lra. }
  assert (eps * (k * eps) <= eps * / 2000) by (apply Rmult_le_compat_l; lra).
  assert ((k + W + / 1000) * eps <= m * eps) by (apply Rmult_le_compat_r; lra). lra.
Qed.
Lemma near_small : forall v k x W, near v k x -> 0 <= k <= 10 ^ 6 -> Rabs v <= W -> Rabs (val x) <= W + / 1000.
Proof.
  intros v k x W (F & E) K B. assert (k * eps <= / 1000) by (rewrite eps_val; lra). replace (val x) with ((val x - v) + v) by ring.
  eapply Rle_trans; [apply Rabs_triang|]. lra.
Qed.
Lemma near_mul : forall u v k1 k2 U V m x y, near u k1 x -> near v k2 y -> Rabs u <= U -> Rabs v <= V ->
  0 <= k1 <= 1000 -> 0 <= k2 <= 1000 -> U <= 100 -> V <= 100 -> U * k2 + V * k1 + U * V + / 500 <= m -> near (u * v) m (fmul x y).
Proof.
  intros u v k1 k2 U V m x y N1 N2 BU BV K1 K2 UU VV H.
  pose proof (near_small _ _ _ _ N1 ltac:(lra) BU) as X. pose proof (near_small _ _ _ _ N2 ltac:(lra) BV) as Y.
  destruct N1 as (F1 & E1). destruct N2 as (F2 & E2). pose proof (Rabs_pos u). pose proof (Rabs_pos v). pose proof (Rabs_pos (val x)). pose proof (Rabs_pos (val y)).
  assert (P : Rabs (val x * val y) <= huge).
  { rewrite Rabs_mult. pose proof huge_big. apply Rle_trans with (101 * 101); [apply Rmult_le_compat; lra|]. lra. }
  destruct (fmul_fine x y F1 F2 P) as (E & F). split; auto. rewrite E.
  pose proof eps_bounds as (e0 & _). set (d1 := val x - u) in *. set (d2 := val y - v) in *.
  assert (D : Rabs (val x * val y - u * v) <= (U * k2 + V * k1 + / 1000) * eps).
  { replace (val x * val y - u * v) with (u * d2 + (v * d1 + d1 * d2)) by (unfold d1, d2; ring).
    eapply Rle_trans; [apply Rabs_triang|]. apply Rle_trans with (Rabs (u * d2) + (Rabs (v * d1) + Rabs (d1 * d2))); [apply Rplus_le_compat_l, Rabs_triang|].
    rewrite !Rabs_mult. assert (A1 : Rabs u * Rabs d2 <= U * (k2 * eps)) by (apply Rmult_le_compat; auto using Rabs_pos).
    assert (A2 : Rabs v * Rabs d1 <= V * (k1 * eps)) by (apply Rmult_le_compat; auto using Rabs_pos).
    assert (A3 : Rabs d1 * Rabs d2 <= (1000 * eps) * (1000 * eps)).
    { apply Rmult_le_compat; auto using Rabs_pos; (eapply Rle_trans; [eassumption|]); apply Rmult_le_compat_r; lra. }
    assert (A4 : (1000 * eps) * (1000 * eps) <= / 1000 * eps). { rewrite <- Rmult_assoc. apply Rmult_le_compat_r; [lra|]. rewrite eps_val. lra. }
    lra. }
  assert (B : Rabs (u * v) <= U * V) by (rewrite Rabs_mult; apply Rmult_le_compat; auto).
  assert (0 <= U * k2) by (apply Rmult_le_pos; lra). assert (0 <= V * k1) by (apply Rmult_le_pos; lra).
  assert (U * k2 <= 100 * 1000) by (apply Rmult_le_compat; lra). assert (V * k1 <= 100 * 1000) by (apply Rmult_le_compat; lra).
  apply (rnd_near _ _ _ (U * V) _ D); auto; lra.
Qed.
Lemma near_add : forall u v k1 k2 W m x y, near u k1 x -> near v k2 y -> Rabs u <= 10000 -> Rabs v <= 10000 -> Rabs (u + v) <= W ->
  0 <= k1 <= 1000 -> 0 <= k2 <= 1000 -> k1 + k2 + W + / 1000 <= m -> near (u + v) m (fadd x y).
Proof.
  intros u v k1 k2 W m x y N1 N2 BU BV BW K1 K2 H.
  pose proof (near_small _ _ _ _ N1 ltac:(lra) BU) as X. pose proof (near_small _ _ _ _ N2 ltac:(lra) BV) as Y.
  destruct N1 as (F1 & E1). destruct N2 as (F2 & E2).
  assert (P : Rabs (val x + val y) <= huge). { pose proof huge_big. eapply Rle_trans; [apply Rabs_triang|]. lra. }
  destruct (fadd_ok x y F1 F2 P) as (E & F). split; auto. rewrite E. apply rnd_near with (k := k1 + k2) (W := W); auto; try lra.
  replace (val x + val y - (u + v)) with ((val x - u) + (val y - v)) by ring. eapply Rle_trans; [apply Rabs_triang|]. lra.
Qed.
Lemma near_sub : forall u v k1 k2 W m x y, near u k1 x -> near v k2 y -> Rabs u <= 10000 -> Rabs v <= 10000 -> Rabs (u - v) <= W ->
  0 <= k1 <= 1000 -> 0 <= k2 <= 1000 -> k1 + k2 + W + / 1000 <= m -> near (u - v) m (fsub x y).
Proof.
  intros u v k1 k2 W m x y N1 N2 BU BV BW K1 K2 H.
  pose proof (near_small _ _ _ _ N1 ltac:(lra) BU) as X. pose proof (near_small _ _ _ _ N2 ltac:(lra) BV) as Y.
  destruct N1 as (F1 & E1). destruct N2 as (F2 & E2).
  assert (P : Rabs (val x - val y) <= huge). { pose proof huge_big. unfold Rminus. eapply Rle_trans; [apply Rabs_triang|]. rewrite Rabs_Ropp. lra. }
  destruct (fsub_ok x y F1 F2 P) as (E & F). split; auto. rewrite E. apply rnd_near with (k := k1 + k2) (W := W); auto; try lra.
  replace (val x - val y - (u - v)) with ((val x - u) + - (val y - v)) by ring. eapply Rle_trans; [apply Rabs_triang|]. rewrite Rabs_Ropp. lra.
Qed.

(** ** The constants *)
Ltac const := split; [reflexivity|]; rewrite eps_val; unfold val, a0_64, a1_64, a2_64, a3_64, a4_64, five64, ten64, hundred64; cbn; unfold F2R; cbn; apply Rabs_le; lra.
Lemma a0_near : near (2969 / 10000) (3 / 10) a0_64. Proof. const. Qed.
Lemma a1_near : near (- (1260 / 10000)) (2 / 10) a1_64. Proof. const. Qed.
Lemma a2_near : near (- (3516 / 10000)) (4 / 10) a2_64. Proof. const. Qed.
Lemma a3_near : near (2843 / 10000) (3 / 10) a3_64. Proof. const. Qed.
Lemma a4_near : near (- (1036 / 10000)) (2 / 10) a4_64. Proof. const. Qed.
Lemma five_val : val five64 = 5 /\ finite five64 = true.
Proof. split; [|reflexivity]. unfold val, five64; cbn; unfold F2R; cbn; lra. Qed.
Lemma ten_val : val ten64 = 10 /\ finite ten64 = true.
Proof. split; [|reflexivity]. unfold val, ten64; cbn; unfold F2R; cbn; lra. Qed.
Lemma hundred_val : val hundred64 = 100 /\ finite hundred64 = true.
Proof. split; [|reflexivity]. unfold val, hundred64; cbn; unfold F2R; cbn; lra. Qed.
Lemma one_val : val one64 = 1 /\ finite one64 = true.
Proof. split; [|reflexivity]. unfold val, one64; cbn; unfold F2R; cbn; lra. Qed.

(** ** The polynomial *)
Definition poly (x : R) : R := 2969 / 10000 * sqrt x + - (1260 / 10000) * x + - (3516 / 10000) * x ^ 2 + 2843 / 10000 * x ^ 3 + - (1036 / 10000) * x ^ 4.
Definition poly64 (L : mathlib) (x : b64) : b64 :=
  fadd (fadd (fadd (fadd (fmul a0_64 (fsqrt x)) (fmul a1_64 x)) (fmul a2_64 (pow64 L x 2))) (fmul a3_64 (pow64 L x 3))) (fmul a4_64 (pow64 L x 4)).
Lemma half_poly : forall t x, half_thickness t x = 5 * t * poly x.
Proof.
  intros. unfold half_thickness, poly. replace (0.2969) with (2969 / 10000) by lra. replace (-0.1260) with (- (1260 / 10000)) by lra.
  replace (-0.3516) with (-(3516 / 10000)) by lra. replace 0.2843 with (2843 / 10000) by lra. replace (-0.1036) with (- (1036 / 10000)) by lra. reflexivity.
Qed.
Lemma pow_near : forall L x k, good_powers L -> finite x = true -> 0 <= val x <= 1 -> (2 <= Z.of_nat k <= 4)%Z -> near (val x ^ k) (81 / 10) (pow64 L x (Z.of_nat k)).
Proof.
  intros L x k G F B K. destruct (G x (Z.of_nat k) F B K) as (N & _ & E). split; auto. unfold real in E. rewrite <- pow_powerRZ in E.
  assert (P : 0 <= val x ^ k <= 1). { split; [apply pow_le; lra|]. rewrite <- (pow1 k). apply pow_incr. exact B. }
  assert (T : bpow radix2 (-1071) <= / 10 * eps). { pose proof eta_tiny as Q. unfold eta in Q. change (-1071)%Z with (-1075 + 4)%Z. rewrite bpow_plus. change (bpow radix2 4) with 16. pose proof eps_bounds. lra. }
  pose proof eps_bounds as (e0 & _). assert (8 * eps * val x ^ k <= 8 * eps * 1) by (apply Rmult_le_compat_l; lra). unfold val in *. lra.
Qed.
Lemma sqrt_near : forall x, finite x = true -> 0 <= val x <= 1 -> near (sqrt (val x)) (11 / 10) (fsqrt x).
Proof.
  intros x F B. destruct (fsqrt_val x F ltac:(lra)) as (E & N). split; auto. rewrite E. pose proof (sqrt_01 _ B).
  apply rnd_near with (k := 0) (W := 1); try lra. replace (sqrt (val x) - sqrt (val x)) with 0 by ring. rewrite Rabs_R0. lra. apply Rabs_le. lra.
Qed.
Lemma poly_near : forall L x, good_powers L -> finite x = true -> 0 <= val x <= 1 -> near (poly (val x)) 12 (poly64 L x).
Proof.
  intros L x G F B. unfold poly, poly64. pose proof (sqrt_01 _ B) as SB.
  pose proof (pow_near L x 2 G F B ltac:(lia)) as N2. pose proof (pow_near L x 3 G F B ltac:(lia)) as N3. pose proof (pow_near L x 4 G F B ltac:(lia)) as N4.
  change (Z.of_nat 2) with 2%Z in N2. change (Z.of_nat 3) with 3%Z in N3. change (Z.of_nat 4) with 4%Z in N4.
  assert (P : forall k, 0 <= val x ^ k <= 1). { intros k. split; [apply pow_le; lra|]. rewrite <- (pow1 k). apply pow_incr. exact B. }
  pose proof (P 2%nat) as P2. pose proof (P 3%nat) as P3. pose proof (P 4%nat) as P4.
  set (q2 := val x ^ 2) in *. set (q3 := val x ^ 3) in *. set (q4 := val x ^ 4) in *. set (s := sqrt (val x)) in *.
  assert (A : forall z, 0 <= z <= 1 -> Rabs z <= 1) by (intros; apply Rabs_le; lra).
  assert (M0 : near (2969 / 10000 * s) (1) (fmul a0_64 (fsqrt x))).
  { apply near_mul with (k1 := 3 / 10) (k2 := 11 / 10) (U := 2969 / 10000) (V := 1); auto using a0_near; try lra. apply sqrt_near; auto. apply Rabs_le; lra. }
  assert (M1 : near (- (1260 / 10000) * val x) (4 / 10) (fmul a1_64 x)).
  { apply near_mul with (k1 := 2 / 10) (k2 := 0) (U := 1260 / 10000) (V := 1); auto using a1_near, near_exact; try lra. apply Rabs_le; lra. }
  assert (M2 : near (- (3516 / 10000) * q2) (37 / 10) (fmul a2_64 (pow64 L x 2))).
  { apply near_mul with (k1 := 4 / 10) (k2 := 81 / 10) (U := 3516 / 10000) (V := 1); auto using a2_near; try lra. apply Rabs_le; lra. }
  assert (M3 : near (2843 / 10000 * q3) (29 / 10) (fmul a3_64 (pow64 L x 3))).
  { apply near_mul with (k1 := 3 / 10) (k2 := 81 / 10) (U := 2843 / 10000) (V := 1); auto using a3_near; try lra. apply Rabs_le; lra. }
  assert (M4 : near (- (1036 / 10000) * q4) (12 / 10) (fmul a4_64 (pow64 L x 4))).
  { apply near_mul with (k1 := 2 / 10) (k2 := 81 / 10) (U := 1036 / 10000) (V := 1); auto using a4_near; try lra. apply Rabs_le; lra. }
  assert (S1 : near (2969 / 10000 * s + - (1260 / 10000) * val x) (18 / 10) (fadd (fmul a0_64 (fsqrt x)) (fmul a1_64 x))).
  { apply near_add with (k1 := 1) (k2 := 4 / 10) (W := 3 / 10); auto; try lra; apply Rabs_le; lra. }
  assert (S2 : near (2969 / 10000 * s + - (1260 / 10000) * val x + - (3516 / 10000) * q2) (61 / 10) (fadd (fadd (fmul a0_64 (fsqrt x)) (fmul a1_64 x)) (fmul a2_64 (pow64 L x 2)))).
  { apply near_add with (k1 := 18 / 10) (k2 := 37 / 10) (W := 1 / 2); auto; try lra; apply Rabs_le; lra. }
  assert (S3 : near (2969 / 10000 * s + - (1260 / 10000) * val x + - (3516 / 10000) * q2 + 2843 / 10000 * q3) (97 / 10)
    (fadd (fadd (fadd (fmul a0_64 (fsqrt x)) (fmul a1_64 x)) (fmul a2_64 (pow64 L x 2))) (fmul a3_64 (pow64 L x 3)))).
  { apply near_add with (k1 := 61 / 10) (k2 := 29 / 10) (W := 6 / 10); auto; try lra; apply Rabs_le; lra. }
  apply near_add with (k1 := 97 / 10) (k2 := 12 / 10) (W := 7 / 10); auto; try lra; apply Rabs_le; lra.
Qed.

Lemma poly_bounds : forall x, 0 <= x <= 1 -> 0 <= poly x <= 11 / 100.
Proof. intros x B. pose proof (half_bounds 1 x ltac:(lra) B) as H. rewrite half_poly in H. lra. Qed.
Lemma half_near : forall L t x, good_powers L -> finite t = true -> 0 <= val t <= 1 -> finite x = true -> 0 <= val x <= 1 ->
  near (half_thickness (val t) (val x)) 64 (half_thickness64 L t x).
Proof.
  intros L t x G Ft Bt Fx Bx. rewrite half_poly. change (half_thickness64 L t x) with (fmul (fmul five64 t) (poly64 L x)).
  destruct five_val as (V5 & F5). pose proof (poly_bounds _ Bx).
  apply near_mul with (k1 := 502 / 100) (k2 := 12) (U := 5) (V := 11 / 100); try lra; [|apply poly_near; auto|apply Rabs_le; lra..].
  rewrite <- V5. apply near_mul with (k1 := 0) (k2 := 0) (U := 5) (V := 1); auto using near_exact; try lra; rewrite ?V5; apply Rabs_le; lra.
Qed.

(** ** From below *)
Lemma shape_low : forall s, 0 <= s <= 1 -> 2 * s ^ 2 * (1 - s ^ 2) <= shape s.
Proof.
  intros s (A & B). assert (E : shape s - 2 * s ^ 2 * (1 - s ^ 2) = 2969 / 1000 * (s * (1 - s) ^ 7) + 17523 / 1000 * (s ^ 2 * (1 - s) ^ 6) + 42789 / 1000 * (s ^ 3 * (1 - s) ^ 5)
    + 53499 / 1000 * (s ^ 4 * (1 - s) ^ 4) + 32651 / 1000 * (s ^ 5 * (1 - s) ^ 3) + 1799 / 250 * (s ^ 6 * (1 - s) ^ 2) + 169 / 200 * (s ^ 7 * (1 - s))) by (unfold shape; field).
  assert (P : forall i j, 0 <= s ^ i * (1 - s) ^ j) by (intros; apply Rmult_le_pos; apply pow_le; lra).
  pose proof (P 1%nat 7%nat) as P1. pose proof (P 7%nat 1%nat) as P7. rewrite pow_1 in P1, P7.
  pose proof (P 2%nat 6%nat). pose proof (P 3%nat 5%nat). pose proof (P 4%nat 4%nat). pose proof (P 5%nat 3%nat). pose proof (P 6%nat 2%nat). lra.
Qed.
Lemma half_low : forall t x, 0 <= t -> 0 <= x <= 1 -> t * (x * (1 - x)) <= half_thickness t x.
Proof.
  intros t x T B. rewrite half_shape by lra. pose proof (shape_low (sqrt x) (sqrt_01 _ B)) as H.
  replace (sqrt x ^ 2) with x in H by (rewrite <- Rsqr_pow2, Rsqr_sqrt; lra). nra.
Qed.

(** ** At the ends *)
Lemma pow_one : forall L k, good_library L -> (2 <= k <= 4)%Z -> pow64 L one64 k = one64.
Proof.
  intros L k (G & X & _) K. destruct one_val as (V & F). destruct (G one64 k F ltac:(unfold real; fold (val one64); rewrite V; lra) K) as (N & _ & _).
  destruct (X one64 k K F) as (_ & E). specialize (E V). unfold is_number, real in *. apply (@B2R_inj 53 1024).
  - destruct (pow64 L one64 k); try discriminate N; auto. cbn in E. lra.
  - reflexivity.
  - rewrite E. symmetry. exact V.
Qed.
Lemma poly_one : forall L, good_library L -> val (poly64 L one64) = - bpow radix2 (-55) /\ finite (poly64 L one64) = true.
Proof.
  intros L G. unfold poly64. rewrite !pow_one by (auto; lia). set (y := fadd _ _). assert (E : B2SF y = SpecFloat.S754_finite true 4503599627370496 (-107)) by (vm_compute; reflexivity).
  split; [|destruct y; try discriminate E; reflexivity]. destruct y; try discriminate E. inversion E; subst. cbn. unfold F2R. cbn. lra.
Qed.
Lemma half_one : forall L t, good_library L -> finite t = true -> 1 / 200 <= val t <= 1 ->
  finite (half_thickness64 L t one64) = true /\ val (half_thickness64 L t one64) = - rnd (5 * val t) * bpow radix2 (-55) /\ Rabs (rnd (5 * val t) - 5 * val t) <= eps * (5 * val t).
Proof.
  intros L t G Ft B. change (half_thickness64 L t one64) with (fmul (fmul five64 t) (poly64 L one64)). destruct (poly_one L G) as (P & FP). destruct five_val as (V5 & F5).
  pose proof huge_big. destruct (fmul_fine five64 t F5 Ft) as (E & F); [rewrite V5; rewrite Rabs_pos_eq; lra|]. rewrite V5 in E.
  assert (R : Rabs (rnd (5 * val t) - 5 * val t) <= eps * (5 * val t)).
  { pose proof (rnd_error (5 * val t)) as Q. rewrite (Rabs_pos_eq (5 * val t)) in Q by lra. apply Q. apply Rle_trans with (bpow radix2 (-6)); [apply bpow_le; lia|]. cbn. lra. }
  assert (Lo : / 64 <= rnd (5 * val t) <= 6). { pose proof eps_bounds. apply Rabs_le_inv in R. rewrite eps_val in R. lra. }
  assert (Q : rnd (rnd (5 * val t) * - bpow radix2 (-55)) = - rnd (5 * val t) * bpow radix2 (-55)).
  { rewrite <- E. replace (val (fmul five64 t) * - bpow radix2 (-55)) with (- (val (fmul five64 t) * bpow radix2 (-55))) by ring. rewrite rnd_opp, rnd_exact; [ring|].
    apply format_shift; [apply format_val|]. left. rewrite E. rewrite Rabs_pos_eq. 2:{ apply Rmult_le_pos; [lra|apply bpow_ge_0]. }
    apply Rle_trans with (/ 64 * bpow radix2 (-55)). 2:{ apply Rmult_le_compat_r; [apply bpow_ge_0|lra]. }
    apply Rle_trans with (bpow radix2 (-61)); [apply bpow_le; lia|]. change (-61)%Z with (-6 + -55)%Z. rewrite bpow_plus. apply Rmult_le_compat_r; [apply bpow_ge_0|]. cbn. lra. }
  destruct (fmul_fine (fmul five64 t) (poly64 L one64) F FP) as (E2 & F2).
  { rewrite E, P, Rabs_mult, Rabs_Ropp. assert (bpow radix2 (-55) <= 1) by (change 1 with (bpow radix2 0); apply bpow_le; lia). pose proof (bpow_gt_0 radix2 (-55)). rewrite !Rabs_pos_eq by lra. nra. }
  split; auto. split; auto. rewrite E2, E, P. exact Q.
Qed.
Lemma half_zero : forall L t x, good_library L -> finite t = true -> 0 <= val t <= 1 -> finite x = true -> val x = 0 ->
  finite (half_thickness64 L t x) = true /\ val (half_thickness64 L t x) = 0.
Proof.
  intros L t x (G & X & _) Ft Bt Fx Vx. split; [apply (half_near L t x G Ft Bt Fx ltac:(lra))|].
  assert (M : forall a y, finite a = true -> finite y = true -> val y = 0 -> val (fmul a y) = 0 /\ finite (fmul a y) = true).
  { intros a y Fa Fy V. destruct (fmul_fine a y Fa Fy) as (E & F). rewrite V, Rmult_0_r, Rabs_R0. unfold huge. apply bpow_ge_0. split; auto. rewrite E, V, Rmult_0_r. unfold rnd. apply round_0. apply valid_rnd_N. }
  assert (A : forall a y, finite a = true -> finite y = true -> val a = 0 -> val y = 0 -> val (fadd a y) = 0 /\ finite (fadd a y) = true).
  { intros a y Fa Fy Va V. destruct (fadd_ok a y Fa Fy) as (E & F). rewrite V, Va, Rplus_0_r, Rabs_R0. unfold huge. apply bpow_ge_0. split; auto. rewrite E, V, Va, Rplus_0_r. unfold rnd. apply round_0. apply valid_rnd_N. }
  assert (P : forall k, (2 <= k <= 4)%Z -> val (pow64 L x k) = 0 /\ finite (pow64 L x k) = true).
  { intros k K. split; [apply (X x k K Fx); exact Vx|]. apply (G x k Fx); auto. unfold real. fold (val x). lra. }
  destruct (fsqrt_val x Fx ltac:(lra)) as (ES & FS). assert (VS : val (fsqrt x) = 0). { rewrite ES, Vx, sqrt_0. unfold rnd. apply round_0. apply valid_rnd_N. }
  destruct (P 2%Z ltac:(lia)) as (P2 & G2). destruct (P 3%Z ltac:(lia)) as (P3 & G3). destruct (P 4%Z ltac:(lia)) as (P4 & G4).
  destruct (M a0_64 _ eq_refl FS VS) as (V0 & F0). destruct (M a1_64 _ eq_refl Fx Vx) as (V1 & F1). destruct (M a2_64 _ eq_refl G2 P2) as (V2 & F2).
  destruct (M a3_64 _ eq_refl G3 P3) as (V3 & F3). destruct (M a4_64 _ eq_refl G4 P4) as (V4 & F4).
  destruct (A _ _ F0 F1 V0 V1) as (W1 & H1). destruct (A _ _ H1 F2 W1 V2) as (W2 & H2). destruct (A _ _ H2 F3 W2 V3) as (W3 & H3). destruct (A _ _ H3 F4 W3 V4) as (W4 & H4).
  destruct five_val as (V5 & F5). pose proof huge_big. destruct (fmul_fine five64 t F5 Ft) as (_ & F6); [rewrite V5; rewrite Rabs_pos_eq; lra|].
  apply (M _ _ F6 H4 W4).
Qed.
