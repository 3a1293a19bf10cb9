(** A library of functions as the foils need it. *)
From Coq Require Import Reals ZArith List Lra Lia Bool.
From Flocq Require Import Core BinarySingleNaN.
From Verif Require Import Base PpgFloatModel PpgFloatProofs FloatModel FloatSpec FloatProofs ShapeFloatModel ShapeFloatProofs SectionFloatModel SectionFloatProofs SectionFloatProofs4 NacaFloatModel NacaFloatSpec NacaFloatProofs NacaFloatProofs2 NacaFloatProofs3.
Import ListNotations.
Open Scope R_scope.

Lemma eta_16 : bpow radix2 (-1071) = 16 * eta.
Proof. unfold eta. change (-1071)%Z with (4 + -1075)%Z. rewrite bpow_plus. reflexivity. Qed.
Lemma rnd_1 : rnd 1 = 1.
Proof. apply rnd_exact. change 1 with (bpow radix2 0). apply generic_format_bpow. cbn. lia. Qed.
Lemma product_step : forall r x q A B, finite r = true -> finite x = true -> 0 <= val r <= 1 -> 0 <= val x <= 1 -> 0 <= q -> 0 <= A <= 10 -> 0 <= B <= 10 ->
  Rabs (val r - q) <= A * (eps * q) + B * eta ->
  finite (fmul r x) = true /\ 0 <= val (fmul r x) <= 1 /\ Rabs (val (fmul r x) - q * val x) <= (A + 11 / 10) * (eps * (q * val x)) + (B + 11 / 10) * eta.
Proof.
  intros r x q A B Fr Fx Br Bx Q HA HB E. pose proof huge_big. assert (P : 0 <= val r * val x <= 1). { split; [apply Rmult_le_pos; lra|]. rewrite <- (Rmult_1_r 1). apply Rmult_le_compat; lra. }
  destruct (fmul_fine r x Fr Fx) as (V & F). rewrite Rabs_pos_eq; lra. split; auto. rewrite V. split.
  { split; [apply rnd_nonneg; lra|]. rewrite <- rnd_1. apply rnd_le. lra. }
  pose proof eps_bounds as (e0 & _). pose proof eta_bounds as (t0 & _). set (y := q * val x). assert (Y : 0 <= y) by (apply Rmult_le_pos; lra).
  assert (D : Rabs (val r * val x - y) <= A * (eps * y) + B * eta).
  { unfold y. replace (val r * val x - q * val x) with ((val r - q) * val x) by ring. rewrite Rabs_mult, (Rabs_pos_eq (val x)) by lra.
    apply Rle_trans with ((A * (eps * q) + B * eta) * val x); [apply Rmult_le_compat_r; lra|].
    assert (B * eta * val x <= B * eta * 1) by (apply Rmult_le_compat_l; [apply Rmult_le_pos; lra|lra]). lra. }
  pose proof (rnd_error_any (val r * val x)) as R. rewrite (Rabs_pos_eq (val r * val x)) in R by lra.
  assert (U : val r * val x <= y + (A * (eps * y) + B * eta)) by (apply Rabs_le_inv in D; lra).
  assert (W1 : eps * (val r * val x) <= eps * (y + (A * (eps * y) + B * eta))) by (apply Rmult_le_compat_l; lra).
  assert (eY : 0 <= eps * y) by (apply Rmult_le_pos; lra). 
  assert (W2 : A * (eps * y) <= 10 * (eps * y)) by (apply Rmult_le_compat_r; lra). assert (W3 : B * eta <= 10 * eta) by (apply Rmult_le_compat_r; lra).
  assert (W4 : eps * (A * (eps * y)) <= / 1000 * (A * (eps * y))). { apply Rmult_le_compat_r; [apply Rmult_le_pos; lra|]. rewrite eps_val. lra. }
  assert (W5 : eps * (B * eta) <= / 1000 * (B * eta)). { apply Rmult_le_compat_r; [apply Rmult_le_pos; lra|]. rewrite eps_val. lra. }
  replace (rnd (val r * val x) - y) with ((rnd (val r * val x) - val r * val x) + (val r * val x - y)) by ring. eapply Rle_trans; [apply Rabs_triang|].
  rewrite Rmult_plus_distr_l, Rmult_plus_distr_l in W1. lra.
Qed.
Lemma plain_powers : good_powers plain_library.
Proof.
  intros x k F B K. unfold is_number, real in *. fold (val x) in *. cbn [pow64 plain_library].
  assert (E0 : Rabs (val x - val x) <= 0 * (eps * val x) + 0 * eta) by (replace (val x - val x) with 0 by ring; rewrite Rabs_R0; lra).
  destruct (product_step x x (val x) 0 0 F F B B ltac:(lra) ltac:(lra) ltac:(lra) E0) as (F2 & B2 & E2).
  assert (Q2 : 0 <= val x * val x) by (apply Rmult_le_pos; lra).
  destruct (product_step _ x (val x * val x) (0 + 11 / 10) (0 + 11 / 10) F2 F B2 B Q2 ltac:(lra) ltac:(lra) E2) as (F3 & B3 & E3).
  assert (Q3 : 0 <= val x * val x * val x) by (apply Rmult_le_pos; lra).
  destruct (product_step _ x (val x * val x * val x) (0 + 11 / 10 + 11 / 10) (0 + 11 / 10 + 11 / 10) F3 F B3 B Q3 ltac:(lra) ltac:(lra) E3) as (F4 & B4 & E4).
  assert (Q4 : 0 <= val x * val x * val x * val x) by (apply Rmult_le_pos; lra).
  pose proof eta_bounds as (t0 & _). pose proof eps_bounds as (e0 & _). rewrite eta_16.
  assert (0 <= eps * (val x * val x)) by (apply Rmult_le_pos; lra). assert (0 <= eps * (val x * val x * val x)) by (apply Rmult_le_pos; lra). assert (0 <= eps * (val x * val x * val x * val x)) by (apply Rmult_le_pos; lra).
  assert (C : (k = 2 \/ k = 3 \/ k = 4)%Z) by lia. destruct C as [C|[C|C]]; subst k; simpl Z.eqb; cbv iota.
  - split; auto. split; [apply B2|]. replace (powerRZ (val x) 2) with (val x * val x) by (change (powerRZ (val x) 2) with (val x ^ 2); ring). lra.
  - split; auto. split; [apply B3|]. replace (powerRZ (val x) 3) with (val x * val x * val x) by (change (powerRZ (val x) 3) with (val x ^ 3); ring). lra.
  - split; auto. split; [apply B4|]. replace (powerRZ (val x) 4) with (val x * val x * val x * val x) by (change (powerRZ (val x) 4) with (val x ^ 4); ring). lra.
Qed.
Lemma plain_exact : exact_powers plain_library.
Proof.
  intros x k K F. unfold is_number, real in *. fold (val x). cbn [pow64 plain_library]. pose proof huge_big as HB.
  assert (M : forall y v, finite y = true -> val y = v -> val x = v -> v = 0 \/ v = 1 -> finite (fmul y x) = true /\ val (fmul y x) = v).
  { intros y v Fy Vy Vx H. destruct (fmul_fine y x Fy F) as (E & G). rewrite Vy, Vx. destruct H as [-> | ->]; rewrite ?Rmult_0_l, ?Rmult_1_l, ?Rabs_R0, ?Rabs_R1; lra.
    split; auto. rewrite E, Vy, Vx. destruct H as [-> | ->]; rewrite ?Rmult_0_l, ?Rmult_1_l; [apply rnd_0|apply rnd_1]. }
  assert (P : forall v, val x = v -> v = 0 \/ v = 1 -> val (if Z.eqb k 2 then fmul x x else if Z.eqb k 3 then fmul (fmul x x) x else fmul (fmul (fmul x x) x) x) = v).
  { intros v V H. destruct (M x v F V V H) as (F2 & V2). destruct (M _ v F2 V2 V H) as (F3 & V3). destruct (M _ v F3 V3 V H) as (F4 & V4). destruct (Z.eqb k 2); auto. destruct (Z.eqb k 3); auto. }
  split; intros V; apply P; auto.
Qed.
Lemma plain_angles : good_angles plain_library.
Proof.
  intros z F B. unfold is_number, real in *. fold (val z) in *. cbn [sin64 cos64 atan64 plain_library]. destruct one_val as (V1 & F1). pose proof huge_big as HB.
  assert (P0 : 0 <= val z * val z) by nra. assert (P : val z * val z <= 400). { rewrite <- (Rabs_pos_eq (val z * val z)), Rabs_mult by lra. apply Rle_trans with (20 * 20); [|lra]. apply Rmult_le_compat; auto using Rabs_pos. }
  destruct (fmul_fine z z F F) as (E2 & F2). rewrite Rabs_pos_eq; lra. set (w := fmul z z) in *.
  assert (W : 0 <= val w <= 401). { rewrite E2. split; [apply rnd_nonneg; lra|]. pose proof (rnd_size (val z * val z) 400 ltac:(rewrite Rabs_pos_eq; lra) ltac:(lra)) as Q. apply Rabs_le_inv in Q. lra. }
  destruct (fadd_ok one64 w F1 F2) as (E3 & F3). rewrite V1, Rabs_pos_eq; lra. rewrite V1 in E3. set (s := fadd one64 w) in *.
  assert (S : 1 <= val s <= 403 /\ val w <= val s).
  { rewrite E3. split; [split|].
    - rewrite <- rnd_1 at 1. apply rnd_le. lra.
    - pose proof (rnd_size (1 + val w) 402 ltac:(rewrite Rabs_pos_eq; lra) ltac:(lra)) as Q. apply Rabs_le_inv in Q. lra.
    - rewrite <- (rnd_exact (val w)) at 1 by apply format_val. apply rnd_le. lra. }
  destruct (fsqrt_val s F3 ltac:(lra)) as (E4 & F4). change (fsqrt s) with (hypotenuse z) in *. set (h := hypotenuse z) in *.
  assert (SQ : 1 <= sqrt (val s) <= 21). { split; [rewrite <- sqrt_1; apply sqrt_le_1; lra|]. replace 21 with (sqrt (21 * 21)) by (rewrite sqrt_square; lra). apply sqrt_le_1; lra. }
  assert (H : 1 <= val h <= 22). { rewrite E4. split; [rewrite <- rnd_1 at 1; apply rnd_le; lra|]. pose proof (rnd_size (sqrt (val s)) 21 ltac:(rewrite Rabs_pos_eq; lra) ltac:(lra)) as Q. apply Rabs_le_inv in Q. lra. }
  assert (HZ : Rabs (val z) <= val h).
  { destruct (Rle_lt_dec (bpow radix2 (-511)) (Rabs (val z))) as [Z|Z].
    - rewrite <- (sqrt_of_square (Rabs (val z))); auto. 2:{ apply generic_format_abs, format_val. }
      rewrite E4. apply rnd_le, sqrt_le_1; try lra. apply rnd_nonneg. apply Rmult_le_pos; apply Rabs_pos.
      rewrite <- Rabs_mult, (Rabs_pos_eq (val z * val z)) by lra. rewrite <- E2. lra.
    - assert (bpow radix2 (-511) <= 1) by (change 1 with (bpow radix2 0); apply bpow_le; lia). lra. }
  assert (IH : / 22 <= / val h <= 1). { split; [apply Rinv_le_contravar; lra|]. rewrite <- Rinv_1. apply Rinv_le_contravar; lra. }
  assert (QZ : Rabs (val z / val h) <= 1). { unfold Rdiv. rewrite Rabs_mult, (Rabs_pos_eq (/ val h)) by lra. replace 1 with (val h * / val h) by (field; lra). apply Rmult_le_compat_r; lra. }
  destruct (fdiv_fine z h F ltac:(lra) ltac:(lra)) as (ES & FS). destruct (fdiv_fine one64 h F1 ltac:(lra)) as (EC & FC). rewrite V1. unfold Rdiv. rewrite Rmult_1_l, Rabs_pos_eq; lra.
  set (H0 := sqrt (1 + (val z)²)). assert (SZ : (val z)² = val z * val z) by reflexivity.
  assert (H0p : 1 <= H0) by (unfold H0; rewrite <- sqrt_1 at 1; apply sqrt_le_1; lra). assert (H0q : H0 * H0 = 1 + val z * val z) by (unfold H0; rewrite sqrt_sqrt; lra).
  pose proof eps_bounds as (e0 & _). pose proof eps_val as ev. pose proof eta_tiny as et.
  assert (D1 : Rabs (val s - H0 * H0) <= 21 / 10 * (eps * (H0 * H0))).
  { rewrite E3, H0q. pose proof (rnd_error_any (val z * val z)) as R1. rewrite <- E2, (Rabs_pos_eq (val z * val z)) in R1 by lra. pose proof (rnd_error_any (1 + val w)) as R2. rewrite (Rabs_pos_eq (1 + val w)) in R2 by lra.
    assert (eps * (1 + val w) <= eps * (1 + val z * val z + / 100)). { apply Rmult_le_compat_l; [lra|]. apply Rabs_le_inv in R1. assert (eps * (val z * val z) <= eps * 400) by (apply Rmult_le_compat_l; lra). rewrite ev in *. lra. }
    replace (rnd (1 + val w) - (1 + val z * val z)) with ((rnd (1 + val w) - (1 + val w)) + (val w - val z * val z)) by ring. eapply Rle_trans; [apply Rabs_triang|].
    assert (0 <= eps * (val z * val z)) by (apply Rmult_le_pos; lra). lra. }
  assert (D2 : Rabs (sqrt (val s) - H0) <= 21 / 10 * (eps * H0)).
  { set (r := sqrt (val s)) in *. assert (RR : r * r = val s) by (unfold r; apply sqrt_sqrt; lra).
    assert (M : Rabs (r - H0) * (r + H0) = Rabs (val s - H0 * H0)). { rewrite <- RR. rewrite <- (Rabs_pos_eq (r + H0)) by lra. rewrite <- Rabs_mult. f_equal. ring. }
    apply Rmult_le_reg_r with H0; [lra|]. apply Rle_trans with (Rabs (r - H0) * (r + H0)); [apply Rmult_le_compat_l; [apply Rabs_pos|lra]|]. rewrite M. eapply Rle_trans; [exact D1|]. lra. }
  assert (D3 : Rabs (val h - H0) <= 32 / 10 * (eps * H0)).
  { rewrite E4. pose proof (rnd_error_any (sqrt (val s))) as R1. rewrite (Rabs_pos_eq (sqrt (val s))) in R1 by lra.
    assert (U : sqrt (val s) <= H0 + / 1000 * H0). { apply Rabs_le_inv in D2. assert (21 / 10 * (eps * H0) <= / 1000 * H0). { rewrite <- Rmult_assoc. apply Rmult_le_compat_r; [lra|]. rewrite ev. lra. } lra. }
    assert (eps * sqrt (val s) <= eps * (H0 + / 1000 * H0)) by (apply Rmult_le_compat_l; lra). assert (E1' : eps * 1 <= eps * H0) by (apply Rmult_le_compat_l; lra).
    replace (rnd (sqrt (val s)) - H0) with ((rnd (sqrt (val s)) - sqrt (val s)) + (sqrt (val s) - H0)) by ring. eapply Rle_trans; [apply Rabs_triang|]. lra. }
  assert (HH : H0 <= val h * (11 / 10)). { apply Rabs_le_inv in D3. assert (32 / 10 * (eps * H0) <= / 100 * H0). { rewrite <- Rmult_assoc. apply Rmult_le_compat_r; [lra|]. rewrite ev. lra. } lra. }
  assert (D4 : forall u, Rabs u <= H0 -> Rabs (u / val h - u / H0) <= 36 / 10 * eps).
  { intros u Hu. replace (u / val h - u / H0) with (u / H0 * ((H0 - val h) / val h)) by (field; lra). rewrite Rabs_mult.
    assert (A1 : Rabs (u / H0) <= 1). { unfold Rdiv. rewrite Rabs_mult, (Rabs_pos_eq (/ H0)) by (left; apply Rinv_0_lt_compat; lra). apply Rmult_le_reg_r with H0; [lra|]. rewrite Rmult_assoc, Rinv_l by lra. lra. }
    assert (A2 : Rabs ((H0 - val h) / val h) <= 36 / 10 * eps).
    { unfold Rdiv. rewrite Rabs_mult, (Rabs_pos_eq (/ val h)) by lra. apply Rmult_le_reg_r with (val h); [lra|]. rewrite Rmult_assoc, Rinv_l, Rmult_1_r by lra. rewrite Rabs_minus_sym.
      eapply Rle_trans; [exact D3|]. assert (eps * H0 <= eps * (val h * (11 / 10))) by (apply Rmult_le_compat_l; lra). assert (0 <= eps * val h) by (apply Rmult_le_pos; lra). lra. }
    apply Rle_trans with (1 * (36 / 10 * eps)); [|lra]. apply Rmult_le_compat; auto using Rabs_pos. }
  assert (HZ0 : Rabs (val z) <= H0). { rewrite <- sqrt_Rsqr_abs. unfold H0. apply sqrt_le_1; try lra. }
  split; auto. split; [|split; [|split; [auto|split]]].
  - change (Rabs (val (fdiv64 z h)) <= 1). rewrite ES. apply Rabs_le_inv in QZ. apply Rabs_le. split.
    + rewrite <- rnd_1, <- rnd_opp. apply rnd_le. lra.
    + rewrite <- rnd_1. apply rnd_le. lra.
  - change (Rabs (val (fdiv64 z h) - sin (atan (val z))) <= 8 * eps). rewrite sin_atan. fold H0. rewrite ES. 
    apply rnd_near with (k := 36 / 10 + 1) (W := 1); try lra.
    + pose proof (D4 (val z) HZ0). lra.
    + unfold Rdiv. rewrite Rabs_mult, (Rabs_pos_eq (/ H0)) by (left; apply Rinv_0_lt_compat; lra). apply Rmult_le_reg_r with H0; [lra|]. rewrite Rmult_assoc, Rinv_l by lra. lra.
  - change (1 / 32 <= val (fdiv64 one64 h) <= 1). rewrite EC, V1. unfold Rdiv. rewrite !Rmult_1_l. split.
    + rewrite <- (rnd_exact (/ 32)). apply rnd_le. lra. change (/ 32) with (bpow radix2 (-5)). apply generic_format_bpow. cbn. lia.
    + rewrite <- rnd_1. apply rnd_le. lra.
  - change (Rabs (val (fdiv64 one64 h) - cos (atan (val z))) <= 8 * eps). rewrite cos_atan. fold H0. rewrite EC, V1.
    apply rnd_near with (k := 36 / 10 + 1) (W := 1); try lra.
    + pose proof (D4 1 ltac:(rewrite Rabs_R1; lra)). lra.
    + unfold Rdiv. rewrite Rmult_1_l, (Rabs_pos_eq (/ H0)) by (left; apply Rinv_0_lt_compat; lra). rewrite <- Rinv_1. apply Rinv_le_contravar; lra.
Qed.
Lemma plain_good : good_library plain_library.
Proof. split; [apply plain_powers|]. split; [apply plain_exact|apply plain_angles]. Qed.
