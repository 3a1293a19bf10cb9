(** The square root of a square, and the length of a chord, in binary64. *)
From Coq Require Import Reals ZArith List Lra Lia Bool.
From Flocq Require Import Core BinarySingleNaN.
From Verif Require Import Base PpgFloatModel PpgFloatProofs ProfileModel FloatModel FloatSpec FloatProofs FloatProofs2 ShapeFloatModel ShapeFloatSpec ShapeFloatProofs ShapeFloatProofs2 SectionFloatModel SectionFloatProofs.
Import ListNotations.
Open Scope R_scope.

Lemma sqrt_between : forall a y, 0 <= a -> a * a < y -> a < sqrt y.
Proof. intros a y A H. rewrite <- (sqrt_square a A). apply sqrt_lt_1; nra. Qed.
Lemma sqrt_below : forall b y, 0 <= y -> 0 <= b -> y < b * b -> sqrt y < b.
Proof. intros b y Y B H. rewrite <- (sqrt_square b B). apply sqrt_lt_1; nra. Qed.

Lemma sqrt_of_square : forall x, generic_format radix2 fexp64 x -> bpow radix2 (-511) <= x -> rnd (sqrt (rnd (x * x))) = x.
Proof.
  intros x Fx B. pose proof valid64 as V. assert (P : 0 < x) by (pose proof (bpow_gt_0 radix2 (-511)); lra).
  assert (P2 : 0 < x * x) by nra. set (e := mag radix2 x : Z).
  assert (Up : x < bpow radix2 e) by (rewrite <- (Rabs_pos_eq x) by lra; apply bpow_mag_gt).
  assert (Lo : bpow radix2 (e - 1) <= x) by (rewrite <- (Rabs_pos_eq x) by lra; apply bpow_mag_le; lra).
  assert (Ee : (-510 <= e)%Z). { apply mag_ge_bpow. rewrite Rabs_pos_eq by lra. exact B. }
  assert (Xf : fexp64 e = (e - 53)%Z) by (unfold FLT_exp; lia).
  destruct (Req_dec x (bpow radix2 (e - 1))) as [Pw|NP].
  - rewrite (rnd_exact (x * x)). { rewrite sqrt_square by lra. apply rnd_exact, Fx. }
    rewrite Pw, <- bpow_plus. apply generic_format_bpow. unfold FLT_exp. lia.
  - set (u := bpow radix2 (e - 53)). assert (U0 : 0 < u) by apply bpow_gt_0.
    assert (UE : u = bpow radix2 e * eps). { unfold u, eps. rewrite <- bpow_plus. f_equal. }
    assert (UL : ulp radix2 fexp64 x = u). { rewrite ulp_neq_0 by lra. unfold cexp. fold e. rewrite Xf. reflexivity. }
    assert (Xu : x + u <= bpow radix2 e). { rewrite <- UL. apply id_p_ulp_le_bpow; auto. }
    assert (XE : u / 2 <= x * eps). { replace (u / 2) with (bpow radix2 (e - 1) * eps). { apply Rmult_le_compat_r; auto. pose proof eps_bounds; lra. }
      rewrite UE. replace (e - 1)%Z with (e + -1)%Z by lia. rewrite bpow_plus. change (bpow radix2 (-1)) with (/ 2). field. }
    pose proof eps_bounds as [E1 E2].
    assert (Er : Rabs (rnd (x * x) - x * x) <= eps * (x * x)).
    { rewrite <- (Rabs_pos_eq (x * x)) at 3 by lra. apply rnd_error. rewrite Rabs_pos_eq by lra. change (-1022)%Z with (-511 + -511)%Z. rewrite bpow_plus. pose proof (bpow_gt_0 radix2 (-511)). nra. }
    apply Rabs_le_inv in Er. set (y := rnd (x * x)) in *.
    assert (XU : u < x) by (assert (x * eps <= x * (/ 1024)) by (apply Rmult_le_compat_l; lra); lra).
    assert (X1 : eps * (x * x) = x * eps * x) by ring.
    assert (X2 : x * eps * x <= (u - u * eps) * x). { apply Rmult_le_compat_r; [lra|]. rewrite UE. assert (x * eps <= (bpow radix2 e - u) * eps) by (apply Rmult_le_compat_r; lra). rewrite UE in H. lra. }
    assert (X3 : u / 2 * u <= x * eps * u) by (apply Rmult_le_compat_r; lra).
    apply Rle_antisym.
    + apply round_N_le_midp; auto. rewrite succ_eq_pos by lra. rewrite UL. apply sqrt_below; [nra|lra|]. nra.
    + apply round_N_ge_midp; auto. rewrite pred_eq_pos by lra. unfold pred_pos. fold e. rewrite Req_bool_false by exact NP. rewrite UL. apply sqrt_between; [lra|]. nra.
Qed.

Lemma fsqrt_val : forall x, finite x = true -> 0 <= val x -> val (fsqrt x) = rnd (sqrt (val x)) /\ finite (fsqrt x) = true.
Proof.
  intros x F P. destruct (@Bsqrt_correct 53 1024 prec64 emax64 mode_NE x) as (E & Fs & _). split; [exact E|]. unfold fsqrt. rewrite Fs.
  destruct x as [s|s| |s m e b]; try discriminate F; auto. destruct s; auto. exfalso. cbn in P. unfold F2R in P. cbn in P. pose proof (bpow_gt_0 radix2 e). assert (IZR (Z.neg m) < 0) by (apply IZR_lt; lia). nra.
Qed.

(** A chord along the x axis has exactly the length of its difference of abscissae. *)
Lemma norm_flat : forall o x y, finite x = true -> finite y = true -> val y = 0 -> bpow radix2 (-511) <= Rabs (val x) <= bpow radix2 511 ->
  finite (norm2_64 o x y) = true /\ val (norm2_64 o x y) = Rabs (val x).
Proof.
  intros o x y Fx Fy Z B. set (a := Rabs (val x)) in *. assert (A2 : val x * val x = a * a) by (unfold a; rewrite <- Rabs_mult, Rabs_pos_eq; nra).
  assert (A0 : 0 <= a) by apply Rabs_pos. assert (AH : a * a <= huge). { apply Rle_trans with (bpow radix2 511 * bpow radix2 511); [apply Rmult_le_compat; lra|]. rewrite <- bpow_plus. unfold huge. apply bpow_le. lia. }
  pose proof huge_big as HB. assert (R0 : rnd 0 = 0) by (apply round_0; apply valid_rnd_N).
  destruct (fmul_fine x x Fx Fx) as (Vx & Fxx); [rewrite A2, Rabs_pos_eq; nra|]. destruct (fmul_fine y y Fy Fy) as (Vy & Fyy); [rewrite Z, Rmult_0_l, Rabs_R0; lra|].
  rewrite A2 in Vx. rewrite Z, Rmult_0_l, R0 in Vy.
  assert (RA : 0 <= rnd (a * a) <= huge). { split; [apply rnd_nonneg; nra|]. rewrite <- (rnd_exact huge huge_format). apply rnd_le. exact AH. }
  assert (RR : rnd (rnd (a * a)) = rnd (a * a)) by (rewrite <- Vx; apply rnd_exact, format_val).
  assert (D : finite (dot2 o x y x y) = true /\ val (dot2 o x y x y) = rnd (a * a)).
  { destruct o; cbn [dot2].
    - destruct (fadd_ok _ _ Fxx Fyy) as (V & F); [rewrite Vx, Vy, Rplus_0_r, Rabs_pos_eq; lra|]. split; auto. rewrite V, Vx, Vy, Rplus_0_r. exact RR.
    - destruct (ffma_ok x x _ Fx Fx Fyy) as (V & F); [rewrite A2, Vy, Rplus_0_r, Rabs_pos_eq; nra|]. split; auto. rewrite V, A2, Vy, Rplus_0_r. reflexivity.
    - destruct (ffma_ok y y _ Fy Fy Fxx) as (V & F); [rewrite Z, Rmult_0_l, Rplus_0_l, Vx, Rabs_pos_eq; lra|]. split; auto. rewrite V, Z, Rmult_0_l, Rplus_0_l, Vx. exact RR. }
  destruct D as (F & V). destruct (fsqrt_val _ F) as (W & G); [rewrite V; lra|]. split; [exact G|]. unfold norm2_64. rewrite W, V. apply sqrt_of_square; [|lra].
  unfold a. apply generic_format_abs, format_val.
Qed.

(** Any chord. *)
Lemma norm_error : forall o x y, finite x = true -> finite y = true -> let S := sqrt (val x * val x + val y * val y) in
  bpow radix2 (-400) <= S <= bpow radix2 400 -> finite (norm2_64 o x y) = true /\ Rabs (val (norm2_64 o x y) - S) <= 5 * eps * S.
Proof.
  intros o x y Fx Fy S B. set (a := val x * val x) in *. set (b := val y * val y) in *. assert (A0 : 0 <= a) by (unfold a; nra). assert (B0 : 0 <= b) by (unfold b; nra).
  assert (SS : S * S = a + b) by (apply sqrt_def; lra). pose proof huge_big as HB. pose proof (bpow_gt_0 radix2 (-400)) as L0.
  assert (SH : S * S <= huge / 8). { apply Rle_trans with (bpow radix2 400 * bpow radix2 400); [apply Rmult_le_compat; lra|]. rewrite <- bpow_plus. unfold huge.
    replace (bpow radix2 1023 / 8) with (bpow radix2 1020) by (change 1023%Z with (1020 + 3)%Z; rewrite bpow_plus; change (bpow radix2 3) with 8; field). apply bpow_le. lia. }
  assert (SL : bpow radix2 (-800) <= S * S). { change (-800)%Z with (-400 + -400)%Z. rewrite bpow_plus. apply Rmult_le_compat; lra. }
  pose proof eps_bounds as [E1 E2]. pose proof eta_bounds as [H1 _].
  assert (ES : eta <= / 1024 * (eps * (S * S))).
  { apply Rle_trans with (/ 1024 * (eps * bpow radix2 (-800))); [|apply Rmult_le_compat_l; [lra|apply Rmult_le_compat_l; lra]].
    change (/ 1024) with (bpow radix2 (-10)). unfold eta, eps. rewrite <- !bpow_plus. apply bpow_le. lia. }
  assert (Q0 : 0 <= eps * (S * S)) by nra.
  destruct (times_error x x Fx Fx) as (Fxx & Ex); [fold a; rewrite Rabs_pos_eq; lra|]. destruct (times_error y y Fy Fy) as (Fyy & Ey); [fold b; rewrite Rabs_pos_eq; lra|].
  fold a in Ex. fold b in Ey. rewrite (Rabs_pos_eq a) in Ex by lra. rewrite (Rabs_pos_eq b) in Ey by lra.
  assert (EA : eps * a <= eps * (S * S)) by (apply Rmult_le_compat_l; lra). assert (EB : eps * b <= eps * (S * S)) by (apply Rmult_le_compat_l; lra).
  assert (EAB : eps * a + eps * b = eps * (S * S)) by (rewrite SS; ring).
  assert (EE : eps * (eps * (S * S)) <= / 1024 * (eps * (S * S))) by (apply Rmult_le_compat_r; lra).
  assert (Small : eps * (S * S) <= / 1024 * (S * S)) by (apply Rmult_le_compat_r; nra).
  apply Rabs_le_inv in Ex. apply Rabs_le_inv in Ey.
  assert (D : finite (dot2 o x y x y) = true /\ Rabs (val (dot2 o x y x y) - S * S) <= 3 * eps * (S * S)).
  { assert (G : forall z, Rabs (z - S * S) <= eps * (S * S) + 2 * eta -> Rabs z <= huge /\ Rabs (rnd z - S * S) <= 3 * eps * (S * S)).
    { intros z Hz. apply Rabs_le_inv in Hz. assert (Pz : 0 <= z) by lra. split; [rewrite Rabs_pos_eq; lra|].
      pose proof (rnd_error_any z) as Er. rewrite (Rabs_pos_eq z) in Er by lra. assert (eps * z <= eps * (S * S + (eps * (S * S) + 2 * eta))) by (apply Rmult_le_compat_l; lra).
      assert (eps * eta <= / 1024 * eta) by (apply Rmult_le_compat_r; lra). apply Rabs_le_inv in Er. apply Rabs_le. lra. }
    destruct o; cbn [dot2].
    - destruct (G (val (fmul x x) + val (fmul y y))) as (G1 & G2); [apply Rabs_le; lra|]. destruct (fadd_ok _ _ Fxx Fyy G1) as (V & F). rewrite V. auto.
    - destruct (G (a + val (fmul y y))) as (G1 & G2); [apply Rabs_le; lra|]. destruct (ffma_ok x x _ Fx Fx Fyy G1) as (V & F). rewrite V. auto.
    - destruct (G (b + val (fmul x x))) as (G1 & G2); [apply Rabs_le; lra|]. destruct (ffma_ok y y _ Fy Fy Fxx G1) as (V & F). rewrite V. auto. }
  destruct D as (F & D). set (s := val (dot2 o x y x y)) in *. apply Rabs_le_inv in D. assert (Ps : 0 <= s) by lra.
  destruct (fsqrt_val _ F Ps) as (W & G). split; [exact G|]. unfold norm2_64. rewrite W. fold s.
  assert (R : Rabs (sqrt s - S) <= 3 * eps * S).
  { assert (PR : 0 <= sqrt s) by apply sqrt_pos. assert (RR : sqrt s * sqrt s = s) by (apply sqrt_def; auto).
    assert (E0 : 0 <= eps * S) by nra. assert (EX : eps * S <= / 1024 * S) by (apply Rmult_le_compat_r; lra). apply Rabs_le. split.
    - assert (S - 3 * eps * S <= sqrt s); [|lra]. apply Rsqr_incr_0; [unfold Rsqr; rewrite RR|nra|auto]. nra.
    - assert (sqrt s <= S + 3 * eps * S); [|lra]. apply Rsqr_incr_0; [unfold Rsqr; rewrite RR|auto|nra]. nra. }
  apply Rabs_le_inv in R. assert (E0 : 0 <= eps * S) by nra. assert (EX : eps * S <= / 1024 * S) by (apply Rmult_le_compat_r; lra).
  assert (Er : Rabs (rnd (sqrt s) - sqrt s) <= eps * sqrt s).
  { rewrite <- (Rabs_pos_eq (sqrt s)) at 3 by apply sqrt_pos. apply rnd_error. rewrite Rabs_pos_eq by apply sqrt_pos. apply Rle_trans with (/ 2 * bpow radix2 (-400)); [|lra].
    change (/ 2) with (bpow radix2 (-1)). rewrite <- bpow_plus. apply bpow_le. lia. }
  assert (eps * sqrt s <= eps * (S + 3 * eps * S)) by (apply Rmult_le_compat_l; lra).
  assert (eps * (eps * S) <= / 1024 * (eps * S)) by (apply Rmult_le_compat_r; lra). apply Rabs_le_inv in Er. apply Rabs_le. lra.
Qed.
