(** Pitch angles in binary64. *)
From Coq Require Import Reals ZArith List Lra Lia Bool Machin Ratan.
From Flocq Require Import Core BinarySingleNaN.
From Verif Require Import Base PpgFloatModel PpgFloatProofs FloatModel FloatSpec FloatProofs ShapeFloatModel ShapeFloatSpec ShapeFloatProofs SectionFloatModel SectionFloatProofs NacaFloatProofs7 WrapFloatModel WrapFloatSpec PitchFloatModel PitchFloatSpec.
Import ListNotations.
Open Scope R_scope.

Lemma pi_close : 3.14159265358979323 <= PI <= 3.14159265358979324.
Proof.
  pose proof (PI_2_3_7_ineq 9) as [A B]. unfold tg_alt, PI_2_3_7_tg, Ratan_seq in A, B. cbn [Nat.mul Nat.add sum_f_R0] in A, B.
  rewrite !INR_IZR_INZ in A, B. cbn [Z.of_nat Pos.of_succ_nat Pos.succ] in A, B. cbn [pow] in A, B. repeat rewrite INR_IZR_INZ in A. cbn [Z.of_nat Pos.of_succ_nat Pos.succ Nat.mul Nat.add] in A. lra.
Qed.
Lemma two_pi_sf : B2SF (fmul two64 pi64) = SpecFloat.S754_finite false 7074237752028440 (-50).
Proof. vm_compute. reflexivity. Qed.
Lemma two_pi_val : val (fmul two64 pi64) = 7074237752028440 * bpow radix2 (-50).
Proof. apply (sf_val _ _ _ two_pi_sf). Qed.
Lemma two_pi_near : Rabs (val (fmul two64 pi64) - 2 * PI) <= 0.4 * (eps * (2 * PI)).
Proof.
  rewrite two_pi_val. unfold eps. change (bpow radix2 (-50)) with (/ 1125899906842624). change (bpow radix2 (-53)) with (/ 9007199254740992). pose proof pi_close. apply Rabs_le. lra.
Qed.

Lemma nearest52_good : forall g, (forall t, Rabs (g t) <= 2) -> accurate (nearest52 g) g.
Proof.
  intros g G t _. unfold nearest52. set (z := ZnearestE (g (real t) * 2 ^ 52)). pose proof eps_bounds as [E1 E2]. pose proof huge_big as HB.
  assert (A : Rabs (IZR z * bpow radix2 (-52) - g (real t)) <= eps).
  { pose proof (Znearest_half (fun x => negb (Z.even x)) (g (real t) * 2 ^ 52)) as Q. change (Znearest (fun x => negb (Z.even x)) (g (real t) * 2 ^ 52)) with z in Q. unfold eps. change (bpow radix2 (-53)) with (/ 9007199254740992). change (bpow radix2 (-52)) with (/ 4503599627370496).
    replace (2 ^ 52) with 4503599627370496 in Q by (cbn; lra). apply Rabs_le_inv in Q. apply Rabs_le. lra. }
  pose proof (G (real t)) as B. apply Rabs_le_inv in B. pose proof A as A'. apply Rabs_le_inv in A'.
  assert (Z53 : (Z.abs z <= 2 ^ 53)%Z).
  { assert (Q : -2 - eps <= IZR z * bpow radix2 (-52) <= 2 + eps) by lra. unfold eps in Q. change (bpow radix2 (-53)) with (/ 9007199254740992) in Q. change (bpow radix2 (-52)) with (/ 4503599627370496) in Q. change (2 ^ 53)%Z with 9007199254740992%Z.
    assert (z < 9007199254740993)%Z by (apply lt_IZR; lra). assert (-9007199254740993 < z)%Z by (apply lt_IZR; lra). lia. }
  pose proof (@binary_normalize_correct 53 1024 prec64 emax64 mode_NE z (-52) false) as H. unfold F2R in H. cbn [Fnum Fexp] in H.
  change (round radix2 (SpecFloat.fexp 53 1024) (round_mode mode_NE) (IZR z * bpow radix2 (-52))) with (rnd (IZR z * bpow radix2 (-52))) in H.
  rewrite Rlt_bool_true in H by (apply rnd_small; apply Rabs_le; lra). destruct H as (V & F & _). split; [exact F|]. unfold real at 1. rewrite V. rewrite rnd_exact by (apply grid_format; [lia|exact Z53]). lra.
Qed.

Lemma atan_slope : forall u v, exists c, Rmin u v <= c <= Rmax u v /\ atan u - atan v = / (1 + c ^ 2) * (u - v).
Proof.
  assert (Q : forall u v, u < v -> exists c, u <= c <= v /\ atan v - atan u = / (1 + c ^ 2) * (v - u)).
  { intros u v L. destruct (MVT_cor2 atan (fun c => / (1 + c ^ 2)) u v L) as (c & E & C); [intros; apply derivable_pt_lim_atan|]. exists c. split; [lra|exact E]. }
  intros u v. destruct (Rtotal_order u v) as [L|[E|L]].
  - destruct (Q u v L) as (c & C & E). exists c. rewrite Rmin_left, Rmax_right by lra. split; [exact C|]. replace (u - v) with (- (v - u)) by ring. rewrite Ropp_mult_distr_r_reverse. lra.
  - subst. exists v. rewrite Rmin_left, Rmax_left by lra. split; lra.
  - destruct (Q v u L) as (c & C & E). exists c. rewrite Rmin_right, Rmax_left by lra. split; [exact C|exact E].
Qed.
Lemma atan_near : forall u v d h, 0 <= d <= / 1000 -> 0 <= h <= / 1000 -> Rabs (u - v) <= d * Rabs v + h -> Rabs (atan u - atan v) <= 0.503 * d + h.
Proof.
  intros u v d h D H E. destruct (atan_slope u v) as (c & C & ->).
  assert (NC : Rabs (c - v) <= Rabs (u - v)). { destruct (Rle_dec u v) as [L|L]; [rewrite Rmin_left, Rmax_right in C by lra; rewrite !Rabs_left1 by lra; lra|rewrite Rmin_right, Rmax_left in C by lra; rewrite !Rabs_pos_eq by lra; lra]. }
  assert (LV : Rabs v <= Rabs c + d * Rabs v + h). { replace v with (c - (c - v)) at 1 by ring. eapply Rle_trans; [apply Rabs_triang|]. rewrite Rabs_Ropp. lra. }
  pose proof (Rabs_pos v) as V0. pose proof (Rabs_pos c) as C0. assert (DV : d * Rabs v <= / 1000 * Rabs v) by (apply Rmult_le_compat_r; lra). assert (V1 : Rabs v <= 1000 / 999 * (Rabs c + h)) by lra.
  assert (c ^ 2 = Rabs c * Rabs c) as -> by (rewrite <- Rabs_mult, Rabs_pos_eq by apply Rle_0_sqr; ring). set (k := Rabs c) in *. assert (KK : 0 <= k * k) by (apply Rmult_le_pos; lra). assert (K1 : 2 * k <= 1 + k * k) by (pose proof (Rle_0_sqr (k - 1)) as Q; unfold Rsqr in Q; lra).
  rewrite Rabs_mult, (Rabs_pos_eq (/ _)) by (apply Rlt_le, Rinv_0_lt_compat; lra). apply Rmult_le_reg_l with (1 + k * k); [lra|]. rewrite <- Rmult_assoc, Rinv_r, Rmult_1_l by lra. eapply Rle_trans; [exact E|].
  assert (DK : d * Rabs v <= d * (0.503 * (1 + k * k))). { apply Rmult_le_compat_l; [lra|]. assert (k + h <= (1 + k * k) / 2 + / 1000) by lra. lra. }
  assert (h <= h * (1 + k * k)) by (rewrite <- (Rmult_1_r h) at 1; apply Rmult_le_compat_l; lra). lra.
Qed.

Lemma slope_near : forall p r, moderate_ordinate p -> moderate_radius r -> let q := fdiv64 p (fmul (fmul two64 pi64) r) in let v := real p / (2 * PI * real r) in
  is_number q /\ Rabs (real q - v) <= 2.45 * eps * Rabs v + eta.
Proof.
  intros p r (Fp & Bp) (Fr & Br) q v. unfold is_number, real in *. pose proof pi_close as PC. pose proof two_pi_near as TP. pose proof (bpow_gt_0 radix2 (-300)) as P. pose proof eps_bounds as [E1 _]. assert (E2 : eps <= / 100000) by (unfold eps; change (bpow radix2 (-53)) with (/ 9007199254740992); lra).
  assert (F2 : finite (fmul two64 pi64) = true) by reflexivity. set (w := fmul two64 pi64) in *. assert (r0 : 0 < val r) by lra. assert (EP : 0 <= eps * (2 * PI) <= / 100000 * (2 * PI)) by (split; [apply Rmult_le_pos; lra|apply Rmult_le_compat_r; lra]). assert (W : 6 <= val w <= 7). { apply Rabs_le_inv in TP. lra. }
  set (a := 2 * PI * val r). assert (a0 : 0 < a) by (unfold a; apply Rmult_lt_0_compat; lra). assert (EA : 0 <= eps * a <= / 100000 * a) by (split; [apply Rmult_le_pos; lra|apply Rmult_le_compat_r; lra]).
  assert (WA : Rabs (val w * val r - a) <= 0.4 * (eps * a)). { unfold a. replace (val w * val r - 2 * PI * val r) with ((val w - 2 * PI) * val r) by ring. rewrite Rabs_mult, (Rabs_pos_eq (val r)) by lra. replace (0.4 * (eps * (2 * PI * val r))) with (0.4 * (eps * (2 * PI)) * val r) by ring. apply Rmult_le_compat_r; lra. }
  apply Rabs_le_inv in WA. assert (WR : bpow radix2 (-300) <= val w * val r <= bpow radix2 303). { split; [apply Rle_trans with (1 * val r); [lra|apply Rmult_le_compat_r; lra]|]. replace (bpow radix2 303) with (bpow radix2 3 * bpow radix2 300) by (rewrite <- bpow_plus; reflexivity). change (bpow radix2 3) with 8. apply Rmult_le_compat; lra. }
  destruct (fmul_fine w r F2 Fr) as (Vd & Fd). { rewrite Rabs_pos_eq by lra. apply Rle_trans with (bpow radix2 303); [lra|unfold huge; apply bpow_le; lia]. }
  pose proof (rnd_error (val w * val r)) as D. rewrite <- Vd in D. rewrite (Rabs_pos_eq (val w * val r)) in D by lra. specialize (D (Rle_trans _ _ _ (bpow_le radix2 (-1022) (-300) ltac:(lia)) (proj1 WR))). fold eps in D. apply Rabs_le_inv in D.
  set (d := fmul w r) in *. assert (EWR : eps * (val w * val r) <= 1.001 * (eps * a)). { apply Rle_trans with (eps * (1.001 * a)); [apply Rmult_le_compat_l; lra|lra]. }
  assert (DA : Rabs (val d - a) <= 1.401 * (eps * a)) by (apply Rabs_le; lra). apply Rabs_le_inv in DA. assert (d0 : 0 < val d) by lra.
  assert (DL : bpow radix2 (-301) <= val d). { replace (bpow radix2 (-301)) with (bpow radix2 (-300) / 2) by (change (bpow radix2 (-301)) with (bpow radix2 (-1 + -300)); rewrite bpow_plus; change (bpow radix2 (-1)) with (/ 2); lra). assert (val r <= a) by (unfold a; rewrite <- (Rmult_1_l (val r)) at 1; apply Rmult_le_compat_r; lra). lra. }
  assert (X : Rabs (val p / val d - v) <= 1.42 * eps * Rabs v). { unfold v. fold a. replace (val p / val d - val p / a) with ((val p / a) * ((a - val d) / val d)) by (field; lra). rewrite Rabs_mult. rewrite (Rmult_comm (Rabs _)). apply Rmult_le_compat_r; [apply Rabs_pos|]. unfold Rdiv. rewrite Rabs_mult, (Rabs_pos_eq (/ val d)) by (apply Rlt_le, Rinv_0_lt_compat; lra). apply Rmult_le_reg_r with (val d); [lra|]. rewrite Rmult_assoc, Rinv_l, Rmult_1_r by lra.
    apply Rle_trans with (1.401 * (eps * a)); [apply Rabs_le; lra|]. assert (eps * (0.999 * a) <= eps * val d) by (apply Rmult_le_compat_l; lra). lra. }
  assert (B : Rabs (val p / val d) <= huge). { unfold Rdiv. rewrite Rabs_mult, (Rabs_pos_eq (/ val d)) by (apply Rlt_le, Rinv_0_lt_compat; lra). apply Rmult_le_reg_r with (val d); [lra|]. rewrite Rmult_assoc, Rinv_l, Rmult_1_r by lra. apply Rle_trans with (bpow radix2 601 * bpow radix2 (-301)); [rewrite <- bpow_plus; exact Bp|]. apply Rmult_le_compat; [apply bpow_ge_0|apply bpow_ge_0|unfold huge; apply bpow_le; lia|lra]. }
  destruct (fdiv_fine p d Fp) as (Vq & Fq); [lra|exact B|]. fold q in Vq, Fq. split; [exact Fq|]. pose proof (rnd_error_any (val p / val d)) as Q. rewrite <- Vq in Q.
  assert (PV : Rabs (val p / val d) <= 1.001 * Rabs v). { replace (val p / val d) with ((val p / val d - v) + v) by ring. eapply Rle_trans; [apply Rabs_triang|]. pose proof (Rabs_pos v). assert (1.42 * eps * Rabs v <= 0.001 * Rabs v) by (apply Rmult_le_compat_r; lra). lra. }
  assert (eps * Rabs (val p / val d) <= eps * (1.001 * Rabs v)) by (apply Rmult_le_compat_l; lra). assert (0 <= eps * Rabs v) by (apply Rmult_le_pos; [lra|apply Rabs_pos]).
  replace (val q - v) with ((val q - val p / val d) + (val p / val d - v)) by ring. eapply Rle_trans; [apply Rabs_triang|]. lra.
Qed.

Lemma angle_near : forall at64 p r, accurate at64 atan -> moderate_ordinate p -> moderate_radius r -> let a := at64 (fdiv64 p (fmul (fmul two64 pi64) r)) in
  is_number a /\ Rabs (real a - atan (real p / (2 * PI * real r))) <= 3.3 * eps.
Proof.
  intros at64 p r A Mp Mr a. destruct (slope_near p r Mp Mr) as (Fq & Eq). destruct (A _ Fq) as (Fa & Ea). fold a in Fa, Ea. split; [exact Fa|].
  pose proof eps_bounds as [E1 _]. assert (E2 : eps <= / 100000) by (unfold eps; change (bpow radix2 (-53)) with (/ 9007199254740992); lra). pose proof eta_bounds as [H1 _]. assert (E3 : eta <= eps * eps) by (unfold eta, eps; rewrite <- bpow_plus; apply bpow_le; lia). assert (eps * eps <= / 100000 * eps) by (apply Rmult_le_compat_r; lra).
  apply atan_near in Eq; [|lra|lra]. set (u := real (fdiv64 p _)) in *. replace (real a - atan (real p / (2 * PI * real r))) with ((real a - atan u) + (atan u - atan (real p / (2 * PI * real r)))) by ring. eapply Rle_trans; [apply Rabs_triang|]. lra.
Qed.

Lemma map2_nth : forall A B C (f : A -> B -> C) a b i x y, nth_error a i = Some x -> nth_error b i = Some y -> nth_error (map2 f a b) i = Some (f x y).
Proof. induction a as [|x a IH]; intros [|y b] [|i] u v H G; cbn in *; try discriminate; [congruence|apply IH; assumption]. Qed.
Lemma map2_len : forall A B C (f : A -> B -> C) a b, length a = length b -> length (map2 f a b) = length a.
Proof. induction a as [|x a IH]; intros [|y b] L; cbn in *; try discriminate; [reflexivity|f_equal; apply IH; congruence]. Qed.
Lemma angles : forall at64 pitch radii, accurate at64 atan -> length pitch = length radii -> exists angles, pitch_angles64 at64 pitch radii = Ok angles /\ length angles = length radii /\
  forall i p r, nth_error pitch i = Some p -> nth_error radii i = Some r -> moderate_ordinate p -> moderate_radius r ->
  exists a, nth_error angles i = Some a /\ is_number a /\ Rabs (real a - atan (real p / (2 * PI * real r))) <= 3.3 * eps.
Proof.
  intros at64 pitch radii A L. unfold pitch_angles64, vzip. rewrite map_length, L, Nat.eqb_refl. cbn [bind]. eexists. split; [reflexivity|]. split; [rewrite map_length, map2_len by (rewrite map_length; exact L); exact L|].
  intros i p r Hp Hr Mp Mr. rewrite nth_error_map, (map2_nth _ _ _ _ _ _ i p (fmul (fmul two64 pi64) r)) by (rewrite ?nth_error_map, ?Hr; auto). eexists. split; [reflexivity|]. apply (angle_near at64 p r A Mp Mr).
Qed.
Lemma angles_lengths : forall at64 pitch radii, length pitch <> length radii -> pitch_angles64 at64 pitch radii = Err ValueError.
Proof. intros at64 pitch radii L. unfold pitch_angles64, vzip. rewrite map_length. destruct (Nat.eqb_spec (length pitch) (length radii)); [contradiction|reflexivity]. Qed.
Lemma atan_two : forall t, Rabs (atan t) <= 2.
Proof. intros t. pose proof (atan_bound t). pose proof pi_close. apply Rabs_le. lra. Qed.
