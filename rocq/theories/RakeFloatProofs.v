(** Rake induced by skew in binary64. *)
From Coq Require Import Reals ZArith List Lra Lia Bool.
From Flocq Require Import Core BinarySingleNaN.
From Verif Require Import Base PpgFloatModel PpgFloatProofs FloatModel FloatSpec FloatProofs ShapeFloatModel ShapeFloatSpec ShapeFloatProofs SectionFloatModel SectionFloatProofs NacaFloatProofs7 WrapFloatModel WrapFloatSpec PitchFloatModel PitchFloatSpec PitchFloatProofs RakeFloatModel RakeFloatSpec.
Import ListNotations.
Open Scope R_scope.

Lemma c180_val : val c180 = 180.
Proof. unfold c180, B2R, F2R. cbn [Fnum Fexp cond_Zopp]. change (bpow radix2 (-45)) with (/ 35184372088832). lra. Qed.
Lemma degree_sf : B2SF (fdiv64 pi64 c180) = SpecFloat.S754_finite false 5030569068109113 (-58).
Proof. vm_compute. reflexivity. Qed.
Lemma degree_near : Rabs (val (fdiv64 pi64 c180) - PI / 180) <= 1.5 * eps * (PI / 180).
Proof.
  rewrite (sf_val _ _ _ degree_sf). unfold eps. change (bpow radix2 (-58)) with (/ 288230376151711744). change (bpow radix2 (-53)) with (/ 9007199254740992). pose proof pi_close. apply Rabs_le. lra.
Qed.

Lemma rounded : forall x, Rabs x <= huge -> Rabs (rnd x - x) <= eps * Rabs x + eta.
Proof. intros x _. apply rnd_error_any. Qed.

(** Tangent of an angle near the arc tangent of [v]. *)
Lemma tan_near : forall a v d, Rabs v <= 4 -> 0 <= d <= / 100000 -> Rabs (a - atan v) <= d -> - PI / 2 < a < PI / 2 /\ Rabs (tan a) <= 8 /\ Rabs (tan a - v) <= 1.01 * d * (1 + v * v).
Proof.
  intros a v d V D A. apply Rabs_le_inv in V. apply Rabs_le_inv in A.
  destruct (atan_slope 5 4) as (c & C & E). rewrite Rmin_right, Rmax_left in C by lra.
  assert (G : / 26 <= / (1 + c ^ 2)). { apply Rinv_le_contravar; [pose proof (pow2_ge_0 c); lra|]. assert (c ^ 2 <= 5 ^ 2) by (apply pow_incr; lra). lra. }
  assert (M : forall x y, x <= y -> atan x <= atan y). { intros x y [L| ->]; [left; apply atan_increasing, L|right; reflexivity]. }
  pose proof (M v 4 ltac:(lra)) as U1. pose proof (M (- (4)) v ltac:(lra)) as U2. rewrite atan_opp in U2. pose proof (atan_bound 5) as B5.
  assert (R : - PI / 2 < a < PI / 2) by lra. set (b := tan a). assert (Eb : atan b = a) by (apply atan_tan; lra).
  assert (B : - (5) <= b <= 5). { split; apply Rnot_lt_le; intros L; apply atan_increasing in L; rewrite Eb in L; [rewrite atan_opp in L|]; lra. }
  split; [exact R|]. split; [apply Rabs_le; lra|].
  destruct (atan_slope b v) as (k & K & Ek). rewrite Eb in Ek. assert (K5 : -5 <= k <= 5) by (split; [apply Rle_trans with (Rmin b v); [apply Rmin_glb; lra|lra]|apply Rle_trans with (Rmax b v); [lra|apply Rmax_lub; lra]]).
  assert (K0 : 0 <= k ^ 2) by apply pow2_ge_0. assert (K2 : k ^ 2 <= 25). { replace (k ^ 2) with (25 - (5 - k) * (5 + k)) by ring. assert (0 <= (5 - k) * (5 + k)) by (apply Rmult_le_pos; lra). lra. }
  assert (F : b - v = (1 + k ^ 2) * (a - atan v)) by (rewrite Ek; field; lra). assert (AB : Rabs (a - atan v) <= d) by (apply Rabs_le; lra).
  assert (N : Rabs (b - v) <= 26 * d). { rewrite F, Rabs_mult, (Rabs_pos_eq (1 + k ^ 2)) by lra. apply Rmult_le_compat; try lra. apply Rabs_pos. }
  assert (KV : Rabs (k - v) <= 26 * d). { apply Rabs_le_inv in N. apply Rabs_le. destruct (Rle_dec b v) as [L|L]; [rewrite Rmin_left, Rmax_right in K by lra|rewrite Rmin_right, Rmax_left in K by lra]; lra. }
  assert (Q : 1 + k ^ 2 <= 1.01 * (1 + v * v)). { replace (k ^ 2) with (v * v + (k - v) * (k + v)) by ring. assert (Rabs ((k - v) * (k + v)) <= 26 * d * 9) by (rewrite Rabs_mult; apply Rmult_le_compat; [apply Rabs_pos|apply Rabs_pos|exact KV|apply Rabs_le; lra]). pose proof (Rle_0_sqr v) as S. unfold Rsqr in S. apply Rabs_le_inv in H. lra. }
  rewrite F, Rabs_mult, (Rabs_pos_eq (1 + k ^ 2)) by lra. replace (1.01 * d * (1 + v * v)) with (1.01 * (1 + v * v) * d) by ring. apply Rmult_le_compat; try lra. apply Rabs_pos.
Qed.

Lemma rake_near : forall at64 tn64 p r s, accurate at64 atan -> accurate_tangent tn64 -> moderate_ordinate p -> moderate_radius r -> moderate_ordinate s -> Rabs (real p / (2 * PI * real r)) <= 4 ->
  let q := fmul (fmul r (radians64 s)) (tn64 (at64 (fdiv64 p (fmul (fmul two64 pi64) r)))) in let v := real p / (2 * PI * real r) in
  is_number q /\ Rabs (real q - real p * real s / 360) <= 9 * eps * (real r * Rabs (real s * PI / 180) * (1 + v * v)) + 8 * (1 + real r) * eta.
Proof.
  intros at64 tn64 p r s A T Mp Mr Ms V4 q v. fold v in V4. destruct (angle_near at64 p r A Mp Mr) as (Fa & Ea). fold v in Ea. unfold q. clear q. set (a := at64 _) in *.
  pose proof eps_bounds as [E1 _]. assert (E2 : eps <= / 1000000) by (unfold eps; change (bpow radix2 (-53)) with (/ 9007199254740992); lra). pose proof eta_bounds as [H1 H2]. pose proof pi_close as PC.
  destruct (tan_near (real a) v (3.3 * eps) V4 ltac:(lra) Ea) as (R & B8 & TV). destruct (T a Fa R B8) as (Ft & Et). set (t := tn64 a) in *.
  set (w := 1 + v * v) in *. pose proof (Rle_0_sqr v) as vv. unfold Rsqr in vv. assert (W1 : 1 <= w) by (unfold w; lra). assert (AV : Rabs v <= w / 2). { unfold w. assert (Rabs v * Rabs v = v * v) by (rewrite <- Rabs_mult; apply Rabs_pos_eq; lra). pose proof (Rle_0_sqr (Rabs v - 1)) as Q. unfold Rsqr in Q. lra. }
  assert (EW : 0 <= eps * w <= / 1000000 * w) by (split; [apply Rmult_le_pos; lra|apply Rmult_le_compat_r; lra]).
  assert (TB : Rabs (tan (real a)) <= 0.501 * w). { replace (tan (real a)) with ((tan (real a) - v) + v) by ring. eapply Rle_trans; [apply Rabs_triang|]. lra. }
  assert (TE : Rabs (real t - v) <= 6.4 * (eps * w)). { replace (real t - v) with ((real t - tan (real a)) + (tan (real a) - v)) by ring. eapply Rle_trans; [apply Rabs_triang|]. assert (eps * (1 + Rabs (tan (real a))) <= eps * (1.501 * w)) by (apply Rmult_le_compat_l; lra). lra. }
  assert (TT : Rabs (real t) <= 0.501 * w). { replace (real t) with ((real t - v) + v) by ring. eapply Rle_trans; [apply Rabs_triang|]. lra. }
  assert (T5 : Rabs (real t) <= 5). { replace (real t) with ((real t - tan (real a)) + (tan (real a) - v) + v) by ring. assert (w <= 17). { unfold w. assert (Rabs v * Rabs v <= 4 * 4) by (apply Rmult_le_compat; try apply Rabs_pos; lra). rewrite <- Rabs_mult, Rabs_pos_eq in H by lra. lra. } replace (real t - tan (real a) + (tan (real a) - v) + v) with ((real t - v) + v) by ring. eapply Rle_trans; [apply Rabs_triang|]. lra. }
  destruct Mr as (Fr & Br). destruct Ms as (Fs & Bs). pose proof (bpow_gt_0 radix2 (-300)) as P3. assert (r0 : 0 < real r) by lra. unfold is_number, real in Fr, Fs, Ft.
  pose proof degree_near as DN. set (deg := fdiv64 pi64 c180) in *. assert (Fd : finite deg = true) by reflexivity. assert (EPI : 0 <= eps * (PI / 180) <= / 1000000 * (PI / 180)) by (split; [apply Rmult_le_pos; lra|apply Rmult_le_compat_r; lra]). assert (DB : 0 < val deg < 1) by (apply Rabs_le_inv in DN; lra).
  set (S := real s * PI / 180) in *. set (rd := radians64 s) in *. assert (SS : Rabs S = Rabs (real s) * (PI / 180)). { unfold S, Rdiv. rewrite !Rabs_mult, (Rabs_pos_eq PI), (Rabs_pos_eq (/ 180)) by lra. ring. }
  pose proof (Rabs_pos (real s)) as S0. assert (AS0 : 0 <= Rabs S) by apply Rabs_pos. assert (ES : 0 <= eps * Rabs S <= / 1000000 * Rabs S) by (split; [apply Rmult_le_pos; lra|apply Rmult_le_compat_r; lra]).
  assert (SD : Rabs (val s * val deg - S) <= 1.5 * (eps * Rabs S)). { unfold S, real in *. replace (val s * val deg - val s * PI / 180) with (val s * (val deg - PI / 180)) by field. rewrite Rabs_mult. rewrite SS. replace (1.5 * (eps * (Rabs (val s) * (PI / 180)))) with (Rabs (val s) * (1.5 * eps * (PI / 180))) by ring. apply Rmult_le_compat_l; lra. }
  assert (SA : Rabs (val s * val deg) <= 1.001 * Rabs S). { replace (val s * val deg) with ((val s * val deg - S) + S) by ring. eapply Rle_trans; [apply Rabs_triang|]. lra. }
  assert (B3 : bpow radix2 300 * 4 <= bpow radix2 302) by (right; change 4 with (bpow radix2 2); rewrite <- bpow_plus; reflexivity). pose proof (bpow_gt_0 radix2 300) as P300.
  assert (S3 : Rabs S <= bpow radix2 300). { rewrite SS. rewrite <- (Rmult_1_r (bpow radix2 300)). apply Rmult_le_compat; lra. }
  destruct (fmul_fine s deg Fs Fd) as (Vr & Frd). { apply Rle_trans with (bpow radix2 302); [lra|unfold huge; apply bpow_le; lia]. } change (fmul s deg) with rd in Vr, Frd.
  pose proof (rnd_error_any (val s * val deg)) as R1. rewrite <- Vr in R1. assert (eps * Rabs (val s * val deg) <= eps * (1.001 * Rabs S)) by (apply Rmult_le_compat_l; lra).
  assert (RS : Rabs (val rd - S) <= 2.51 * (eps * Rabs S) + eta). { replace (val rd - S) with ((val rd - val s * val deg) + (val s * val deg - S)) by ring. eapply Rle_trans; [apply Rabs_triang|]. lra. }
  set (rr := real r) in *. set (m := rr * Rabs S) in *. assert (m0 : 0 <= m) by (unfold m; apply Rmult_le_pos; lra). assert (Em : 0 <= eps * m <= / 1000000 * m) by (split; [apply Rmult_le_pos; lra|apply Rmult_le_compat_r; lra]). assert (re : 0 <= rr * eta) by (apply Rmult_le_pos; lra). assert (Ere : 0 <= eps * (rr * eta) <= / 1000000 * (rr * eta)) by (split; [apply Rmult_le_pos; lra|apply Rmult_le_compat_r; lra]).
  assert (H3 : Rabs (rr * val rd - rr * S) <= 2.51 * (eps * m) + rr * eta). { replace (rr * val rd - rr * S) with (rr * (val rd - S)) by ring. rewrite Rabs_mult, (Rabs_pos_eq rr) by lra. replace (2.51 * (eps * m) + rr * eta) with (rr * (2.51 * (eps * Rabs S) + eta)) by (unfold m; ring). apply Rmult_le_compat_l; lra. }
  assert (RM : Rabs (rr * S) = m) by (unfold m; rewrite Rabs_mult, (Rabs_pos_eq rr) by lra; reflexivity).
  assert (H4 : Rabs (rr * val rd) <= 1.001 * m + rr * eta). { replace (rr * val rd) with ((rr * val rd - rr * S) + rr * S) by ring. eapply Rle_trans; [apply Rabs_triang|]. lra. }
  assert (MB : m <= bpow radix2 600). { unfold m. replace (bpow radix2 600) with (bpow radix2 300 * bpow radix2 300) by (rewrite <- bpow_plus; reflexivity). apply Rmult_le_compat; lra. }
  assert (RB : rr * eta <= bpow radix2 300). { rewrite <- (Rmult_1_r (bpow radix2 300)). apply Rmult_le_compat; lra. } assert (P36 : bpow radix2 300 <= bpow radix2 600) by (apply bpow_le; lia). assert (HB : 16 * bpow radix2 600 <= huge). { change 16 with (bpow radix2 4). rewrite <- bpow_plus. unfold huge. apply bpow_le. lia. }
  destruct (fmul_fine r rd Fr Frd) as (Vh & Fh). { fold (real r). fold rr. lra. } fold (real r) in Vh. fold rr in Vh. set (h := fmul r rd) in *.
  pose proof (rnd_error_any (rr * val rd)) as R2. rewrite <- Vh in R2. assert (eps * Rabs (rr * val rd) <= eps * (1.001 * m + rr * eta)) by (apply Rmult_le_compat_l; lra).
  assert (HS : Rabs (val h - rr * S) <= 3.52 * (eps * m) + (1.01 * (rr * eta) + eta)). { replace (val h - rr * S) with ((val h - rr * val rd) + (rr * val rd - rr * S)) by ring. eapply Rle_trans; [apply Rabs_triang|]. lra. }
  set (e := 1.01 * (rr * eta) + eta) in *. assert (e0 : 0 <= e) by (unfold e; lra). fold (real t) in *.
  assert (X : Rabs (val h * real t - rr * S * v) <= 8.2 * (eps * (m * w)) + 5 * e).
  { replace (val h * real t - rr * S * v) with ((val h - rr * S) * real t + rr * S * (real t - v)) by ring. eapply Rle_trans; [apply Rabs_triang|]. rewrite !(Rabs_mult (_ - _)), (Rabs_mult (rr * S)), RM.
    assert (Y1 : Rabs (val h - rr * S) * Rabs (real t) <= (3.52 * (eps * m) + e) * Rabs (real t)) by (apply Rmult_le_compat_r; [apply Rabs_pos|exact HS]). assert (Y2 : eps * m * Rabs (real t) <= eps * m * (0.501 * w)) by (apply Rmult_le_compat_l; lra). assert (Y3 : e * Rabs (real t) <= e * 5) by (apply Rmult_le_compat_l; lra). assert (Y4 : m * Rabs (real t - v) <= m * (6.4 * (eps * w))) by (apply Rmult_le_compat_l; lra).
    assert (Z : 0 <= eps * (m * w)) by (apply Rmult_le_pos; [lra|apply Rmult_le_pos; lra]). lra. }
  assert (GV : rr * S * v = real p * real s / 360). { unfold S, v, rr. field. split; [unfold rr in r0; lra|lra]. } rewrite GV in X. assert (XM : Rabs (real p * real s / 360) <= m * (w / 2)). { rewrite <- GV, Rabs_mult, RM. apply Rmult_le_compat_l; lra. }
  assert (Z : 0 <= m * w) by (apply Rmult_le_pos; lra). assert (EZ : 0 <= eps * (m * w) <= / 1000000 * (m * w)) by (split; [apply Rmult_le_pos; lra|apply Rmult_le_compat_r; lra]).
  assert (HT : Rabs (val h * real t) <= 0.501 * (m * w) + 5 * e). { replace (val h * real t) with ((val h * real t - real p * real s / 360) + real p * real s / 360) by ring. eapply Rle_trans; [apply Rabs_triang|]. lra. }
  assert (W17 : w <= 17). { unfold w. assert (Q : Rabs v * Rabs v <= 4 * 4) by (apply Rmult_le_compat; try apply Rabs_pos; lra). rewrite <- Rabs_mult, Rabs_pos_eq in Q by lra. lra. } assert (MW : m * w <= m * 17) by (apply Rmult_le_compat_l; lra).
  assert (eB : e <= 3 * bpow radix2 300) by (unfold e; assert (1 <= bpow radix2 300) by (change 1 with (bpow radix2 0); apply bpow_le; lia); lra).
  assert (HB' : 64 * bpow radix2 600 <= huge). { change 64 with (bpow radix2 6). rewrite <- bpow_plus. unfold huge. apply bpow_le. lia. }
  destruct (fmul_fine h t Fh Ft) as (Vq & Fq). { fold (real t). lra. } split; [exact Fq|]. fold (real t) in Vq. pose proof (rnd_error_any (val h * real t)) as R3. rewrite <- Vq in R3. assert (eps * Rabs (val h * real t) <= eps * (0.501 * (m * w) + 5 * e)) by (apply Rmult_le_compat_l; lra). assert (eps * e <= / 1000000 * e) by (apply Rmult_le_compat_r; lra).
  unfold real at 1. replace (val (fmul h t) - real p * real s / 360) with ((val (fmul h t) - val h * real t) + (val h * real t - real p * real s / 360)) by ring. eapply Rle_trans; [apply Rabs_triang|]. replace (9 * eps * (m * w)) with (9 * (eps * (m * w))) by ring. unfold e in *. lra.
Qed.

Lemma nearest54_tangent : accurate_tangent (nearest54 tan).
Proof.
  intros t _ _ B. unfold nearest54. set (z := ZnearestE (tan (real t) * 2 ^ 54)). set (g := tan (real t)) in *. pose proof eps_bounds as [E1 E2]. pose proof eta_bounds as [H1 H2]. assert (HB : 16 <= huge) by (change 16 with (bpow radix2 4); unfold huge; apply bpow_le; lia).
  assert (A : Rabs (IZR z * bpow radix2 (-54) - g) <= eps / 4).
  { pose proof (Znearest_half (fun x => negb (Z.even x)) (g * 2 ^ 54)) as Q. change (Znearest (fun x => negb (Z.even x)) (g * 2 ^ 54)) with z in Q. unfold eps. change (bpow radix2 (-53)) with (/ 9007199254740992). change (bpow radix2 (-54)) with (/ 18014398509481984).
    replace (2 ^ 54) with 18014398509481984 in Q by (cbn; lra). apply Rabs_le_inv in Q. apply Rabs_le. lra. }
  pose proof (@binary_normalize_correct 53 1024 prec64 emax64 mode_NE z (-54) false) as H. unfold F2R in H. cbn [Fnum Fexp] in H.
  change (round radix2 (SpecFloat.fexp 53 1024) (round_mode mode_NE) (IZR z * bpow radix2 (-54))) with (rnd (IZR z * bpow radix2 (-54))) in H. set (w := IZR z * bpow radix2 (-54)) in *.
  assert (W : Rabs w <= Rabs g + eps / 4). { replace w with ((w - g) + g) by ring. eapply Rle_trans; [apply Rabs_triang|]. lra. }
  rewrite Rlt_bool_true in H by (apply rnd_small; lra). destruct H as (V & F & _). split; [exact F|]. unfold real at 1. rewrite V.
  pose proof (rnd_error_any w) as R. assert (eps * Rabs w <= eps * (Rabs g + eps / 4)) by (apply Rmult_le_compat_l; lra). assert (E3 : eta <= eps * eps) by (unfold eta, eps; rewrite <- bpow_plus; apply bpow_le; lia). assert (eps * eps <= / 1024 * eps) by (apply Rmult_le_compat_r; lra). assert (0 <= eps * Rabs g) by (apply Rmult_le_pos; [lra|apply Rabs_pos]).
  replace (rnd w - g) with ((rnd w - w) + (w - g)) by ring. eapply Rle_trans; [apply Rabs_triang|]. lra.
Qed.

Lemma rakes : forall at64 tn64 pitch radii skew, accurate at64 atan -> accurate_tangent tn64 -> length pitch = length radii -> length skew = length radii ->
  exists rakes, induced_rake64 at64 tn64 pitch radii skew = Ok rakes /\ length rakes = length radii /\
  forall i p r s, nth_error pitch i = Some p -> nth_error radii i = Some r -> nth_error skew i = Some s -> moderate_ordinate p -> moderate_radius r -> moderate_ordinate s ->
  let v := real p / (2 * PI * real r) in Rabs v <= 4 ->
  exists q, nth_error rakes i = Some q /\ is_number q /\ Rabs (real q - real p * real s / 360) <= 9 * eps * (real r * Rabs (real s * PI / 180) * (1 + v * v)) + 8 * (1 + real r) * eta.
Proof.
  intros at64 tn64 pitch radii skew A T L1 L2. unfold induced_rake64, pitch_angles64, vzip. rewrite !map_length, L1, L2, !Nat.eqb_refl. cbn [bind].
  assert (M : length (map2 fmul radii (map radians64 skew)) = length radii) by (apply map2_len; rewrite map_length; congruence). assert (N : length (map2 fdiv64 pitch (map (fun r => fmul (fmul two64 pi64) r) radii)) = length radii) by (rewrite map2_len; [exact L1|rewrite map_length; exact L1]).
  unfold b64 in *. rewrite !map_length, M, N, Nat.eqb_refl. eexists. split; [reflexivity|]. split; [rewrite map2_len; [exact M|rewrite !map_length; congruence]|].
  intros i p r s Hp Hr Hs Mp Mr Ms V4. eexists. split; [|apply (rake_near at64 tn64 p r s A T Mp Mr Ms V4)].
  apply map2_nth; [apply map2_nth; [exact Hr|rewrite nth_error_map, Hs; reflexivity]|]. rewrite !nth_error_map, (map2_nth _ _ _ fdiv64 _ _ i p (fmul (fmul two64 pi64) r)) by (rewrite ?nth_error_map, ?Hr; auto). reflexivity.
Qed.
Lemma rakes_lengths : forall at64 tn64 pitch radii skew, length pitch <> length radii \/ length skew <> length radii -> induced_rake64 at64 tn64 pitch radii skew = Err ValueError.
Proof.
  intros at64 tn64 pitch radii skew D. unfold induced_rake64, pitch_angles64, vzip. rewrite !map_length.
  destruct (Nat.eqb_spec (length radii) (length skew)); [|reflexivity]. cbn [bind]. destruct (Nat.eqb_spec (length pitch) (length radii)); [|reflexivity]. exfalso. destruct D; congruence.
Qed.
(** Without skew there is no rake. *)
Lemma no_skew : forall at64 tn64 pitch radii skew i p r s, accurate at64 atan -> accurate_tangent tn64 -> length pitch = length radii -> length skew = length radii ->
  nth_error pitch i = Some p -> nth_error radii i = Some r -> nth_error skew i = Some s -> moderate_ordinate p -> moderate_radius r -> is_number s -> real s = 0 -> Rabs (real p / (2 * PI * real r)) <= 4 ->
  exists rakes q, induced_rake64 at64 tn64 pitch radii skew = Ok rakes /\ nth_error rakes i = Some q /\ is_number q /\ real q = 0.
Proof.
  intros at64 tn64 pitch radii skew i p r s A T L1 L2 Hp Hr Hs Mp Mr Fs Zs V4. unfold induced_rake64, pitch_angles64, vzip. rewrite !map_length, L1, L2, !Nat.eqb_refl. cbn [bind].
  assert (M : length (map2 fmul radii (map radians64 skew)) = length radii) by (apply map2_len; rewrite map_length; congruence). assert (N : length (map2 fdiv64 pitch (map (fun r => fmul (fmul two64 pi64) r) radii)) = length radii) by (rewrite map2_len; [exact L1|rewrite map_length; exact L1]).
  unfold b64 in *. rewrite !map_length, M, N, Nat.eqb_refl. eexists. eexists. split; [reflexivity|]. split.
  { apply map2_nth; [apply map2_nth; [exact Hr|rewrite nth_error_map, Hs; reflexivity]|]. rewrite !nth_error_map, (map2_nth _ _ _ fdiv64 _ _ i p (fmul (fmul two64 pi64) r)) by (rewrite ?nth_error_map, ?Hr; auto). reflexivity. }
  assert (Ms : moderate_ordinate s) by (split; [exact Fs|rewrite Zs, Rabs_R0; apply bpow_ge_0]). destruct (rake_near at64 tn64 p r s A T Mp Mr Ms V4) as (Fq & _). split; [exact Fq|].
  destruct (angle_near at64 p r A Mp Mr) as (Fa & Ea). pose proof eps_bounds as [E1 _]. assert (E2 : eps <= / 1000000) by (unfold eps; change (bpow radix2 (-53)) with (/ 9007199254740992); lra). destruct (tan_near _ _ (3.3 * eps) V4 ltac:(lra) Ea) as (R & B8 & _). destruct (T _ Fa R B8) as (Ft & _).
  destruct Mr as (Fr & _). unfold is_number, real in *. assert (RZ : rnd 0 = 0) by (apply round_0; apply valid_rnd_N). pose proof (bpow_ge_0 radix2 1023) as HP. fold huge in HP.
  destruct (fmul_fine s (fdiv64 pi64 c180) Fs eq_refl) as (V1 & F1); [rewrite Zs, Rmult_0_l, Rabs_R0; exact HP|]. rewrite Zs, Rmult_0_l, RZ in V1. fold (radians64 s) in V1, F1.
  destruct (fmul_fine r (radians64 s) Fr F1) as (V2 & F2); [rewrite V1, Rmult_0_r, Rabs_R0; exact HP|]. rewrite V1, Rmult_0_r, RZ in V2.
  destruct (fmul_fine _ _ F2 Ft) as (V3 & _); [rewrite V2, Rmult_0_l, Rabs_R0; exact HP|]. rewrite V3, V2, Rmult_0_l. exact RZ.
Qed.
