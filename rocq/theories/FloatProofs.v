(** Elementwise facts about binary64. *)
From Coq Require Import Reals ZArith List Lra Lia Bool.
From Flocq Require Import Core BinarySingleNaN Relative Plus_error.
From Verif Require Import Base PpgFloatModel PpgFloatProofs ProfileModel FloatModel FloatSpec.
Import ListNotations.
Open Scope R_scope.

Lemma eps_bounds : 0 < eps <= / 1024.
Proof.
  unfold eps. split; [apply bpow_gt_0|]. replace (/ 1024) with (bpow radix2 (-10)) by (cbn; lra). apply bpow_le. lia.
Qed.
Lemma eta_bounds : 0 < eta <= eps.
Proof. unfold eta, eps. split; [apply bpow_gt_0|apply bpow_le; lia]. Qed.
Lemma u_ro_eps : u_ro radix2 53 = eps.
Proof. unfold u_ro, eps. change (- (53) + 1)%Z with (-53 + 1)%Z. rewrite bpow_plus. change (bpow radix2 1) with 2. field. Qed.

Lemma huge_format : generic_format radix2 fexp64 huge.
Proof. apply generic_format_bpow. cbn. lia. Qed.
Lemma rnd_small : forall x, Rabs x <= huge -> Rabs (rnd x) < bpow radix2 1024.
Proof.
  intros x H. apply Rle_lt_trans with huge; [|unfold huge; apply bpow_lt; lia].
  apply abs_round_le_generic; auto using huge_format. apply valid64. apply valid_rnd_N.
Qed.
Lemma rnd_le : forall x y, x <= y -> rnd x <= rnd y.
Proof. intros x y H. apply round_le; auto. apply valid64. apply valid_rnd_N. Qed.
Lemma rnd_opp : forall x, rnd (- x) = - rnd x.
Proof. intros x. apply round_NE_opp. Qed.

(** Errors. *)
Lemma rnd_add_error : forall x y : b64, Rabs (rnd (val x + val y) - (val x + val y)) <= eps * Rabs (val x + val y).
Proof.
  intros x y. destruct (@FLT_plus_error_N_ex radix2 (-1074) 53 prec64 (fun z => negb (Z.even z)) (val x) (val y) (format_val x) (format_val y)) as (d & Hd & E).
  rewrite E. rewrite u_ro_eps in Hd. pose proof eps_bounds as [P _].
  replace ((val x + val y) * (1 + d) - (val x + val y)) with (d * (val x + val y)) by ring. rewrite Rabs_mult.
  apply Rmult_le_compat_r; [apply Rabs_pos|]. eapply Rle_trans; [exact Hd|]. apply Rmult_le_reg_r with (1 + eps); [lra|].
  unfold Rdiv. rewrite Rmult_assoc, Rinv_l by lra. nra.
Qed.
Lemma rnd_error_any : forall x, Rabs (rnd x - x) <= eps * Rabs x + eta.
Proof.
  intros x. destruct (error_N_FLT radix2 (-1074) 53 eq_refl (fun z => negb (Z.even z)) x) as (d & h & Hd & Hh & _ & E).
  rewrite E. replace (x * (1 + d) + h - x) with (d * x + h) by ring. eapply Rle_trans; [apply Rabs_triang|]. rewrite Rabs_mult.
  apply Rplus_le_compat.
  - apply Rmult_le_compat_r; [apply Rabs_pos|]. change (/ 2 * bpow radix2 (- (53) + 1)) with (u_ro radix2 53) in Hd. rewrite u_ro_eps in Hd. exact Hd.
  - replace eta with (/ 2 * bpow radix2 (-1074)); auto. unfold eta. change (-1074)%Z with (-1075 + 1)%Z. rewrite bpow_plus. change (bpow radix2 1) with 2. field.
Qed.

(** Operations. *)
Lemma fadd_ok : forall x y, finite x = true -> finite y = true -> Rabs (val x + val y) <= huge ->
  val (fadd x y) = rnd (val x + val y) /\ finite (fadd x y) = true.
Proof.
  intros x y Fx Fy B. apply rnd_small in B. pose proof (@Bplus_correct 53 1024 prec64 emax64 mode_NE x y Fx Fy) as H.
  change (round radix2 (SpecFloat.fexp 53 1024) (round_mode mode_NE) (val x + val y)) with (rnd (val x + val y)) in H.
  rewrite Rlt_bool_true in H by exact B. destruct H as (H1 & H2 & _). auto.
Qed.
Lemma fsub_ok : forall x y, finite x = true -> finite y = true -> Rabs (val x - val y) <= huge ->
  val (fsub x y) = rnd (val x - val y) /\ finite (fsub x y) = true.
Proof.
  intros x y Fx Fy B. apply rnd_small in B. pose proof (@Bminus_correct 53 1024 prec64 emax64 mode_NE x y Fx Fy) as H.
  change (round radix2 (SpecFloat.fexp 53 1024) (round_mode mode_NE) (val x - val y)) with (rnd (val x - val y)) in H.
  rewrite Rlt_bool_true in H by exact B. destruct H as (H1 & H2 & _). auto.
Qed.
Lemma fmul_fine : forall x y, finite x = true -> finite y = true -> Rabs (val x * val y) <= huge ->
  val (fmul x y) = rnd (val x * val y) /\ finite (fmul x y) = true.
Proof. intros x y Fx Fy B. apply fmul_ok; auto. apply rnd_small; auto. Qed.
Lemma ffma_ok : forall x y z, finite x = true -> finite y = true -> finite z = true -> Rabs (val x * val y + val z) <= huge ->
  val (ffma x y z) = rnd (val x * val y + val z) /\ finite (ffma x y z) = true.
Proof.
  intros x y z Fx Fy Fz B. apply rnd_small in B. pose proof (@Bfma_correct 53 1024 prec64 emax64 mode_NE x y z Fx Fy Fz) as H. cbv zeta in H.
  change (round radix2 (SpecFloat.fexp 53 1024) (round_mode mode_NE) (val x * val y + val z)) with (rnd (val x * val y + val z)) in H.
  rewrite Rlt_bool_true in H by exact B. destruct H as (H1 & H2 & _). auto.
Qed.
Lemma fneg_val : forall x, val (fneg x) = - val x.
Proof. intros x. apply B2R_Bopp. Qed.
Lemma fneg_finite : forall x, finite (fneg x) = finite x.
Proof. intros x. apply is_finite_Bopp. Qed.
Lemma half64_val : val half64 = / 2 /\ finite half64 = true.
Proof. split; [|reflexivity]. unfold B2R, half64, F2R. cbn. lra. Qed.
Lemma minus_one_val : val minus_one = -1 /\ finite minus_one = true.
Proof. split; [|reflexivity]. unfold B2R, minus_one, F2R. cbn. lra. Qed.

(** Multiplication by -1 is negation of the sign bit for every value. *)
Lemma times_minus_one : forall x, fmul x minus_one = fneg x.
Proof.
  intros x. destruct x as [s|s| |s m e H]; try (destruct s; reflexivity); [reflexivity|].
  set (x := B754_finite s m e H : b64). destruct minus_one_val as (V1 & F1).
  pose proof (@Bmult_correct 53 1024 prec64 emax64 mode_NE x minus_one) as C. cbv zeta in C.
  change (round radix2 (SpecFloat.fexp 53 1024) (round_mode mode_NE) (val x * val minus_one)) with (rnd (val x * val minus_one)) in C.
  rewrite V1 in C. replace (val x * -1) with (- val x) in C by ring. rewrite rnd_opp, rnd_exact in C by apply format_val.
  rewrite Rlt_bool_true in C by (rewrite Rabs_Ropp; apply (@abs_B2R_lt_emax 53 1024)).
  destruct C as (A & B & S). cbn [is_finite andb] in B. change (finite x) with true in B. rewrite F1 in B. cbn [andb] in B.
  apply B2R_Bsign_inj; auto.
  - rewrite fneg_val. exact A.
  - unfold fmul. rewrite S.
    + unfold x, fneg. cbn. destruct s; reflexivity.
    + revert B. case (@Bmult 53 1024 prec64 emax64 mode_NE x minus_one); auto.
Qed.

Lemma fneg_twice : forall x, fneg (fneg x) = x.
Proof. intros x. apply Bopp_involutive. Qed.

(** Translation. *)
Lemma shift_error : forall x v, finite x = true -> finite v = true -> Rabs (val x + val v) <= huge ->
  finite (fadd x v) = true /\ Rabs (val (fadd x v) - (val x + val v)) <= eps * Rabs (val x + val v).
Proof. intros x v Fx Fv B. destruct (fadd_ok x v Fx Fv B) as (E & F). split; auto. rewrite E. apply rnd_add_error. Qed.

Lemma shift_monotone : forall x y v, finite x = true -> finite y = true -> finite v = true ->
  Rabs (val x + val v) <= huge -> Rabs (val y + val v) <= huge -> val x <= val y -> val (fadd x v) <= val (fadd y v).
Proof.
  intros x y v Fx Fy Fv Bx By H. destruct (fadd_ok x v Fx Fv Bx) as (-> & _). destruct (fadd_ok y v Fy Fv By) as (-> & _).
  apply rnd_le. lra.
Qed.

Lemma back_error : forall x v, finite x = true -> finite v = true -> Rabs (val x) <= huge / 4 -> Rabs (val v) <= huge / 4 ->
  finite (fadd (fadd x v) (fneg v)) = true /\
  Rabs (val (fadd (fadd x v) (fneg v)) - val x) <= 2 * eps * (Rabs (val x) + Rabs (val x + val v)).
Proof.
  intros x v Fx Fv Bx Bv. assert (HP : 0 < huge) by apply bpow_gt_0. pose proof eps_bounds as [E1 E2].
  pose proof (Rabs_triang (val x) (val v)) as T.
  destruct (shift_error x v Fx Fv) as (F1 & D1); [lra|].
  set (y := fadd x v) in *.
  assert (N : finite (fneg v) = true) by (rewrite fneg_finite; auto).
  assert (B : Rabs (val y + val (fneg v) - val x) <= eps * Rabs (val x + val v)).
  { rewrite fneg_val. replace (val y + - val v - val x) with (val y - (val x + val v)) by ring. exact D1. }
  assert (B' : Rabs (val y + val (fneg v)) <= Rabs (val x) + eps * Rabs (val x + val v)).
  { replace (val y + val (fneg v)) with (val x + (val y + val (fneg v) - val x)) by ring. eapply Rle_trans; [apply Rabs_triang|]. lra. }
  pose proof (Rabs_pos (val x)). pose proof (Rabs_pos (val x + val v)).
  assert (Q : eps * Rabs (val x + val v) <= Rabs (val x + val v)) by (rewrite <- (Rmult_1_l (Rabs _)) at 2; apply Rmult_le_compat_r; lra).
  destruct (shift_error y (fneg v) F1 N) as (F2 & D2); [lra|]. split; auto.
  assert (Q2 : eps * Rabs (val y + val (fneg v)) <= eps * (Rabs (val x) + Rabs (val x + val v))) by (apply Rmult_le_compat_l; lra).
  assert (Q3 : 0 <= eps * Rabs (val x)) by (apply Rmult_le_pos; lra).
  replace (val (fadd y (fneg v)) - val x) with (val (fadd y (fneg v)) - (val y + val (fneg v)) + (val y + val (fneg v) - val x)) by ring.
  eapply Rle_trans; [apply Rabs_triang|]. nra.
Qed.

(** Grids. *)
Lemma grid_format : forall e n, (-1074 <= e)%Z -> (Z.abs n <= 2 ^ 53)%Z -> generic_format radix2 fexp64 (IZR n * bpow radix2 e).
Proof.
  intros e n He Hn. destruct (Z.eq_dec (Z.abs n) (2 ^ 53)) as [E|E].
  - assert (D : IZR n * bpow radix2 e = bpow radix2 (53 + e) \/ IZR n * bpow radix2 e = - bpow radix2 (53 + e)).
    { rewrite bpow_plus. change (bpow radix2 53) with (IZR (2 ^ 53)). rewrite <- E. destruct (Z.abs_eq_or_opp n) as [-> | ->]; [left|right; rewrite opp_IZR]; ring. }
    assert (G : generic_format radix2 fexp64 (bpow radix2 (53 + e))) by (apply generic_format_bpow; unfold FLT_exp; lia).
    destruct D as [-> | ->]; auto. apply generic_format_opp. auto.
  - apply generic_format_FLT. exists (Float radix2 n e); auto. cbn [Fnum]. change (Zpower radix2 53) with (2 ^ 53)%Z. lia.
Qed.
Lemma grid_small : forall e n, (e <= 970)%Z -> (Z.abs n <= 2 ^ 53)%Z -> Rabs (IZR n * bpow radix2 e) <= huge.
Proof.
  intros e n He Hn. rewrite Rabs_mult, (Rabs_pos_eq (bpow radix2 e)) by apply bpow_ge_0. rewrite <- abs_IZR.
  apply Rle_trans with (bpow radix2 53 * bpow radix2 e).
  - apply Rmult_le_compat_r; [apply bpow_ge_0|]. change (bpow radix2 53) with (IZR (2 ^ 53)). apply IZR_le. auto.
  - rewrite <- bpow_plus. apply bpow_le. lia.
Qed.
Lemma shift_grid : forall e x v, (-1074 <= e <= 970)%Z -> finite x = true -> finite v = true -> on_grid e (val x) -> on_grid e (val v) ->
  val (fadd x v) = val x + val v /\ finite (fadd x v) = true.
Proof.
  intros e x v He Fx Fv (n & En & Bn) (m & Em & Bm).
  assert (S : val x + val v = IZR (n + m) * bpow radix2 e) by (rewrite En, Em, plus_IZR; ring).
  assert (B : (Z.abs (n + m) <= 2 ^ 53)%Z) by (change (2 ^ 53)%Z with (2 ^ 52 + 2 ^ 52)%Z; lia).
  destruct (fadd_ok x v Fx Fv) as (E & F). { rewrite S. apply grid_small; auto; lia. }
  split; auto. rewrite E, S. apply rnd_exact. apply grid_format; auto; lia.
Qed.
Lemma back_grid : forall e x v, (-1074 <= e <= 970)%Z -> finite x = true -> finite v = true -> on_grid e (val x) -> on_grid e (val v) ->
  val (fadd (fadd x v) (fneg v)) = val x.
Proof.
  intros e x v He Fx Fv Gx Gv. destruct (shift_grid e x v He Fx Fv Gx Gv) as (E & F).
  assert (Fn : finite (fneg v) = true) by (rewrite fneg_finite; auto).
  assert (S : val (fadd x v) + val (fneg v) = val x) by (rewrite E, fneg_val; ring).
  destruct (fadd_ok (fadd x v) (fneg v) F Fn) as (E2 & _).
  - rewrite S. destruct Gx as (n & -> & B). apply grid_small; [lia|]. change (2 ^ 53)%Z with (2 ^ 52 + 2 ^ 52)%Z. lia.
  - rewrite E2, S. apply rnd_exact, format_val.
Qed.

(** The average of two numbers lies between them. *)
Lemma average_between : forall a b, finite a = true -> finite b = true -> Rabs (val a + val b) <= huge -> val a <= val b ->
  finite (fmul half64 (fadd a b)) = true /\ val a <= val (fmul half64 (fadd a b)) <= val b.
Proof.
  intros a b Fa Fb B H. destruct (fadd_ok a b Fa Fb B) as (E & F). destruct half64_val as (V & Fh).
  assert (D : forall x : b64, Rabs (2 * val x) <= huge -> rnd (2 * val x) = 2 * val x).
  { intros x _. apply rnd_exact. pose proof (format_val x) as G. apply FLT_format_generic in G; [|reflexivity]. destruct G as [f Ef L1 L2].
    apply generic_format_FLT. exists (Float radix2 (Fnum f) (Fexp f + 1)); cbn [Fnum Fexp]; auto; [|lia].
    rewrite Ef. unfold F2R. cbn [Fnum Fexp]. rewrite bpow_plus. change (bpow radix2 1) with 2. ring. }
  assert (D' : forall x : b64, generic_format radix2 fexp64 (2 * val x)).
  { intros x. pose proof (format_val x) as G. apply FLT_format_generic in G; [|reflexivity]. destruct G as [f Ef L1 L2].
    apply generic_format_FLT. exists (Float radix2 (Fnum f) (Fexp f + 1)); cbn [Fnum Fexp]; auto; [|lia].
    rewrite Ef. unfold F2R. cbn [Fnum Fexp]. rewrite bpow_plus. change (bpow radix2 1) with 2. ring. }
  assert (L : 2 * val a <= val (fadd a b)). { rewrite E. rewrite <- (rnd_exact (2 * val a)) by auto. apply rnd_le. lra. }
  assert (U : val (fadd a b) <= 2 * val b). { rewrite E. rewrite <- (rnd_exact (2 * val b)) by auto. apply rnd_le. lra. }
  assert (Hs : Rabs (val (fadd a b)) <= huge).
  { rewrite E. apply abs_round_le_generic; auto using huge_format. apply valid64. apply valid_rnd_N. }
  destruct (fmul_fine half64 (fadd a b) Fh F) as (E2 & F2).
  { rewrite V, Rabs_mult, (Rabs_pos_eq (/ 2)) by lra. pose proof (Rabs_pos (val (fadd a b))). lra. }
  split; auto. rewrite E2, V. split.
  - rewrite <- (rnd_exact (val a)) by apply format_val. apply rnd_le. lra.
  - rewrite <- (rnd_exact (val b)) by apply format_val. apply rnd_le. lra.
Qed.

(** Scaling. *)
Lemma times_error : forall x k, finite x = true -> finite k = true -> Rabs (val x * val k) <= huge ->
  finite (fmul x k) = true /\ Rabs (val (fmul x k) - val x * val k) <= eps * Rabs (val x * val k) + eta.
Proof. intros x k Fx Fk B. destruct (fmul_fine x k Fx Fk B) as (E & F). split; auto. rewrite E. apply rnd_error_any. Qed.

Lemma times_power : forall x k j, finite x = true -> finite k = true -> val k = bpow radix2 j ->
  val x = 0 \/ bpow radix2 (-1022) <= Rabs (val x * val k) -> Rabs (val x * val k) <= huge ->
  val (fmul x k) = val x * val k /\ finite (fmul x k) = true.
Proof.
  intros x k j Fx Fk E Lo Hi. destruct (fmul_fine x k Fx Fk Hi) as (V & F). split; auto. rewrite V. apply rnd_exact.
  rewrite E in *. apply format_shift; [apply format_val|]. tauto.
Qed.

(** Scaling about a reference point. *)
Lemma about_error : forall x k r, finite x = true -> finite k = true -> finite r = true ->
  Rabs (val x) <= huge / 4 -> Rabs (val r) <= huge / 4 -> Rabs (val k * (val x - val r)) <= huge / 4 ->
  let got := fadd (fmul (fadd x (fneg r)) k) r in let exact := val r + val k * (val x - val r) in
  finite got = true /\ Rabs (val got - exact) <= eps * Rabs exact + 3 * eps * Rabs (val k * (val x - val r)) + 2 * eta.
Proof.
  intros x k r Fx Fk Fr Bx Br Bk got exact. pose proof eps_bounds as [E1 E2]. pose proof eta_bounds as [H1 H2].
  assert (HP : 4 <= huge) by (unfold huge; change 4 with (bpow radix2 2); apply bpow_le; lia).
  assert (Fn : finite (fneg r) = true) by (rewrite fneg_finite; auto).
  destruct (shift_error x (fneg r) Fx Fn) as (F1 & D1).
  { rewrite fneg_val. eapply Rle_trans; [apply Rabs_triang|]. rewrite Rabs_Ropp. lra. }
  rewrite fneg_val in D1. set (a := fadd x (fneg r)) in *. fold (val x - val r) in D1. fold (Rminus (val x) (val r)) in D1.
  set (K := Rabs (val k * (val x - val r))) in *. pose proof (Rabs_pos (val k * (val x - val r))) as KP. fold K in KP.
  assert (D2 : Rabs (val a * val k - val k * (val x - val r)) <= eps * K).
  { replace (val a * val k - val k * (val x - val r)) with (val k * (val a - (val x - val r))) by ring. unfold K. rewrite !Rabs_mult.
    rewrite <- Rmult_assoc, (Rmult_comm eps), Rmult_assoc. apply Rmult_le_compat_l; [apply Rabs_pos|]. exact D1. }
  assert (B2 : Rabs (val a * val k) <= (1 + eps) * K).
  { replace (val a * val k) with (val k * (val x - val r) + (val a * val k - val k * (val x - val r))) by ring.
    eapply Rle_trans; [apply Rabs_triang|]. fold K. lra. }
  destruct (times_error a k F1 Fk) as (F2 & D3); [nra|]. set (b := fmul a k) in *.
  assert (D4 : Rabs (val b - val k * (val x - val r)) <= (eps * (1 + eps) + eps) * K + eta).
  { replace (val b - val k * (val x - val r)) with ((val b - val a * val k) + (val a * val k - val k * (val x - val r))) by ring.
    eapply Rle_trans; [apply Rabs_triang|]. nra. }
  assert (B4 : Rabs (val b + val r - exact) <= (eps * (1 + eps) + eps) * K + eta).
  { unfold exact. replace (val b + val r - (val r + val k * (val x - val r))) with (val b - val k * (val x - val r)) by ring. exact D4. }
  assert (B5 : Rabs (val b + val r) <= Rabs exact + ((eps * (1 + eps) + eps) * K + eta)).
  { replace (val b + val r) with (exact + (val b + val r - exact)) by ring. eapply Rle_trans; [apply Rabs_triang|]. lra. }
  assert (BE : Rabs exact <= huge / 2). { unfold exact. eapply Rle_trans; [apply Rabs_triang|]. fold K. lra. }
  pose proof (Rabs_pos exact) as EP. set (t := eps * (1 + eps) + eps) in *.
  assert (Q : (1 + eps) * t <= 3 * eps) by (unfold t; nra).
  assert (T0 : 0 <= t <= 1) by (unfold t; nra).
  assert (Q1 : t * K <= K) by (rewrite <- (Rmult_1_l K) at 2; apply Rmult_le_compat_r; lra).
  assert (Q2 : (1 + eps) * t * K <= 3 * eps * K) by (apply Rmult_le_compat_r; lra).
  assert (Q3 : eps * eta <= eta) by (rewrite <- (Rmult_1_l eta) at 2; apply Rmult_le_compat_r; lra).
  destruct (shift_error b r F2 Fr) as (F3 & D5); [lra|].
  split; auto. unfold got.
  replace (val (fadd b r) - exact) with ((val (fadd b r) - (val b + val r)) + (val b + val r - exact)) by ring.
  eapply Rle_trans; [apply Rabs_triang|].
  apply Rle_trans with (eps * (Rabs exact + (t * K + eta)) + (t * K + eta)).
  - apply Rplus_le_compat; auto. eapply Rle_trans; [exact D5|]. apply Rmult_le_compat_l; lra.
  - replace (eps * (Rabs exact + (t * K + eta)) + (t * K + eta)) with (eps * Rabs exact + (1 + eps) * t * K + (eps * eta + eta)) by ring. lra.
Qed.

(** Rotation. *)
Lemma dot2_error : forall o a b x y M, finite a = true -> finite b = true -> finite x = true -> finite y = true ->
  Rabs (val a) <= 1 -> Rabs (val b) <= 1 -> Rabs (val x) <= M -> Rabs (val y) <= M -> M <= huge / 8 ->
  finite (dot2 o a b x y) = true /\ Rabs (val (dot2 o a b x y) - (val a * val x + val b * val y)) <= 6 * eps * M + 3 * eta.
Proof.
  intros o a b x y M Fa Fb Fx Fy Ba Bb Bx By BM. pose proof eps_bounds as [E1 E2]. pose proof eta_bounds as [H1 H2].
  assert (HP : 8 <= huge) by (unfold huge; change 8 with (bpow radix2 3); apply bpow_le; lia).
  pose proof (Rabs_pos (val x)) as Px. pose proof (Rabs_pos (val y)) as Py.
  assert (P : forall u w, Rabs (val u) <= 1 -> Rabs (val w) <= M -> Rabs (val u * val w) <= M).
  { intros u w Hu Hw. rewrite Rabs_mult. pose proof (Rabs_pos (val u)). pose proof (Rabs_pos (val w)). nra. }
  assert (T : forall u w, finite u = true -> finite w = true -> Rabs (val u) <= 1 -> Rabs (val w) <= M ->
    finite (fmul u w) = true /\ Rabs (val (fmul u w) - val u * val w) <= eps * M + eta).
  { intros u w Fu Fw Hu Hw. specialize (P u w Hu Hw). assert (M0 : 0 <= M) by (pose proof (Rabs_pos (val w)); lra).
    destruct (times_error u w Fu Fw) as (F & D); [lra|]. split; auto. eapply Rle_trans; [exact D|]. nra. }
  assert (M0 : 0 <= M) by lra.
  assert (Q1 : eps * (eps * M) <= eps * M) by (apply Rmult_le_compat_l; [lra|]; nra).
  assert (Q2 : 2 * (eps * eta) <= eta) by nra.
  assert (Q3 : 0 <= eps * M <= M) by nra.
  assert (Fuse : forall u w u' w', finite u = true -> finite w = true -> finite u' = true -> finite w' = true ->
    Rabs (val u) <= 1 -> Rabs (val w) <= M -> Rabs (val u') <= 1 -> Rabs (val w') <= M ->
    finite (ffma u w (fmul u' w')) = true /\ Rabs (val (ffma u w (fmul u' w')) - (val u * val w + val u' * val w')) <= 6 * eps * M + 3 * eta).
  { intros u w u' w' Fu Fw Fu' Fw' Hu Hw Hu' Hw'. destruct (T u' w' Fu' Fw' Hu' Hw') as (F & D). set (q := fmul u' w') in *.
    pose proof (P u w Hu Hw) as P1. pose proof (P u' w' Hu' Hw') as P2.
    assert (S : Rabs (val u * val w + val q - (val u * val w + val u' * val w')) <= eps * M + eta).
    { replace (val u * val w + val q - (val u * val w + val u' * val w')) with (val q - val u' * val w') by ring. exact D. }
    assert (S' : Rabs (val u * val w + val q) <= 2 * M + (eps * M + eta)).
    { replace (val u * val w + val q) with (val u * val w + val u' * val w' + (val u * val w + val q - (val u * val w + val u' * val w'))) by ring.
      eapply Rle_trans; [apply Rabs_triang|]. pose proof (Rabs_triang (val u * val w) (val u' * val w')). lra. }
    destruct (ffma_ok u w q Fu Fw F) as (E & Ff); [lra|]. split; auto. rewrite E.
    replace (rnd (val u * val w + val q) - (val u * val w + val u' * val w'))
      with ((rnd (val u * val w + val q) - (val u * val w + val q)) + (val u * val w + val q - (val u * val w + val u' * val w'))) by ring.
    eapply Rle_trans; [apply Rabs_triang|]. pose proof (rnd_error_any (val u * val w + val q)) as D2.
    assert (Q4 : eps * Rabs (val u * val w + val q) <= eps * (2 * M + (eps * M + eta))) by (apply Rmult_le_compat_l; lra). lra. }
  destruct o; cbn [dot2].
  - destruct (T a x Fa Fx Ba Bx) as (F1 & D1). destruct (T b y Fb Fy Bb By) as (F2 & D2).
    set (p := fmul a x) in *. set (q := fmul b y) in *. pose proof (P a x Ba Bx) as P1. pose proof (P b y Bb By) as P2.
    assert (S : Rabs (val p + val q - (val a * val x + val b * val y)) <= 2 * (eps * M + eta)).
    { replace (val p + val q - (val a * val x + val b * val y)) with ((val p - val a * val x) + (val q - val b * val y)) by ring.
      eapply Rle_trans; [apply Rabs_triang|]. lra. }
    assert (S' : Rabs (val p + val q) <= 2 * M + 2 * (eps * M + eta)).
    { replace (val p + val q) with (val a * val x + val b * val y + (val p + val q - (val a * val x + val b * val y))) by ring.
      eapply Rle_trans; [apply Rabs_triang|]. pose proof (Rabs_triang (val a * val x) (val b * val y)). lra. }
    destruct (shift_error p q F1 F2) as (F & D); [lra|]. split; auto.
    replace (val (fadd p q) - (val a * val x + val b * val y)) with ((val (fadd p q) - (val p + val q)) + (val p + val q - (val a * val x + val b * val y))) by ring.
    eapply Rle_trans; [apply Rabs_triang|].
    assert (Q4 : eps * Rabs (val p + val q) <= eps * (2 * M + 2 * (eps * M + eta))) by (apply Rmult_le_compat_l; lra). lra.
  - apply Fuse; auto.
  - rewrite (Rplus_comm (val a * val x)). apply Fuse; auto.
Qed.
