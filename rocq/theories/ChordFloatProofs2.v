(** Chord lines in binary64. *)
From Coq Require Import Reals ZArith List Lra Lia Bool.
From Flocq Require Import Core BinarySingleNaN.
From Verif Require Import Base PpgFloatModel PpgFloatProofs ProfileModel ProfileSpec FloatModel FloatSpec FloatProofs FloatProofs2 ShapeFloatModel ShapeFloatSpec ShapeFloatProofs ShapeFloatProofs2 ShapeFloatProofs5 ShapeFloatProofs6 SectionFloatModel SectionFloatSpec SectionFloatProofs SectionFloatProofs3 SectionFloatProofs4 SectionFloatProofs5 SectionFloatProofs6 ChordFloatModel ChordFloatProofs.
Import ListNotations.
Open Scope R_scope.

Lemma twice_format : forall x : b64, generic_format radix2 fexp64 (2 * val x).
Proof.
  intros x. pose proof (format_val x) as F. destruct (@FLT_format_generic radix2 (-1074) 53 prec64 _ F) as [f E M L].
  apply (generic_format_FLT radix2 (-1074) 53). exists (Float radix2 (Fnum f) (Fexp f + 1)).
  - rewrite E. unfold F2R. cbn [Fnum Fexp]. rewrite bpow_plus. change (bpow radix2 1) with 2. ring.
  - exact M.
  - cbn [Fexp]. lia.
Qed.

(** The trailing edge of a profile whose trailing points are level with the leading edge on average. *)
Lemma level_edges : forall p, numbers p -> common_abscissae p -> same_sizes p -> fxup p <> [] ->
  real (last (fyup p) zero64) + real (last (fydown p) zero64) = 2 * real (hd zero64 (fyup p)) -> Rabs (real (hd zero64 (fyup p))) <= huge / 2 ->
  exists yt, update_edges64 p = Ok ((hd zero64 (fxup p), hd zero64 (fyup p)), (last (fxup p) zero64, yt)) /\ is_number yt /\ real yt = real (hd zero64 (fyup p)).
Proof.
  intros p N C S NE Lv B. destruct (Req_EM_T (real (last (fyup p) zero64)) (real (last (fydown p) zero64))) as [Cl|Op].
  - exists (last (fyup p) zero64). rewrite closed_edges by auto. split; [reflexivity|]. split; [apply last_number; apply N|]. lra.
  - pose proof N as (N1 & N2 & N3 & N4). destruct S as (S1 & S2 & S3). destruct C as (_ & _ & C).
    assert (X : fxdown p <> []) by (apply (not_nil _ _ (fxup p)); auto; congruence). assert (Y : fyup p <> []) by (apply (not_nil _ _ (fxup p)); auto; congruence). assert (Z : fydown p <> []) by (apply (not_nil _ _ (fxup p)); auto; congruence).
    assert (Tol : forall a b, finite a = true -> finite b = true -> val a = val b -> Bltb tol64 (fabs64 (fsub a b)) = false).
    { intros a b Fa Fb E. pose proof huge_big. apply close_enough; auto; replace (val a - val b) with 0 by lra; rewrite Rabs_R0; lra. }
    unfold update_edges64. rewrite !first_hd, !final_last by auto. cbn [bind].
    rewrite (Tol (hd zero64 (fxup p)) (hd zero64 (fxdown p))); [|apply hd_number; auto|apply hd_number; auto|rewrite <- (hd_real (fxup p)) at 1; rewrite C; apply hd_real].
    cbn [bind]. rewrite (Tol (last (fxup p) zero64) (last (fxdown p) zero64)); [|apply last_number; auto|apply last_number; auto|rewrite <- (last_real (fxup p)) at 1; rewrite C; apply last_real].
    cbn [bind]. set (u := last (fyup p) zero64) in *. set (d := last (fydown p) zero64) in *. set (y := hd zero64 (fyup p)) in *.
    assert (Fu : finite u = true) by (apply last_number; auto). assert (Fd : finite d = true) by (apply last_number; auto). unfold real in *.
    rewrite Beqb_correct by auto. rewrite Req_bool_false by exact Op. eexists. split; [reflexivity|]. pose proof huge_big as HB. destruct half64_val as (V & Fh).
    destruct (fadd_ok u d Fu Fd) as (Vs & Fs). { rewrite Lv, Rabs_mult, (Rabs_pos_eq 2) by lra. lra. }
    rewrite Lv, (rnd_exact _ (twice_format y)) in Vs.
    destruct (fmul_fine half64 (fadd u d) Fh Fs) as (Vm & Fm). { rewrite V, Vs. replace (/ 2 * (2 * val y)) with (val y) by lra. lra. }
    split; [exact Fm|]. rewrite Vm, V, Vs. replace (/ 2 * (2 * val y)) with (val y) by lra. apply rnd_exact, format_val.
Qed.

Lemma nonzero_difference : forall x y, finite x = true -> finite y = true -> val x <> val y -> Rabs (val x - val y) <= huge -> val (fsub x y) <> 0.
Proof.
  intros x y Fx Fy H B Z. destruct (fsub_ok x y Fx Fy B) as (V & _). pose proof (diff_error x y) as D. rewrite <- V, Z in D. pose proof eps_bounds as [E1 E2].
  rewrite Rminus_0_l, Rabs_Ropp in D. assert (P : 0 < Rabs (val x - val y)) by (apply Rabs_pos_lt; lra).
  assert (eps * Rabs (val x - val y) <= / 1024 * Rabs (val x - val y)) by (apply Rmult_le_compat_r; lra). lra.
Qed.

(** A level chord line is constant. *)
Lemma level_line : forall p, numbers p -> common_abscissae p -> same_sizes p -> fxup p <> [] ->
  real (last (fyup p) zero64) + real (last (fydown p) zero64) = 2 * real (hd zero64 (fyup p)) -> Rabs (real (hd zero64 (fyup p))) <= huge / 2 ->
  real (hd zero64 (fxup p)) <> real (last (fxup p) zero64) -> Forall (fun x => Rabs x <= huge / 2) (xup (meaning p)) ->
  exists hs, compute_chord_line64 p = Ok (fxup p, hs) /\ length hs = length (fxup p) /\ Forall (fun h => is_number h /\ real h = real (hd zero64 (fyup p))) hs.
Proof.
  intros p N C S NE Lv B Df BX. destruct (level_edges p N C S NE Lv B) as (yt & E & Ft & Vt). unfold compute_chord_line64. rewrite E, same_ok by auto. cbn [bind fst snd].
  eexists. split; [reflexivity|]. split; [apply map_length|]. pose proof N as (N1 & N2 & N3 & N4). pose proof huge_big as HB. pose proof rnd_0 as R0.
  unfold meaning in BX. cbn [xup] in BX. rewrite Forall_forall in BX. assert (BX' : forall x, In x (fxup p) -> Rabs (val x) <= huge / 2) by (intros x I; apply BX, in_map, I).
  set (xa := hd zero64 (fxup p)) in *. set (xb := last (fxup p) zero64) in *. set (ya := hd zero64 (fyup p)) in *. unfold real in *.
  assert (Ia : In xa (fxup p)) by (unfold xa; destruct (fxup p); [congruence|left; reflexivity]). assert (Ib : In xb (fxup p)) by (apply last_in; exact NE).
  rewrite Forall_forall in N1. pose proof (N1 _ Ia) as Fa. pose proof (N1 _ Ib) as Fb. assert (Fya : finite ya = true) by (apply hd_number; auto).
  assert (BD : forall x z, In x (fxup p) -> In z (fxup p) -> Rabs (val x - val z) <= huge). { intros x z Ix Iz. pose proof (BX' x Ix). pose proof (BX' z Iz). pose proof (Rabs_triang (val x) (- val z)) as T. rewrite Rabs_Ropp in T. unfold Rminus. lra. }
  destruct (fsub_ok yt ya Ft Fya) as (Vy & Fy). { rewrite Vt. replace (val ya - val ya) with 0 by ring. rewrite Rabs_R0. lra. }
  rewrite Vt in Vy. replace (val ya - val ya) with 0 in Vy by ring. rewrite R0 in Vy.
  assert (Dn : val (fsub xb xa) <> 0) by (apply nonzero_difference; auto).
  destruct (fdiv_fine (fsub yt ya) (fsub xb xa) Fy Dn) as (Vr & Fr). { rewrite Vy. unfold Rdiv. rewrite Rmult_0_l, Rabs_R0. lra. }
  rewrite Vy in Vr. unfold Rdiv in Vr. rewrite Rmult_0_l, R0 in Vr.
  apply Forall_forall. intros h I. apply in_map_iff in I as (x & <- & I). destruct (fsub_ok x xa (N1 _ I) Fa (BD x xa I Ia)) as (_ & Fs).
  destruct (fmul_fine (fdiv64 (fsub yt ya) (fsub xb xa)) (fsub x xa) Fr Fs) as (Vm & Fm). { rewrite Vr, Rmult_0_l, Rabs_R0. lra. }
  rewrite Vr, Rmult_0_l, R0 in Vm. destruct (fadd_ok _ ya Fm Fya) as (Vh & Fh). { rewrite Vm, Rplus_0_l. lra. }
  split; [exact Fh|]. rewrite Vh, Vm, Rplus_0_l. apply rnd_exact, format_val.
Qed.

(** A point of an inclined chord line. *)
Lemma chord_point : forall xa xb ya yb x, finite xa = true -> finite xb = true -> finite ya = true -> finite yb = true -> finite x = true ->
  let D := val xb - val xa in let Y := val yb - val ya in let W := Rmax (Rabs (val ya)) (Rabs (val yb)) in
  bpow radix2 (-300) <= D <= bpow radix2 300 -> W <= bpow radix2 300 -> val xa <= val x <= val xb ->
  let h := fadd (fmul (fdiv64 (fsub yb ya) (fsub xb xa)) (fsub x xa)) ya in
  finite h = true /\ Rabs (val h - (val ya + Y / D * (val x - val xa))) <= 6 * eps * Rabs Y + 2 * eps * W + 2 * (1 + D) * eta /\ (val x = val xa -> val h = val ya).
Proof.
  intros xa xb ya yb x Fa Fb Fya Fyb Fx D Y W BD BW BX h. pose proof eps_bounds as [E1 E2]. pose proof eta_bounds as [H1 H2]. pose proof huge_big as HB. pose proof (bpow_gt_0 radix2 (-300)) as P0.
  assert (H300 : bpow radix2 700 <= huge) by (unfold huge; apply bpow_le; lia). assert (L300 : 4 * bpow radix2 300 <= bpow radix2 700). { change 4 with (bpow radix2 2) at 1. rewrite <- bpow_plus. apply bpow_le. lia. }
  assert (Wa : Rabs (val ya) <= W) by apply Rmax_l. assert (Wb : Rabs (val yb) <= W) by apply Rmax_r. assert (W0 : 0 <= W) by (pose proof (Rabs_pos (val ya)); lra).
  assert (YB : Rabs Y <= 2 * W). { unfold Y, Rminus. pose proof (Rabs_triang (val yb) (- val ya)) as T. rewrite Rabs_Ropp in T. lra. }
  set (t := val x - val xa). assert (T : 0 <= t <= D) by (unfold t, D; lra).
  destruct (fsub_ok yb ya Fyb Fya) as (V1 & F1); [fold Y; lra|]. pose proof (diff_error yb ya) as D1. rewrite <- V1 in D1. fold Y in D1.
  destruct (fsub_ok xb xa Fb Fa) as (V2 & F2); [fold D; rewrite Rabs_pos_eq; lra|]. pose proof (diff_error xb xa) as D2. rewrite <- V2 in D2. fold D in D2.
  destruct (fsub_ok x xa Fx Fa) as (V3 & F3); [fold t; rewrite Rabs_pos_eq; lra|]. pose proof (diff_error x xa) as D3. rewrite <- V3 in D3. fold t in D3.
  rewrite (Rabs_pos_eq D) in D2 by lra. rewrite (Rabs_pos_eq t) in D3 by lra. set (y' := val (fsub yb ya)) in *. set (d' := val (fsub xb xa)) in *. set (t' := val (fsub x xa)) in *.
  assert (ED : 0 <= eps * D <= / 1024 * D) by (split; [apply Rmult_le_pos; lra|apply Rmult_le_compat_r; lra]). assert (ET : 0 <= eps * t <= / 1024 * t) by (split; [apply Rmult_le_pos; lra|apply Rmult_le_compat_r; lra]).
  apply Rabs_le_inv in D2. apply Rabs_le_inv in D3. assert (Pd : 0 < d') by lra.
  set (q := Y / D). assert (QD : q * D = Y) by (unfold q; field; lra). set (A := Rabs q). assert (A0 : 0 <= A) by apply Rabs_pos. assert (AD : A * D = Rabs Y) by (unfold A; rewrite <- (Rabs_pos_eq D) by lra; rewrite <- Rabs_mult, QD; reflexivity).
  assert (At : A * t <= Rabs Y) by (rewrite <- AD; apply Rmult_le_compat_l; lra). assert (At0 : 0 <= A * t) by (apply Rmult_le_pos; lra).
  assert (EA : 0 <= eps * A <= / 1024 * A) by (split; [apply Rmult_le_pos; lra|apply Rmult_le_compat_r; lra]). assert (EAt : 0 <= eps * (A * t) <= / 1024 * (A * t)) by (split; [apply Rmult_le_pos; lra|apply Rmult_le_compat_r; lra]).
  (* the slope *)
  assert (Q1 : Rabs (y' / d' - q) <= 2.01 * (eps * A)).
  { assert (Eq : y' / d' - q = ((y' - Y) - q * (d' - D)) / d') by (rewrite <- QD; field; lra). rewrite Eq. unfold Rdiv. rewrite Rabs_mult, (Rabs_pos_eq (/ d')) by (apply Rlt_le, Rinv_0_lt_compat; lra).
    apply Rmult_le_reg_r with d'; [lra|]. rewrite Rmult_assoc, Rinv_l, Rmult_1_r by lra.
    assert (N1 : Rabs (y' - Y - q * (d' - D)) <= 2 * (eps * (A * D))).
    { pose proof (Rabs_triang (y' - Y) (- (q * (d' - D)))) as Tr. rewrite Rabs_Ropp, Rabs_mult in Tr. fold A in Tr. assert (Rabs (d' - D) <= eps * D) by (apply Rabs_le; lra).
      assert (A * Rabs (d' - D) <= A * (eps * D)) by (apply Rmult_le_compat_l; lra). rewrite <- AD in D1. unfold Rminus in *. lra. }
    assert (G : 2.01 * (eps * A) * (D * (1 - / 1024)) <= 2.01 * (eps * A) * d') by (apply Rmult_le_compat_l; lra). assert (0 <= eps * (A * D)) by (apply Rmult_le_pos; [lra|apply Rmult_le_pos; lra]). lra. }
  assert (AH : A <= bpow radix2 602). { apply Rmult_le_reg_r with D; [lra|]. rewrite AD. apply Rle_trans with (bpow radix2 602 * bpow radix2 (-300)); [|apply Rmult_le_compat_l; [apply bpow_ge_0|lra]].
    rewrite <- bpow_plus. apply Rle_trans with (bpow radix2 1 * bpow radix2 300); [change (bpow radix2 1) with 2; lra|]. rewrite <- bpow_plus. apply bpow_le. lia. }
  assert (B602 : bpow radix2 602 * 4 <= huge). { change 4 with (bpow radix2 2). rewrite <- bpow_plus. unfold huge. apply bpow_le. lia. }
  pose proof (bpow_gt_0 radix2 602) as P602.
  assert (Q2 : Rabs (y' / d') <= A + 2.01 * (eps * A)). { replace (y' / d') with ((y' / d' - q) + q) by ring. eapply Rle_trans; [apply Rabs_triang|]. fold A. lra. }
  destruct (fdiv_fine (fsub yb ya) (fsub xb xa) F1) as (V4 & F4). { fold d'. lra. } { fold y' d'. lra. }
  fold y' d' in V4. pose proof (rnd_error_any (y' / d')) as D4. rewrite <- V4 in D4. set (r := val (fdiv64 (fsub yb ya) (fsub xb xa))) in *.
  assert (EEA : 0 <= eps * (eps * A) <= / 1024 * (eps * A)) by (split; [apply Rmult_le_pos; lra|apply Rmult_le_compat_r; lra]).
  assert (Q3 : Rabs (r - q) <= 3.02 * (eps * A) + eta).
  { replace (r - q) with ((r - y' / d') + (y' / d' - q)) by ring. eapply Rle_trans; [apply Rabs_triang|]. assert (eps * Rabs (y' / d') <= eps * (A + 2.01 * (eps * A))) by (apply Rmult_le_compat_l; lra). lra. }
  (* the product *)
  assert (ETt : 0 <= eta * t) by (apply Rmult_le_pos; lra). assert (EETt : eps * (eta * t) <= / 1024 * (eta * t)) by (apply Rmult_le_compat_r; lra).
  assert (EEAt : 0 <= eps * (eps * (A * t)) <= / 1024 * (eps * (A * t))) by (split; [apply Rmult_le_pos; lra|apply Rmult_le_compat_r; lra]).
  assert (Q4 : Rabs (r * t' - q * t) <= 4.03 * (eps * (A * t)) + 1.01 * (eta * t)).
  { replace (r * t' - q * t) with ((r - q) * t' + q * (t' - t)) by ring. eapply Rle_trans; [apply Rabs_triang|]. rewrite !Rabs_mult. fold A. rewrite (Rabs_pos_eq t') by lra.
    assert (Rabs (t' - t) <= eps * t) by (apply Rabs_le; lra). assert (A * Rabs (t' - t) <= A * (eps * t)) by (apply Rmult_le_compat_l; lra).
    assert (Rabs (r - q) * t' <= (3.02 * (eps * A) + eta) * (t + eps * t)) by (apply Rmult_le_compat; [apply Rabs_pos|lra|lra|lra]).
    assert (X1 : (3.02 * (eps * A) + eta) * (t + eps * t) = 3.02 * (eps * (A * t)) + 3.02 * (eps * (eps * (A * t))) + eta * t + eps * (eta * t)) by ring. assert (X2 : A * (eps * t) = eps * (A * t)) by ring. lra. }
  assert (QT : Rabs (q * t) = A * t) by (rewrite Rabs_mult, (Rabs_pos_eq t) by lra; reflexivity).
  assert (Q5 : Rabs (r * t') <= A * t + 4.03 * (eps * (A * t)) + 1.01 * (eta * t)). { replace (r * t') with ((r * t' - q * t) + q * t) by ring. eapply Rle_trans; [apply Rabs_triang|]. lra. }
  assert (etaD : eta * D <= 1). { apply Rle_trans with (bpow radix2 (-1075) * bpow radix2 300); [apply Rmult_le_compat; unfold eta in *; lra|]. rewrite <- bpow_plus. change 1 with (bpow radix2 0). apply bpow_le. lia. }
  assert (etat : eta * t <= eta * D) by (apply Rmult_le_compat_l; lra).
  assert (P300 : 1 <= bpow radix2 300) by (change 1 with (bpow radix2 0); apply bpow_le; lia).
  assert (RB : Rabs (r * t') <= 4 * bpow radix2 300). { pose proof (Rabs_pos Y). lra. }
  destruct (times_error (fdiv64 (fsub yb ya) (fsub xb xa)) (fsub x xa) F4 F3) as (F5 & D5). { fold r t'. lra. }
  fold r t' in D5. set (pf := val (fmul (fdiv64 (fsub yb ya) (fsub xb xa)) (fsub x xa))) in *.
  assert (Q6 : Rabs (pf - q * t) <= 5.05 * (eps * (A * t)) + 1.02 * (eta * t) + eta).
  { replace (pf - q * t) with ((pf - r * t') + (r * t' - q * t)) by ring. eapply Rle_trans; [apply Rabs_triang|].
    assert (eps * Rabs (r * t') <= eps * (A * t + 4.03 * (eps * (A * t)) + 1.01 * (eta * t))) by (apply Rmult_le_compat_l; lra). lra. }
  (* the sum *)
  assert (CV : Rabs (val ya + q * t) <= W).
  { assert (Cv : val ya + q * t = (1 - t / D) * val ya + t / D * val yb). { unfold q, Y. field. lra. } rewrite Cv.
    assert (S0 : 0 <= t / D <= 1). { split; [apply Rmult_le_pos; [lra|apply Rlt_le, Rinv_0_lt_compat; lra]|]. apply Rmult_le_reg_r with D; [lra|]. unfold Rdiv. rewrite Rmult_assoc, Rinv_l; lra. }
    eapply Rle_trans; [apply Rabs_triang|]. rewrite !Rabs_mult, (Rabs_pos_eq (1 - t / D)), (Rabs_pos_eq (t / D)) by lra.
    assert ((1 - t / D) * Rabs (val ya) <= (1 - t / D) * W) by (apply Rmult_le_compat_l; lra). assert (t / D * Rabs (val yb) <= t / D * W) by (apply Rmult_le_compat_l; lra). lra. }
  assert (Q7 : Rabs (pf + val ya) <= W + (5.05 * (eps * (A * t)) + 1.02 * (eta * t) + eta)). { replace (pf + val ya) with ((pf - q * t) + (val ya + q * t)) by ring. eapply Rle_trans; [apply Rabs_triang|]. lra. }
  assert (EY : eps * (A * t) <= eps * Rabs Y) by (apply Rmult_le_compat_l; lra). assert (EYs : eps * Rabs Y <= / 1024 * Rabs Y) by (apply Rmult_le_compat_r; [apply Rabs_pos|lra]).
  destruct (fadd_ok _ ya F5 Fya) as (V6 & F6). { fold pf. pose proof (Rabs_pos Y). lra. }
  fold pf in V6. pose proof (rnd_add_error (fmul (fdiv64 (fsub yb ya) (fsub xb xa)) (fsub x xa)) ya) as D6. fold pf in D6. rewrite <- V6 in D6. fold h in D6, V6, F6.
  split; [exact F6|]. split.
  - replace (val h - (val ya + q * t)) with ((val h - (pf + val ya)) + (pf - q * t)) by ring. eapply Rle_trans; [apply Rabs_triang|].
    assert (X : eps * Rabs (pf + val ya) <= eps * (W + (5.05 * (eps * (A * t)) + 1.02 * (eta * t) + eta))) by (apply Rmult_le_compat_l; lra).
    assert (eps * eta <= / 1024 * eta) by (apply Rmult_le_compat_r; lra). assert (0 <= eps * W) by (apply Rmult_le_pos; lra). assert (0 <= eta * D) by (apply Rmult_le_pos; lra).
    assert (X3 : eps * (W + (5.05 * (eps * (A * t)) + 1.02 * (eta * t) + eta)) = eps * W + 5.05 * (eps * (eps * (A * t))) + 1.02 * (eps * (eta * t)) + eps * eta) by ring.
    assert (X4 : 2 * (1 + D) * eta = 2 * eta + 2 * (eta * D)) by ring. rewrite X4. lra.
  - intros X. rewrite V6. assert (Z3 : t' = 0). { unfold t', t in *. rewrite V3. replace (val x - val xa) with 0 by lra. apply rnd_0. }
    destruct (fmul_fine (fdiv64 (fsub yb ya) (fsub xb xa)) (fsub x xa) F4 F3) as (V5 & _). { fold r t'. rewrite Z3, Rmult_0_r, Rabs_R0. lra. }
    fold r t' pf in V5. rewrite V5, Z3, Rmult_0_r, rnd_0, Rplus_0_l. apply rnd_exact, format_val.
Qed.
