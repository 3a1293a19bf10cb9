(** Camber in binary64. *)
From Coq Require Import Reals ZArith List Lra Lia Bool.
From Flocq Require Import Core BinarySingleNaN.
From Verif Require Import Base PpgFloatModel PpgFloatProofs ProfileModel ProfileSpec FloatModel FloatSpec FloatProofs FloatProofs2 ShapeFloatModel ShapeFloatSpec ShapeFloatProofs ShapeFloatProofs2.
Import ListNotations.
Open Scope R_scope.

Lemma hundred64_val : val hundred64 = 100 /\ finite hundred64 = true.
Proof. split; [|reflexivity]. unfold B2R, hundred64, F2R. cbn. lra. Qed.
Lemma one64_val : val one64 = 1 /\ finite one64 = true.
Proof. split; [|reflexivity]. unfold B2R, one64, F2R. cbn. lra. Qed.

(** Half of the local thickness. *)
Definition half_gap64 (u d : b64) : b64 := fmul half64 (fabs64 (fsub u d)).
Lemma half_gap_error : forall u d, finite u = true -> finite d = true -> Rabs (val u - val d) <= huge ->
  finite (half_gap64 u d) = true /\ 0 <= val (half_gap64 u d) /\
  Rabs (val (half_gap64 u d) - Rabs (val u - val d) / 2) <= 3 * eps * (Rabs (val u - val d) / 2) + eta.
Proof.
  intros u d Fu Fd B. destruct (gap_number u d Fu Fd B) as (F & E). destruct half64_val as (V & Fh). pose proof eps_bounds as [E1 E2].
  destruct (fsub_ok u d Fu Fd B) as (Es & _).
  set (g := Rabs (val u - val d)) in *. assert (G0 : 0 <= g) by apply Rabs_pos.
  assert (Hs : val (fabs64 (fsub u d)) <= huge).
  { rewrite fabs_val, Es. apply abs_round_le_generic; auto using huge_format. apply valid64. apply valid_rnd_N. }
  assert (P : 0 <= val (fabs64 (fsub u d))) by (rewrite fabs_val; apply Rabs_pos).
  unfold half_gap64. set (s := fabs64 (fsub u d)) in *.
  destruct (fmul_fine half64 s Fh F) as (Vm & Fm). { rewrite V, Rabs_pos_eq; lra. }
  split; auto. rewrite Vm, V. split.
  { rewrite <- (round_0 radix2 fexp64 ZnearestE). apply rnd_le. lra. }
  pose proof (rnd_error_any (/ 2 * val s)) as Er. rewrite (Rabs_pos_eq (/ 2 * val s)) in Er by lra. apply Rabs_le_inv in E.
  assert (EG : eps * g <= / 1024 * g) by (apply Rmult_le_compat_r; lra). assert (EG0 : 0 <= eps * g) by nra.
  assert (eps * (/ 2 * val s) <= eps * g) by (apply Rmult_le_compat_l; lra). apply Rabs_le_inv in Er. apply Rabs_le.
  assert (eps * (/ 2 * val s) <= eps * (/ 2 * (g + eps * g))) by (apply Rmult_le_compat_l; lra).
  assert (eps * (eps * g) <= / 1024 * (eps * g)) by (apply Rmult_le_compat_r; lra). lra.
Qed.

(** The scaling factor. *)
Definition factor64 (pc : b64) : b64 := fadd (fdiv64 pc hundred64) one64.
Lemma factor_error : forall pc, finite pc = true -> let K := real pc / 100 + 1 in let W := 1 + Rabs (real pc) / 100 in
  finite (factor64 pc) = true /\ Rabs (val (factor64 pc) - K) <= 3 * eps * W /\ Rabs K <= W.
Proof.
  intros pc F K W. destruct hundred64_val as (V & Fh). destruct one64_val as (V1 & F1). pose proof (val_bound pc) as B. pose proof huge_big as HB.
  pose proof eps_bounds as [E1 E2]. pose proof eta_tiny as ET. pose proof eta_bounds as [H1 _]. unfold real in *.
  assert (A : Rabs (val pc / 100) = Rabs (val pc) / 100) by (unfold Rdiv; rewrite Rabs_mult, (Rabs_pos_eq (/ 100)); lra).
  set (a := Rabs (val pc) / 100) in *. assert (A0 : 0 <= a) by (unfold a; pose proof (Rabs_pos (val pc)); lra).
  destruct (fdiv_ok pc hundred64 F) as (Vq & Fq); [rewrite V; lra| |]. { apply rnd_small. rewrite V, A. unfold a. lra. }
  rewrite V in Vq. pose proof (rnd_error_any (val pc / 100)) as Er. rewrite <- Vq, A in Er.
  assert (KW : Rabs K <= W). { unfold K. eapply Rle_trans; [apply Rabs_triang|]. rewrite A, Rabs_R1. unfold W. fold a. lra. }
  assert (EA : eps * a <= / 1024 * a) by (apply Rmult_le_compat_r; lra).
  assert (S : Rabs (val (fdiv64 pc hundred64) + val one64 - K) <= eps * a + eta).
  { rewrite V1. unfold K. replace (val (fdiv64 pc hundred64) + 1 - (val pc / 100 + 1)) with (val (fdiv64 pc hundred64) - val pc / 100) by ring. exact Er. }
  assert (S2 : Rabs (val (fdiv64 pc hundred64) + val one64) <= W + eps * a + eta).
  { replace (val (fdiv64 pc hundred64) + val one64) with ((val (fdiv64 pc hundred64) + val one64 - K) + K) by ring. eapply Rle_trans; [apply Rabs_triang|]. lra. }
  destruct (fadd_ok (fdiv64 pc hundred64) one64 Fq F1) as (Vk & Fk). { unfold W in S2. fold a in S2. unfold a in *. lra. }
  split; [exact Fk|]. split; [|exact KW].
  pose proof (rnd_add_error (fdiv64 pc hundred64) one64) as R. rewrite <- Vk in R. fold (factor64 pc) in R.
  assert (eps * Rabs (val (fdiv64 pc hundred64) + val one64) <= eps * (W + eps * a + eta)) by (apply Rmult_le_compat_l; lra).
  assert (eps * (eps * a) <= / 1024 * (eps * a)) by (apply Rmult_le_compat_r; nra).
  assert (eps * eta <= / 1024 * eta) by (apply Rmult_le_compat_r; lra).
  assert (W1 : W = 1 + a) by reflexivity. assert (0 <= eps * a) by nra.
  apply Rabs_le_inv in R. apply Rabs_le_inv in S. apply Rabs_le. rewrite W1 in *. lra.
Qed.

(** One pair of ordinates. *)
Definition mean64 (u d : b64) : b64 := fmul half64 (fadd d u).
Definition new_camber64 (pc u d : b64) : b64 := fmul (mean64 u d) (factor64 pc).
Definition new_up64 (pc u d : b64) : b64 := fadd (new_camber64 pc u d) (half_gap64 u d).
Definition new_down64 (pc u d : b64) : b64 := fsub (new_camber64 pc u d) (half_gap64 u d).

Lemma mean_error : forall u d, finite u = true -> finite d = true -> Rabs (val u + val d) <= huge ->
  finite (mean64 u d) = true /\ Rabs (val (mean64 u d) - (val u + val d) / 2) <= 3 * eps * Rabs ((val u + val d) / 2) + eta.
Proof. intros u d Fu Fd B. rewrite (Rplus_comm (val u)) in *. apply average_error; auto. Qed.

Lemma camber_error : forall pc u d, finite pc = true -> finite u = true -> finite d = true -> Rabs (val u + val d) <= huge ->
  let K := real pc / 100 + 1 in let W := 1 + Rabs (real pc) / 100 in let m := (val u + val d) / 2 in W * Rabs m <= huge / 8 -> W <= huge ->
  finite (new_camber64 pc u d) = true /\ Rabs (val (new_camber64 pc u d) - m * K) <= 8 * eps * (W * Rabs m) + 3 * W * eta.
Proof.
  intros pc u d Fp Fu Fd B K W m BW WH. destruct (mean_error u d Fu Fd B) as (Fc & Ec). destruct (factor_error pc Fp) as (Fk & Ek & KW). fold K W in Ek, KW. fold m in Ec.
  pose proof eps_bounds as [E1 E2]. pose proof eta_tiny as ET. pose proof eta_bounds as [H1 _]. pose proof huge_big as HB.
  set (c := val (mean64 u d)) in *. set (k := val (factor64 pc)) in *. set (a := Rabs m) in *. assert (A0 : 0 <= a) by apply Rabs_pos.
  assert (W1 : 1 <= W) by (unfold W; pose proof (Rabs_pos (real pc)); lra).
  set (X := W * a) in *. assert (X0 : 0 <= X) by (unfold X; nra).
  assert (EX : eps * X <= / 1024 * X) by (apply Rmult_le_compat_r; lra). assert (EX0 : 0 <= eps * X) by nra.
  assert (EEX : eps * (eps * X) <= / 1024 * (eps * X)) by (apply Rmult_le_compat_r; lra).
  assert (EW : eps * W <= / 1024 * W) by (apply Rmult_le_compat_r; lra).
  assert (WE : 0 <= W * eta <= / 1024 * huge). { split; [nra|]. assert (W * eta <= huge * (/ 1024)) by (apply Rmult_le_compat; lra). lra. }
  assert (k1 : Rabs k <= W + 3 * (eps * W)).
  { replace k with ((k - K) + K) by ring. eapply Rle_trans; [apply Rabs_triang|]. lra. }
  assert (k2 : Rabs k <= (1 + / 256) * W) by lra.
  assert (D : Rabs (c * k - m * K) <= (6 + / 16) * (eps * X) + (1 + / 256) * (W * eta)).
  { replace (c * k - m * K) with ((c - m) * k + m * (k - K)) by ring. eapply Rle_trans; [apply Rabs_triang|]. rewrite !Rabs_mult. fold a.
    assert (Rabs (c - m) * Rabs k <= (3 * eps * a + eta) * ((1 + / 256) * W)) by (apply Rmult_le_compat; auto; apply Rabs_pos).
    assert (a * Rabs (k - K) <= a * (3 * eps * W)) by (apply Rmult_le_compat_l; auto).
    replace ((3 * eps * a + eta) * ((1 + / 256) * W)) with (3 * (1 + / 256) * (eps * X) + (1 + / 256) * (W * eta)) in * by (unfold X; ring).
    replace (a * (3 * eps * W)) with (3 * (eps * X)) in * by (unfold X; ring). lra. }
  assert (MK : Rabs (m * K) <= X). { rewrite Rabs_mult. fold a. unfold X. rewrite Rmult_comm. apply Rmult_le_compat_r; auto. }
  assert (U : Rabs (c * k) <= X + (6 + / 16) * (eps * X) + (1 + / 256) * (W * eta)).
  { replace (c * k) with ((c * k - m * K) + m * K) by ring. eapply Rle_trans; [apply Rabs_triang|]. lra. }
  destruct (times_error (mean64 u d) (factor64 pc) Fc Fk) as (F & E). { fold c k. lra. }
  fold c k in E. split; [exact F|]. fold (new_camber64 pc u d) in E. set (n := val (new_camber64 pc u d)) in *.
  replace (n - m * K) with ((n - c * k) + (c * k - m * K)) by ring. eapply Rle_trans; [apply Rabs_triang|].
  assert (eps * Rabs (c * k) <= eps * (X + (6 + / 16) * (eps * X) + (1 + / 256) * (W * eta))) by (apply Rmult_le_compat_l; lra).
  assert (eps * (W * eta) <= / 1024 * (W * eta)) by (apply Rmult_le_compat_r; lra).
  assert (eta <= W * eta) by nra. lra.
Qed.

Lemma deform_pair : forall pc u d, finite pc = true -> finite u = true -> finite d = true ->
  let K := real pc / 100 + 1 in let W := 1 + Rabs (real pc) / 100 in let m := (val u + val d) / 2 in let h := Rabs (val u - val d) / 2 in
  Rabs (val u) <= huge / 8 -> Rabs (val d) <= huge / 8 -> W * Rabs m <= huge / 8 -> W <= huge ->
  finite (new_up64 pc u d) = true /\ finite (new_down64 pc u d) = true /\ val (new_down64 pc u d) <= val (new_up64 pc u d) /\
  Rabs (val (new_up64 pc u d) - (m * K + h)) <= 10 * eps * (W * Rabs m + h) + 5 * W * eta /\
  Rabs (val (new_down64 pc u d) - (m * K - h)) <= 10 * eps * (W * Rabs m + h) + 5 * W * eta.
Proof.
  intros pc u d Fp Fu Fd K W m h Bu Bd BW WH. assert (HP : 0 < huge) by apply bpow_gt_0. pose proof huge_big as HB.
  pose proof (Rabs_triang (val u) (val d)) as T1. pose proof (Rabs_triang (val u) (- val d)) as T2. rewrite Rabs_Ropp in T2. fold (val u - val d) in T2.
  destruct (camber_error pc u d Fp Fu Fd) as (Fc & Ec); [lra|exact BW|exact WH|]. fold K W m in Ec.
  destruct (half_gap_error u d Fu Fd) as (Fh & Ph & Eh); [lra|]. fold h in Eh.
  pose proof eps_bounds as [E1 E2]. pose proof eta_bounds as [H1 H2].
  assert (W1 : 1 <= W) by (unfold W; pose proof (Rabs_pos (real pc)); lra).
  assert (Hh0 : 0 <= h <= huge / 8) by (unfold h; pose proof (Rabs_pos (val u - val d)); lra).
  destruct (factor_error pc Fp) as (_ & _ & KW). fold K W in KW.
  set (c := val (new_camber64 pc u d)) in *. set (g := val (half_gap64 u d)) in *.
  set (X := W * Rabs m) in *. assert (X0 : 0 <= X) by (unfold X; pose proof (Rabs_pos m); nra).
  assert (EX : eps * X <= / 1024 * X) by (apply Rmult_le_compat_r; lra). assert (EX0 : 0 <= eps * X) by nra.
  assert (Eh1 : eps * h <= / 1024 * h) by (apply Rmult_le_compat_r; lra). assert (EH0 : 0 <= eps * h) by nra.
  assert (EEX : eps * (eps * X) <= / 1024 * (eps * X)) by (apply Rmult_le_compat_r; lra).
  assert (EEH : eps * (eps * h) <= / 1024 * (eps * h)) by (apply Rmult_le_compat_r; lra).
  assert (WE : 0 <= W * eta <= / 1024 * huge). { split; [nra|]. assert (W * eta <= huge * (/ 1024)) by (apply Rmult_le_compat; lra). lra. }
  assert (EWE : eps * (W * eta) <= / 1024 * (W * eta)) by (apply Rmult_le_compat_r; lra).
  assert (We : eta <= W * eta) by nra.
  assert (MK : Rabs (m * K) <= X). { rewrite Rabs_mult. unfold X. rewrite Rmult_comm. apply Rmult_le_compat_r; [apply Rabs_pos|auto]. }
  apply Rabs_le_inv in Ec. apply Rabs_le_inv in Eh. apply Rabs_le_inv in MK.
  assert (Sum : Rabs (c + g) <= X + h + 9 * (eps * X) + 4 * (eps * h) + 4 * (W * eta)) by (apply Rabs_le; lra).
  assert (Dif : Rabs (c - g) <= X + h + 9 * (eps * X) + 4 * (eps * h) + 4 * (W * eta)) by (apply Rabs_le; lra).
  destruct (fadd_ok _ _ Fc Fh) as (Vu & Fu'). { fold c g. lra. } destruct (fsub_ok _ _ Fc Fh) as (Vd & Fd'). { fold c g. lra. }
  fold c g in Vu, Vd. fold (new_up64 pc u d) in Vu, Fu'. fold (new_down64 pc u d) in Vd, Fd'. split; [exact Fu'|]. split; [exact Fd'|]. split.
  { rewrite Vu, Vd. apply rnd_le. lra. }
  pose proof (rnd_add_error (new_camber64 pc u d) (half_gap64 u d)) as R1. fold c g in R1. rewrite <- Vu in R1.
  pose proof (diff_error (new_camber64 pc u d) (half_gap64 u d)) as R2. fold c g in R2. rewrite <- Vd in R2.
  assert (eps * Rabs (c + g) <= eps * (X + h + 9 * (eps * X) + 4 * (eps * h) + 4 * (W * eta))) by (apply Rmult_le_compat_l; lra).
  assert (eps * Rabs (c - g) <= eps * (X + h + 9 * (eps * X) + 4 * (eps * h) + 4 * (W * eta))) by (apply Rmult_le_compat_l; lra).
  apply Rabs_le_inv in R1. apply Rabs_le_inv in R2. split; apply Rabs_le; lra.
Qed.
