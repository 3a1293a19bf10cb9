(** Restoring the lengths in binary64. *)
From Coq Require Import Reals ZArith Lra Lia.
From Flocq Require Import Core BinarySingleNaN Relative.
From Verif Require Import PpgFloatModel.
Open Scope R_scope.

Notation fexp64 := (FLT_exp (-1074) 53).
Notation rnd := (round radix2 fexp64 ZnearestE).
Notation val := (@B2R 53 1024).
Notation finite := (@is_finite 53 1024).

Lemma valid64 : Valid_exp fexp64.
Proof. apply FLT_exp_valid. reflexivity. Qed.

Lemma fmul_ok : forall x y, finite x = true -> finite y = true -> Rabs (rnd (val x * val y)) < bpow radix2 1024 ->
  val (fmul x y) = rnd (val x * val y) /\ finite (fmul x y) = true.
Proof.
  intros x y Fx Fy B. pose proof (@Bmult_correct 53 1024 prec64 emax64 mode_NE x y) as H.
  change (round radix2 (SpecFloat.fexp 53 1024) (round_mode mode_NE) (val x * val y)) with (rnd (val x * val y)) in H.
  rewrite Rlt_bool_true in H by exact B. destruct H as (H1 & H2 & _). rewrite Fx, Fy in H2. auto.
Qed.
Lemma fdiv_ok : forall x y, finite x = true -> val y <> 0 -> Rabs (rnd (val x / val y)) < bpow radix2 1024 ->
  val (fdiv64 x y) = rnd (val x / val y) /\ finite (fdiv64 x y) = true.
Proof.
  intros x y Fx Fy B. pose proof (@Bdiv_correct 53 1024 prec64 emax64 mode_NE x y Fy) as H.
  change (round radix2 (SpecFloat.fexp 53 1024) (round_mode mode_NE) (val x / val y)) with (rnd (val x / val y)) in H.
  rewrite Rlt_bool_true in H by exact B. destruct H as (H1 & H2 & _). rewrite Fx in H2. auto.
Qed.
Lemma two64_val : val two64 = 2 /\ finite two64 = true.
Proof. split; [|reflexivity]. unfold B2R, two64, F2R. cbn. lra. Qed.
Lemma format_val : forall x : b64, generic_format radix2 fexp64 (val x).
Proof. intros x. apply (@generic_format_B2R 53 1024). Qed.

(** A representable number times a power of two is representable unless it
    becomes too small. *)
Lemma format_shift : forall x k, generic_format radix2 fexp64 x -> bpow radix2 (-1022) <= Rabs (x * bpow radix2 k) \/ x = 0 ->
  generic_format radix2 fexp64 (x * bpow radix2 k).
Proof.
  intros x k F [B| ->]; [|rewrite Rmult_0_l; apply generic_format_0].
  apply generic_format_FLT_FLX; [exact B|].
  apply generic_format_FLX. apply generic_format_FLX_FLT in F. apply FLX_format_generic in F; [|reflexivity].
  destruct F as [f E L]. exists (Float radix2 (Fnum f) (Fexp f + k)); [|exact L].
  rewrite E. unfold F2R. cbn [Fnum Fexp]. rewrite bpow_plus. ring.
Qed.

Lemma rnd_exact : forall x, generic_format radix2 fexp64 x -> rnd x = x.
Proof. intros x F. apply round_generic; auto. apply valid_rnd_N. Qed.

(** ** Diameters that are powers of two *)
Lemma power_length : forall (D c : b64) k, finite D = true -> val D = bpow radix2 k -> finite c = true ->
  val c = 0 \/ bpow radix2 (-1022) <= Rabs (val c / val D) -> Rabs (val c / val D) < bpow radix2 1024 ->
  val (norm_length D c) = val c / val D /\ finite (norm_length D c) = true /\
  val (abs_length D (norm_length D c)) = val c /\ finite (abs_length D (norm_length D c)) = true.
Proof.
  intros D c k FD VD Fc Lo Hi.
  assert (ND : val D <> 0) by (rewrite VD; apply Rgt_not_eq, bpow_gt_0).
  assert (Q : val c / val D = val c * bpow radix2 (- k)) by (rewrite VD, bpow_opp; reflexivity).
  assert (G : generic_format radix2 fexp64 (val c / val D)).
  { rewrite Q. apply format_shift; [apply format_val|]. rewrite <- Q. tauto. }
  destruct (fdiv_ok c D Fc ND) as (V1 & F1). { rewrite rnd_exact; auto. }
  rewrite rnd_exact in V1 by auto.
  assert (E : val (norm_length D c) * val D = val c) by (unfold norm_length; rewrite V1; field; auto).
  split; [exact V1|]. split; [exact F1|].
  destruct (fmul_ok (norm_length D c) D) as (V2 & F2); auto.
  - rewrite E, rnd_exact by apply format_val. apply (@abs_B2R_lt_emax 53 1024).
  - split; [|exact F2]. unfold abs_length. rewrite V2, E. apply rnd_exact, format_val.
Qed.

Lemma double_ok : forall r : b64, finite r = true -> Rabs (val r) < bpow radix2 1023 ->
  val (fmul r two64) = val r * 2 /\ finite (fmul r two64) = true.
Proof.
  intros r F B. destruct two64_val as (V2 & F2).
  assert (G : generic_format radix2 fexp64 (val r * 2)).
  { change 2 with (bpow radix2 1). destruct (Req_dec (val r) 0) as [->|N]; [rewrite Rmult_0_l; apply generic_format_0|].
    pose proof (format_val r) as H. apply FLT_format_generic in H; [|reflexivity]. destruct H as [f E L1 L2].
    apply generic_format_FLT. exists (Float radix2 (Fnum f) (Fexp f + 1)); cbn [Fnum Fexp]; auto; [|lia].
    rewrite E. unfold F2R. cbn [Fnum Fexp]. rewrite bpow_plus. ring. }
  destruct (fmul_ok r two64 F F2) as (V & Fm).
  - rewrite V2, rnd_exact by auto. rewrite Rabs_mult, (Rabs_pos_eq 2) by lra.
    change (bpow radix2 1024) with (bpow radix2 (1023 + 1)). rewrite bpow_plus. change (bpow radix2 1) with 2. lra.
  - rewrite V2, rnd_exact in V by auto. auto.
Qed.
Lemma halve_ok : forall (x : b64) v, finite x = true -> generic_format radix2 fexp64 v -> val x = v * 2 ->
  val (fdiv64 x two64) = v /\ finite (fdiv64 x two64) = true.
Proof.
  intros x v F G E. destruct two64_val as (V2 & F2).
  assert (Q : val x / val two64 = v) by (rewrite V2, E; field).
  destruct (fdiv_ok x two64 F) as (V & Fd).
  - rewrite V2. lra.
  - rewrite Q, rnd_exact by auto. pose proof (@abs_B2R_lt_emax 53 1024 x) as B. rewrite E in B.
    rewrite Rabs_mult, (Rabs_pos_eq 2) in B by lra. pose proof (Rabs_pos v). lra.
  - rewrite Q, rnd_exact in V by auto. auto.
Qed.

Lemma power_radius : forall (D r : b64) k, finite D = true -> val D = bpow radix2 k -> finite r = true ->
  Rabs (val r) < bpow radix2 1023 ->
  val r = 0 \/ bpow radix2 (-1022) <= Rabs (val r * 2 / val D) -> Rabs (val r * 2 / val D) < bpow radix2 1024 ->
  val (norm_radius D r) = val r * 2 / val D /\ finite (norm_radius D r) = true /\
  val (abs_radius D (norm_radius D r)) = val r /\ finite (abs_radius D (norm_radius D r)) = true.
Proof.
  intros D r k FD VD Fr B Lo Hi. destruct (double_ok r Fr B) as (V1 & F1).
  destruct (power_length D (fmul r two64) k) as (A1 & A2 & A3 & A4); auto.
  - rewrite V1. destruct Lo as [->|Lo]; [left; lra|auto].
  - rewrite V1. auto.
  - unfold norm_length in *. fold (norm_radius D r) in *. rewrite V1 in *. split; auto. split; auto.
    apply (halve_ok _ (val r)) in A4; auto using format_val.
Qed.

(** ** Other diameters *)
Lemma rnd_error : forall x, bpow radix2 (-1022) <= Rabs x -> Rabs (rnd x - x) <= bpow radix2 (-53) * Rabs x.
Proof.
  intros x B. pose proof (relative_error_N_FLT radix2 (-1074) 53 (eq_refl) (fun x => negb (Z.even x)) x B) as H.
  replace (/ 2 * bpow radix2 (- (53) + 1)) with (bpow radix2 (-53)) in H; auto.
  change (- (53) + 1)%Z with (-53 + 1)%Z. rewrite bpow_plus. change (bpow radix2 1) with 2. field.
Qed.

Lemma length_error : forall D c : b64, finite D = true -> val D <> 0 -> finite c = true ->
  bpow radix2 (-1022) <= Rabs (val c / val D) <= bpow radix2 1023 ->
  bpow radix2 (-1021) <= Rabs (val c) <= bpow radix2 1022 ->
  finite (abs_length D (norm_length D c)) = true /\
  Rabs (val (abs_length D (norm_length D c)) - val c) <= bpow radix2 (-51) * Rabs (val c).
Proof.
  intros D c FD ND Fc (Q1 & Q2) (C1 & C2).
  set (e := bpow radix2 (-53)) in *.
  assert (E : 0 < e <= / 8).
  { unfold e. split; [apply bpow_gt_0|]. replace (/ 8) with (bpow radix2 (-3)) by (cbn; lra). apply bpow_le. lia. }
  assert (E51 : bpow radix2 (-51) = 4 * e).
  { unfold e. change (-51)%Z with (2 + -53)%Z. rewrite bpow_plus. cbn [bpow radix2 Zpower_pos Pos.iter Z.pow_pos]. cbn. lra. }
  assert (S : forall x m, Rabs x <= bpow radix2 m -> bpow radix2 (-1022) <= Rabs x -> Rabs (rnd x) < bpow radix2 (m + 1)).
  { intros x m H L. pose proof (rnd_error x L) as H1. pose proof (Rabs_triang_inv (rnd x) x) as H2. fold e in H1.
    rewrite bpow_plus. change (bpow radix2 1) with 2. pose proof (bpow_gt_0 radix2 m) as P. pose proof (Rabs_pos x). nra. }
  destruct (fdiv_ok c D Fc ND) as (V1 & F1). { apply (S _ 1023%Z Q2 Q1). }
  pose proof (rnd_error _ Q1) as R1. rewrite <- V1 in R1. fold (norm_length D c) in *.
  set (q := val (norm_length D c)) in *.
  assert (P : Rabs (q * val D - val c) <= e * Rabs (val c)).
  { replace (q * val D - val c) with ((q - val c / val D) * val D) by (field; auto). rewrite Rabs_mult.
    apply Rle_trans with (e * Rabs (val c / val D) * Rabs (val D)).
    - apply Rmult_le_compat_r; [apply Rabs_pos|exact R1].
    - rewrite Rmult_assoc, <- Rabs_mult. replace (val c / val D * val D) with (val c) by (field; auto). lra. }
  pose proof (Rabs_triang_inv (q * val D) (val c)) as T1. pose proof (Rabs_triang_inv (val c) (q * val D)) as T2.
  rewrite (Rabs_minus_sym (val c)) in T2. pose proof (Rabs_pos (val c)) as PC.
  assert (Lo : bpow radix2 (-1022) <= Rabs (q * val D)).
  { replace (bpow radix2 (-1022)) with (bpow radix2 (-1021) / 2).
    - nra.
    - change (-1021)%Z with (-1022 + 1)%Z. rewrite bpow_plus. change (bpow radix2 1) with 2. field. }
  assert (Hi : Rabs (q * val D) <= bpow radix2 1023).
  { change 1023%Z with (1022 + 1)%Z. rewrite bpow_plus. change (bpow radix2 1) with 2. pose proof (bpow_gt_0 radix2 1022). nra. }
  destruct (fmul_ok (norm_length D c) D F1 FD) as (V2 & F2). { apply (S _ 1023%Z Hi Lo). }
  unfold abs_length. split; auto. rewrite V2. fold q. pose proof (rnd_error _ Lo) as R2. fold e in R2.
  rewrite E51. replace (rnd (q * val D) - val c) with ((rnd (q * val D) - q * val D) + (q * val D - val c)) by ring.
  eapply Rle_trans; [apply Rabs_triang|]. nra.
Qed.

(** The diameter 0.3 and the chord length 0.35. *)
Definition D03 : b64 := @B754_finite 53 1024 false 5404319552844595 (-54) eq_refl.
Definition c035 : b64 := @B754_finite 53 1024 false 6305039478318694 (-54) eq_refl.
Lemma restored_035 : B2SF (abs_length D03 (norm_length D03 c035)) = SpecFloat.S754_finite false 6305039478318695 (-54) /\
  B2SF (abs_radius D03 (norm_radius D03 c035)) = SpecFloat.S754_finite false 6305039478318695 (-54).
Proof. split; vm_compute; reflexivity. Qed.
Lemma sf_val : forall (x : b64) m e, B2SF x = SpecFloat.S754_finite false m e -> val x = IZR (Z.pos m) * bpow radix2 e.
Proof. intros x n k H. destruct x; try discriminate. cbn in H. injection H as -> -> ->. reflexivity. Qed.
Lemma not_restored : exists D c : b64, finite D = true /\ 0 < val D < 1 /\ finite c = true /\ 0 < val c < 1 /\
  val (abs_length D (norm_length D c)) <> val c /\ val (abs_radius D (norm_radius D c)) <> val c.
Proof.
  exists D03, c035. destruct restored_035 as (A & B). apply sf_val in A. apply sf_val in B. rewrite A, B.
  assert (V : forall m, 0 < IZR m < 18014398509481984 -> 0 < IZR m * bpow radix2 (-54) < 1).
  { intros m H. cbn [bpow Z.opp]. split.
    - apply Rmult_lt_0_compat; [lra|]. apply Rinv_0_lt_compat. cbn. lra.
    - cbn. lra. }
  unfold D03, c035. cbn [B2R SpecFloat.cond_Zopp]. unfold F2R. cbn [Fnum Fexp].
  assert (P : 0 < bpow radix2 (-54)) by apply bpow_gt_0.
  split; auto. split; [apply V; lra|]. split; auto. split; [apply V; lra|].
  split; intros C; apply Rmult_eq_reg_r in C; try lra; apply eq_IZR in C; discriminate.
Qed.
Lemma two64_example : finite two64 = true /\ val two64 = bpow radix2 1 /\
  bpow radix2 (-1022) <= Rabs (val two64 / val two64) <= bpow radix2 1023 /\
  bpow radix2 (-1021) <= Rabs (val two64) <= bpow radix2 1022 /\ Rabs (val two64 * 2 / val two64) < bpow radix2 1024.
Proof.
  destruct two64_val as (V & F). rewrite V. split; auto. split; [reflexivity|].
  replace (2 / 2) with (bpow radix2 0) by (cbn; lra). replace (2 * 2 / 2) with (bpow radix2 1) by (cbn; lra). change 2 with (bpow radix2 1).
  rewrite !Rabs_pos_eq by apply bpow_ge_0. repeat split; try (apply bpow_le; lia). apply bpow_lt; lia.
Qed.
