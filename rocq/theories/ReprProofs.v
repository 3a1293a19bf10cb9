(** Reading decimal numerals: of_decimal rounds correctly. *)
From Coq Require Import Reals List ZArith Ascii String Bool Lra Lia.
From Flocq Require Import Core Div BinarySingleNaN.
From Verif Require Import Base TextModel FormatModel ParamsModel PpgFloatModel PpgFloatProofs FloatModel ReprModel ReprSpec.
Import ListNotations.
Open Scope R_scope.

Lemma ten_pow : forall q, powerRZ 10 q = bpow radix10 q.
Proof. intros q. symmetry. apply (bpow_powerRZ radix10). Qed.
Lemma dec_bpow : forall m q, dec m q = IZR m * bpow radix10 q.
Proof. intros. unfold dec. rewrite ten_pow. reflexivity. Qed.
Lemma dec_pos : forall m q, (0 < m)%Z -> 0 < dec m q.
Proof. intros m q M. rewrite dec_bpow. apply Rmult_lt_0_compat; [apply IZR_lt; auto|apply bpow_gt_0]. Qed.
Lemma fraction : forall m q, IZR (m * 10 ^ Z.max q 0) / IZR (10 ^ Z.max (- q) 0) = dec m q.
Proof.
  intros m q. rewrite mult_IZR, dec_bpow. destruct (Z_le_gt_dec 0 q).
  - rewrite Z.max_l, (Z.max_r (- q)) by lia. change (10 ^ 0)%Z with 1%Z. rewrite (IZR_Zpower radix10) by lia. field.
  - rewrite Z.max_r, (Z.max_l (- q)) by lia. change (10 ^ 0)%Z with 1%Z. rewrite (IZR_Zpower radix10) by lia.
    rewrite bpow_opp. field. apply Rgt_not_eq, bpow_gt_0.
Qed.
Lemma to_b64_ok : forall z, SpecFloat.valid_binary 53 1024 z = true -> exists H, to_b64 z = SF2B z H.
Proof. intros z V. unfold to_b64. destruct (bool_dec _ true) as [H|N]; [exists H; reflexivity|contradiction]. Qed.
Lemma signed_lt : forall s y, 0 < y -> Rlt_bool (cond_Ropp s y) 0 = s.
Proof. intros [] y P; cbn [cond_Ropp]; [apply Rlt_bool_true|apply Rlt_bool_false]; lra. Qed.
Lemma rnd_signed : forall s y, rnd (cond_Ropp s y) = cond_Ropp s (rnd y).
Proof. intros [] y; cbn [cond_Ropp]; [apply round_NE_opp|reflexivity]. Qed.
Lemma abs_signed : forall s y, Rabs (cond_Ropp s y) = Rabs y.
Proof. intros [] y; cbn [cond_Ropp]; [apply Rabs_Ropp|reflexivity]. Qed.
Lemma rnd_nonneg : forall y, 0 <= y -> 0 <= rnd y.
Proof. intros y P. rewrite <- (round_0 radix2 fexp64 ZnearestE). apply round_le; auto. apply valid64. apply valid_rnd_N. Qed.

Lemma of_decimal_spec : forall s m q, (0 < m)%Z ->
  (rnd (dec m q) < bpow radix2 1024 -> val (of_decimal s m q) = cond_Ropp s (rnd (dec m q)) /\ finite (of_decimal s m q) = true /\ Bsign (of_decimal s m q) = s) /\
  (bpow radix2 1024 <= rnd (dec m q) -> of_decimal s m q = B754_infinity s).
Proof.
  intros s m q M. unfold of_decimal. rewrite (proj2 (Z.eqb_neq m 0)) by lia.
  set (x := Float radix2 (m * 10 ^ Z.max q 0) 0). set (y := Float radix2 (10 ^ Z.max (- q) 0) 0).
  assert (P1 : (0 < 10 ^ Z.max q 0)%Z) by (apply Z.pow_pos_nonneg; lia). assert (P2 : (0 < 10 ^ Z.max (- q) 0)%Z) by (apply Z.pow_pos_nonneg; lia).
  assert (FX : F2R x = IZR (m * 10 ^ Z.max q 0)) by (unfold F2R, x; cbn [Fnum Fexp bpow]; ring).
  assert (FY : F2R y = IZR (10 ^ Z.max (- q) 0)) by (unfold F2R, y; cbn [Fnum Fexp bpow]; ring).
  assert (FD : F2R x / F2R y = dec m q) by (rewrite FX, FY; apply fraction).
  pose proof (@Fdiv_correct radix2 exp64 x y) as D.
  destruct (Fdiv exp64 x y) as [[d e] l]. destruct D as (D1 & D2); [rewrite FX; apply IZR_lt; nia|rewrite FY; apply IZR_lt; lia|].
  rewrite FD in D1, D2. pose proof (dec_pos m q M) as P. set (v := cond_Ropp s (dec m q)).
  assert (V0 : v <> 0) by (unfold v; destruct s; cbn [cond_Ropp]; lra).
  assert (VA : Rabs v = dec m q) by (unfold v; rewrite abs_signed; apply Rabs_pos_eq; lra).
  pose proof (@binary_round_aux_correct' 53 1024 prec64 emax64 mode_NE v d e l V0) as B.
  rewrite VA in B. specialize (B D2).
  assert (CE : (e <= cexp radix2 (SpecFloat.fexp 53 1024) v)%Z) by (rewrite <- cexp_abs, VA; exact D1).
  specialize (B CE). cbv zeta in B. unfold v in B at 1 4 5. rewrite !(signed_lt s) in B by exact P.
  change (round radix2 (SpecFloat.fexp 53 1024) (round_mode mode_NE) v) with (rnd v) in B.
  unfold v in B. rewrite rnd_signed, abs_signed, (signed_lt s) in B by exact P. rewrite (Rabs_pos_eq (rnd (dec m q))) in B by (apply rnd_nonneg; lra).
  destruct B as (B1 & B2). destruct (to_b64_ok _ B1) as (H & E). rewrite E.
  rewrite B2R_SF2B, is_finite_SF2B, Bsign_SF2B. split; intros C.
  - rewrite Rlt_bool_true in B2 by exact C. rewrite <- rnd_signed. exact B2.
  - rewrite Rlt_bool_false in B2 by exact C. destruct s; revert H E; rewrite B2; intros H E; reflexivity.
Qed.
