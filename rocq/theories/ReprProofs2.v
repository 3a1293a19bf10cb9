(** The shortest numeral. *)
From Coq Require Import Reals List ZArith Ascii String Bool Lra Lia.
From Flocq Require Import Core Div BinarySingleNaN.
From Verif Require Import Base TextModel FormatModel ParamsModel PpgFloatModel PpgFloatProofs FloatModel ReprModel ReprSpec ReprProofs.
Import ListNotations.
Open Scope R_scope.

(** ** Seventeen digits are enough *)
Lemma ulp_large : forall e, bpow radix2 e <= 9007199254740992 * bpow radix2 (FLT_exp (-1074) 53 e).
Proof.
  intros e. replace 9007199254740992 with (bpow radix2 53) by (cbn; lra). rewrite <- bpow_plus. apply bpow_le. unfold FLT_exp. lia.
Qed.
Lemma close_reads : forall x t y, generic_format radix2 fexp64 x -> 0 < x -> 0 < t -> 10000000000000000 * t <= x -> Rabs (y - x) <= t / 2 -> rnd y = x.
Proof.
  intros x t y F X T L D. pose proof valid64 as VE.
  set (e := mag radix2 x : Z). assert (B : bpow radix2 (e - 1) <= x < bpow radix2 e).
  { rewrite <- (Rabs_pos_eq x) by lra. split; [apply bpow_mag_le; lra|apply bpow_mag_gt]. }
  assert (U : ulp radix2 fexp64 x = bpow radix2 (FLT_exp (-1074) 53 e)) by (apply ulp_neq_0; lra).
  assert (TU : t < ulp radix2 fexp64 x) by (rewrite U; pose proof (ulp_large e); lra).
  assert (TP : t < x - pred radix2 fexp64 x).
  { rewrite pred_eq_pos by lra. unfold pred_pos. fold e. destruct (Req_bool_spec x (bpow radix2 (e - 1))) as [E|E].
    - pose proof (ulp_large (e - 1)). lra.
    - lra. }
  apply Rabs_le_inv in D. apply Rle_antisym.
  - apply round_N_le_midp; auto. rewrite succ_eq_pos by lra. lra.
  - apply round_N_ge_midp; auto. lra.
Qed.

(** ** Decimals *)
Lemma dec_scale : forall m j q, (0 <= j)%Z -> dec (m * 10 ^ j) q = dec m (q + j).
Proof. intros m j q J. rewrite !dec_bpow, bpow_plus, mult_IZR, (IZR_Zpower radix10) by auto. ring. Qed.
Lemma dec_lt : forall a b q, dec a q < dec b q <-> (a < b)%Z.
Proof.
  intros a b q. rewrite !dec_bpow. pose proof (bpow_gt_0 radix10 q). split; intros H0.
  - apply lt_IZR. apply Rmult_lt_reg_r with (bpow radix10 q); auto.
  - apply Rmult_lt_compat_r; auto. apply IZR_lt. auto.
Qed.
Lemma dec_le : forall a b q, dec a q <= dec b q <-> (a <= b)%Z.
Proof. intros a b q. pose proof (dec_lt b a q). split; intros H0; [apply Z.nlt_ge|apply Rnot_lt_le]; intros C; [apply H in C; lra|apply H in C; lia]. Qed.
Lemma exact_ok : forall m e N q, exact_decimal m e = (N, q) -> dec N q = F2R (Float radix2 (Zpos m) e) /\ (0 < N)%Z.
Proof.
  intros m e N q. unfold exact_decimal, F2R. cbn [Fnum Fexp]. assert (M : (0 < Z.pos m)%Z) by lia. revert M. generalize (Z.pos m). intros z M. destruct (Z.leb_spec 0 e) as [P|P]; intros E; inversion E; subst N q; clear E; rewrite dec_bpow, mult_IZR.
  - split; [|assert (0 < 2 ^ e)%Z by (apply Z.pow_pos_nonneg; lia); lia]. rewrite (IZR_Zpower radix2) by auto. cbn [bpow]. ring.
  - assert (P5 : (0 < 5 ^ (- e))%Z) by (apply Z.pow_pos_nonneg; lia). split; [|lia].
    assert (T : forall r, bpow r e = / IZR (Zpower r (- e))) by (intros r; rewrite IZR_Zpower, bpow_opp, Rinv_inv by lia; reflexivity).
    rewrite !T. change (Zpower radix10 (- e)) with (10 ^ (- e))%Z. change (Zpower radix2 (- e)) with (2 ^ (- e))%Z.
    replace 10%Z with (2 * 5)%Z by reflexivity. rewrite Z.pow_mul_l, mult_IZR. field.
    assert (P2 : (0 < 2 ^ (- e))%Z) by (apply Z.pow_pos_nonneg; lia). split; apply IZR_neq; lia.
Qed.

Lemma some_pair : forall (u v d k : Z), Some (u, v) = Some (d, k) -> d = u /\ k = v.
Proof. intros u v d k E. injection E. auto. Qed.
(** ** Numerals that are read back *)
Section Number.
Variables (m : positive) (e : Z) (H : SpecFloat.bounded 53 1024 m e = true).
Let a : b64 := B754_finite false m e H.
Let x : R := val a.
Lemma a_pos : 0 < x.
Proof. apply F2R_gt_0. reflexivity. Qed.
Lemma a_small : x < bpow radix2 1024.
Proof. pose proof (abs_B2R_lt_emax 53 1024 a) as B. fold x in B. rewrite Rabs_pos_eq in B by (pose proof a_pos; lra). exact B. Qed.
Lemma reads_true : forall d q, (0 < d)%Z -> reads_as a d q = true <-> rnd (dec d q) = x.
Proof.
  intros d q D. unfold reads_as. destruct (of_decimal_spec false d q D) as (S1 & S2). destruct (Rlt_le_dec (rnd (dec d q)) (bpow radix2 1024)) as [C|C].
  - destruct (S1 C) as (V & F & _). rewrite Beqb_correct by auto. rewrite V. cbn [cond_Ropp]. fold x. split.
    + intros E. destruct (Req_bool_spec (rnd (dec d q)) x); auto. discriminate.
    + intros ->. apply Req_bool_true. auto.
  - rewrite (S2 C). split; [discriminate|]. pose proof a_small. lra.
Qed.
Lemma x_exact : rnd x = x.
Proof. apply rnd_exact. apply format_val. Qed.

Variables (N q : Z).
Hypothesis X : dec N q = x.
Hypothesis N0 : (0 < N)%Z.
Let D := Zdigits radix10 N.
Lemma digits_N : (10 ^ (D - 1) <= N < 10 ^ D)%Z /\ (0 < D)%Z.
Proof.
  pose proof (Zdigits_correct radix10 N) as C. fold D in C. rewrite Z.abs_eq in C by lia. split; [exact C|]. apply Zdigits_gt_0. lia.
Qed.
(** The two numerals of [n] digits next to [x]. *)
Lemma neighbours : forall n, (0 < n)%Z -> (0 < D - n)%Z -> let k := (D - n)%Z in let d := (N / 10 ^ k)%Z in
  (10 ^ (n - 1) <= d < 10 ^ n)%Z /\ dec d (q + k) <= x < dec (d + 1) (q + k) /\
  forall m' q', (0 < m' < 10 ^ n)%Z -> dec m' q' <= dec d (q + k) \/ dec (d + 1) (q + k) <= dec m' q'.
Proof.
  intros n Hn Hk k d. destruct digits_N as (B & _). assert (P : (0 < 10 ^ k)%Z) by (apply Z.pow_pos_nonneg; unfold k; lia).
  assert (E1 : (10 ^ (D - 1) = 10 ^ (n - 1) * 10 ^ k)%Z) by (rewrite <- Z.pow_add_r by (unfold k; lia); f_equal; unfold k; lia).
  assert (E2 : (10 ^ D = 10 ^ n * 10 ^ k)%Z) by (rewrite <- Z.pow_add_r by (unfold k; lia); f_equal; unfold k; lia).
  assert (DM := Z.div_mod N (10 ^ k) ltac:(lia)). assert (MB := Z.mod_pos_bound N (10 ^ k) P). fold d in DM.
  assert (R1 : (10 ^ (n - 1) <= d < 10 ^ n)%Z) by nia. split; [exact R1|]. split.
  - rewrite <- X, <- !dec_scale by (unfold k; lia). split; [apply dec_le|apply dec_lt]; nia.
  - intros m' q' M. destruct (Rle_lt_dec (dec m' q') (dec d (q + k))) as [|C1]; [auto|]. right. apply Rnot_lt_le. intros C2.
    destruct (Z_le_gt_dec (q + k) q') as [L|L].
    + replace q' with (q + k + (q' - (q + k)))%Z in C1, C2 by ring. rewrite <- (dec_scale m' (q' - (q + k)) (q + k)) in C1, C2 by lia. apply dec_lt in C1. apply dec_lt in C2. lia.
    + replace (q + k)%Z with (q' + (q + k - q'))%Z in C1 by ring. rewrite <- (dec_scale d (q + k - q') q') in C1 by lia. apply dec_lt in C1.
      assert (T : (10 ^ 1 <= 10 ^ (q + k - q'))%Z) by (apply Z.pow_le_mono_r; lia).
      assert (T2 : (10 ^ n = 10 ^ (n - 1) * 10 ^ 1)%Z) by (rewrite <- Z.pow_add_r by lia; f_equal; lia).
      assert (0 < 10 ^ (n - 1))%Z by (apply Z.pow_pos_nonneg; lia). nia.
Qed.
Lemma candidate_none : forall n, (0 < n)%Z -> candidate a N q n = None -> forall m' q', (0 < m' < 10 ^ n)%Z -> rnd (dec m' q') <> x.
Proof.
  intros n Hn. unfold candidate. fold D. destruct (Z.leb_spec (D - n) 0) as [|K]; [discriminate|].
  destruct (neighbours n Hn K) as (R1 & R2 & R3). set (k := (D - n)%Z) in *. set (d := (N / 10 ^ k)%Z) in *.
  assert (D0 : (0 < d)%Z) by (assert (0 < 10 ^ (n - 1))%Z by (apply Z.pow_pos_nonneg; lia); lia).
  destruct (reads_as a d (q + k)) eqn:E1; [destruct (reads_as a (d + 1) (q + k)); discriminate|].
  destruct (reads_as a (d + 1) (q + k)) eqn:E2; [discriminate|]. intros _ m' q' M E. pose proof valid64.
  assert (MONO : forall u v, u <= v -> rnd u <= rnd v) by (intros u v; apply round_le; auto; apply valid_rnd_N).
  destruct (R3 m' q' M) as [C|C]; apply MONO in C.
  - assert (E3 : reads_as a d (q + k) = true); [|congruence]. apply reads_true; auto. apply Rle_antisym; [|lra]. rewrite <- x_exact. apply MONO. lra.
  - assert (E3 : reads_as a (d + 1) (q + k) = true); [|congruence]. apply reads_true; [lia|]. apply Rle_antisym; [lra|]. rewrite <- x_exact. apply MONO. lra.
Qed.
Lemma candidate_some : forall n d k, (0 < n)%Z -> candidate a N q n = Some (d, k) ->
  (0 < d <= 10 ^ n)%Z /\ rnd (dec d k) = x /\
  forall m' q', (0 < m' < 10 ^ n)%Z -> rnd (dec m' q') = x -> Rabs (dec d k - x) <= Rabs (dec m' q' - x).
Proof.
  intros n d0 k0 Hn. unfold candidate. fold D. destruct (Z.leb_spec (D - n) 0) as [K|K].
  - intros E. injection E as <- <-. destruct digits_N as (B & _). assert (10 ^ D <= 10 ^ n)%Z by (apply Z.pow_le_mono_r; lia).
    split; [lia|]. split; [rewrite X; apply x_exact|]. intros m' q' _ _. rewrite X, Rminus_diag_eq, Rabs_R0 by auto. apply Rabs_pos.
  - destruct (neighbours n Hn K) as (R1 & R2 & R3). set (k := (D - n)%Z) in *. set (d := (N / 10 ^ k)%Z) in *.
    assert (D0 : (0 < d)%Z) by (assert (0 < 10 ^ (n - 1))%Z by (apply Z.pow_pos_nonneg; lia); lia).
    assert (P : (0 < 10 ^ k)%Z) by (apply Z.pow_pos_nonneg; unfold k; lia).
    assert (DM := Z.div_mod N (10 ^ k) ltac:(lia)). fold d in DM. set (r := (N mod 10 ^ k)%Z) in *.
    assert (G1 : x - dec d (q + k) = dec r q) by (rewrite <- X, <- dec_scale by (unfold k; lia); rewrite !dec_bpow, DM, plus_IZR, !mult_IZR; ring).
    assert (G2 : dec (d + 1) (q + k) - x = dec (10 ^ k - r) q) by (rewrite <- X, <- dec_scale by (unfold k; lia); rewrite !dec_bpow, DM, minus_IZR, !plus_IZR, !mult_IZR, plus_IZR; ring).
    assert (MONO : forall u v, u <= v -> rnd u <= rnd v) by (intros u v; apply round_le; [apply valid64|apply valid_rnd_N]).
    assert (NO1 : reads_as a d (q + k) = false -> forall m' q', (0 < m' < 10 ^ n)%Z -> rnd (dec m' q') = x -> dec (d + 1) (q + k) <= dec m' q').
    { intros E m' q' M Q. destruct (R3 m' q' M) as [C|C]; [|auto]. exfalso. assert (E3 : reads_as a d (q + k) = true); [|congruence].
      apply reads_true; auto. apply Rle_antisym; [rewrite <- x_exact; apply MONO; lra|]. apply MONO in C. lra. }
    assert (NO2 : reads_as a (d + 1) (q + k) = false -> forall m' q', (0 < m' < 10 ^ n)%Z -> rnd (dec m' q') = x -> dec m' q' <= dec d (q + k)).
    { intros E m' q' M Q. destruct (R3 m' q' M) as [C|C]; [auto|]. exfalso. assert (E3 : reads_as a (d + 1) (q + k) = true); [|congruence].
      apply reads_true; [lia|]. apply Rle_antisym; [apply MONO in C; lra|]. rewrite <- x_exact. apply MONO. lra. }
    destruct (reads_as a d (q + k)) eqn:E1; destruct (reads_as a (d + 1) (q + k)) eqn:E2; intros E; try discriminate E; apply some_pair in E; destruct E as (-> & ->);
      try (apply reads_true in E1; [|lia]); try (apply reads_true in E2; [|lia]).
    + set (c := if (2 * r <? 10 ^ k)%Z then d else if (10 ^ k <? 2 * r)%Z then (d + 1)%Z else if Z.even d then d else (d + 1)%Z).
      assert (Hc : (c = d /\ dec r q <= dec (10 ^ k - r) q) \/ (c = (d + 1)%Z /\ dec (10 ^ k - r) q <= dec r q)).
      { unfold c. destruct (Z.ltb_spec (2 * r) (10 ^ k)); [left; split; auto; apply dec_le; lia|].
        destruct (Z.ltb_spec (10 ^ k) (2 * r)); [right; split; auto; apply dec_le; lia|].
        destruct (Z.even d); [left|right]; split; auto; apply dec_le; lia. }
      clearbody c. destruct Hc as [(-> & C)|(-> & C)]; (split; [clear - R1 D0; lia|]); (split; [assumption|]); intros m' q' M _; destruct (R3 m' q' M) as [T|T];
        unfold Rabs; repeat destruct Rcase_abs; lra.
    + split; [lia|]. split; [assumption|]. intros m' q' M Q. pose proof (NO2 eq_refl m' q' M Q). unfold Rabs; repeat destruct Rcase_abs; lra.
    + split; [lia|]. split; [assumption|]. intros m' q' M Q. pose proof (NO1 eq_refl m' q' M Q). unfold Rabs; repeat destruct Rcase_abs; lra.
Qed.
Lemma candidate_17 : candidate a N q 17 <> None.
Proof.
  intros E. assert (E0 := candidate_none 17 ltac:(lia) E). unfold candidate in E. fold D in E. destruct (Z.leb_spec (D - 17) 0) as [K|K]; [discriminate|].
  destruct (neighbours 17 ltac:(lia) K) as (R1 & R2 & _). set (k := (D - 17)%Z) in *. set (d := (N / 10 ^ k)%Z) in *. change (10 ^ (17 - 1))%Z with 10000000000000000%Z in R1.
  assert (P := bpow_gt_0 radix10 (q + k)). assert (L : 10000000000000000 * bpow radix10 (q + k) <= x).
  { apply Rle_trans with (dec d (q + k)); [|lra]. rewrite dec_bpow. apply Rmult_le_compat_r; [lra|]. apply IZR_le. lia. }
  assert (W : dec (d + 1) (q + k) = dec d (q + k) + bpow radix10 (q + k)) by (rewrite !dec_bpow, plus_IZR; ring).
  destruct (Rle_lt_dec (x - dec d (q + k)) (bpow radix10 (q + k) / 2)) as [C|C].
  - assert (Q : rnd (dec d (q + k)) = x) by (apply close_reads with (bpow radix10 (q + k)); auto; [apply format_val|apply a_pos|unfold Rabs; destruct Rcase_abs; lra]).
    apply (reads_true d) in Q; [|lia]. rewrite Q in E. destruct (reads_as a (d + 1) (q + k)); discriminate.
  - assert (Q : rnd (dec (d + 1) (q + k)) = x) by (apply close_reads with (bpow radix10 (q + k)); auto; [apply format_val|apply a_pos|unfold Rabs; destruct Rcase_abs; lra]).
    apply (reads_true (d + 1)) in Q; [|lia]. rewrite Q in E. destruct (reads_as a d (q + k)); discriminate.
Qed.
(** The first successful number of digits. *)
Lemma search_ok : forall fuel n, (0 < n)%Z -> (exists j, (n <= j < n + Z.of_nat fuel)%Z /\ candidate a N q j <> None) ->
  exists j, (n <= j < n + Z.of_nat fuel)%Z /\ candidate a N q j = Some (search a N q n fuel) /\
    forall i, (n <= i < j)%Z -> candidate a N q i = None.
Proof.
  induction fuel as [|f IH]; intros n Hn (j & J & C); [lia|]. cbn [search]. destruct (candidate a N q n) as [mq|] eqn:E.
  - exists n. split; [lia|]. split; [auto|]. intros; lia.
  - destruct (IH (n + 1)%Z ltac:(lia)) as (i & I & I2 & I3).
    + exists j. split; [|auto]. destruct (Z.eq_dec j n) as [->|]; [congruence|lia].
    + exists i. split; [lia|]. split; [auto|]. intros l Hl. destruct (Z.eq_dec l n) as [->|]; auto. apply I3. lia.
Qed.
End Number.

(** ** Zeros at the end *)
Lemma strip_spec : forall fuel m q d k, (0 < m)%Z -> strip_zeros fuel m q = (d, k) -> (0 < d <= m)%Z /\ dec d k = dec m q /\
  (m < 10 ^ Z.of_nat fuel -> d mod 10 <> 0)%Z /\ ((d mod 10 = 0)%Z \/ (m mod 10 = 0 -> (0 < fuel)%nat -> d < m)%Z).
Proof.
  induction fuel as [|f IH]; intros m q d k M; cbn [strip_zeros].
  - intros E. injection E as <- <-. split; [lia|]. split; [auto|]. split; [cbn; lia|right; lia].
  - destruct (Z.eqb_spec (m mod 10) 0) as [Z0|Z0].
    + intros E. assert (DM := Z.div_mod m 10 ltac:(lia)). rewrite Z0 in DM. assert (M1 : (0 < m / 10)%Z) by lia.
      destruct (IH _ _ _ _ M1 E) as (A & B & C & _). split; [lia|]. split.
      * rewrite B. replace m with (m / 10 * 10 ^ 1)%Z at 2 by lia. rewrite dec_scale by lia. reflexivity.
      * split; [|right; intros; lia]. intros L. apply C. rewrite Nat2Z.inj_succ, Z.pow_succ_r in L by lia. lia.
    + intros E. injection E as <- <-. split; [lia|]. split; [auto|]. split; [auto|right; lia].
Qed.

Lemma digits_bound : forall m, (0 < m)%Z -> (m < 10 ^ Zdigits radix10 m)%Z /\ (0 < Zdigits radix10 m)%Z.
Proof.
  intros m M. pose proof (Zdigits_correct radix10 m) as (_ & C). rewrite Z.abs_eq in C by lia. split; [exact C|]. apply Zdigits_gt_0. lia.
Qed.
Lemma shortest_spec : forall m e H d k, shortest m e H = (d, k) ->
  (0 < d < 10 ^ 17)%Z /\ (d mod 10 <> 0)%Z /\ rnd (dec d k) = F2R (Float radix2 (Zpos m) e) /\
  forall m' q', (0 < m')%Z -> rnd (dec m' q') = F2R (Float radix2 (Zpos m) e) -> (Zdigits radix10 d <= Zdigits radix10 m')%Z /\
    ((Zdigits radix10 m' <= Zdigits radix10 d)%Z -> Rabs (dec d k - F2R (Float radix2 (Zpos m) e)) <= Rabs (dec m' q' - F2R (Float radix2 (Zpos m) e))).
Proof.
  intros m e H d k. unfold shortest. destruct (exact_decimal m e) as [N q] eqn:E. destruct (exact_ok _ _ _ _ E) as (X & N0).
  change (dec N q = val (B754_finite false m e H)) in X.
  destruct (search_ok m e H N q 17 1 ltac:(lia)) as (j & J & C & NO).
  { exists 17%Z. split; [lia|]. apply candidate_17; auto. }
  destruct (search (B754_finite false m e H) N q 1 17) as [d0 k0]. intros S.
  destruct (candidate_some m e H N q X N0 j d0 k0 ltac:(lia) C) as (D0 & R & CL).
  destruct (strip_spec _ d0 k0 d k (proj1 D0) S) as (D1 & DE & NZ & _).
  assert (F : (d mod 10 <> 0)%Z).
  { apply NZ. destruct (digits_bound d0) as (A & B); [lia|]. rewrite Z2Nat.id by lia. exact A. }
  assert (DJ : (d < 10 ^ j)%Z).
  { destruct (Z.eq_dec d (10 ^ j)) as [Q|]; [|lia]. exfalso. apply F. rewrite Q. replace (10 ^ j)%Z with (10 ^ (j - 1) * 10)%Z by (rewrite <- (Z.pow_1_r 10) at 2; rewrite <- Z.pow_add_r by lia; f_equal; lia). apply Z_mod_mult. }
  assert (J17 : (10 ^ j <= 10 ^ 17)%Z) by (apply Z.pow_le_mono_r; lia).
  assert (DD : (Zdigits radix10 d <= j)%Z) by (apply Zdigits_le_Zpower; rewrite Z.abs_eq by lia; exact DJ).
  split; [lia|]. split; [exact F|]. split; [rewrite DE; exact R|]. intros m' q' M Q. destruct (digits_bound m' M) as (MB & MP).
  rewrite DE. split.
  - apply Z.nlt_ge. intros L. apply (candidate_none m e H N q X N0 (Zdigits radix10 m') MP) with m' q'; auto. apply NO. lia.
  - intros L. apply CL; auto. split; [auto|]. apply Z.lt_le_trans with (1 := MB). apply Z.pow_le_mono_r; lia.
Qed.

(** A numeral is read as [x] if rounding gives [x]. *)
Lemma reads_back : forall s m e H d k, (0 < d)%Z -> rnd (dec d k) = F2R (Float radix2 (Zpos m) e) -> of_decimal s d k = B754_finite s m e H.
Proof.
  intros s m e H d k D E. assert (S : F2R (Float radix2 (Zpos m) e) < bpow radix2 1024) by (apply (a_small m e H)).
  destruct (of_decimal_spec s d k D) as (V & _). rewrite E in V. destruct (V S) as (A & B & C). apply B2R_Bsign_inj; auto.
  rewrite A. unfold B2R. rewrite F2R_cond_Zopp. reflexivity.
Qed.
Lemma reads_iff : forall s m e H d k, (0 < d)%Z -> of_decimal s d k = B754_finite s m e H <-> rnd (dec d k) = F2R (Float radix2 (Zpos m) e).
Proof.
  intros s m e H d k D. split; [|apply reads_back; auto]. intros E. destruct (of_decimal_spec s d k D) as (V & W).
  destruct (Rlt_le_dec (rnd (dec d k)) (bpow radix2 1024)) as [C|C].
  - destruct (V C) as (A & _). rewrite E in A. unfold B2R in A. rewrite F2R_cond_Zopp in A. destruct s; cbn [cond_Ropp] in A; lra.
  - rewrite (W C) in E. discriminate.
Qed.
