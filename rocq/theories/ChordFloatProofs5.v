(** The largest camber of five-digit foils in binary64. *)
From Coq Require Import Reals ZArith List Lra Lia Bool.
From Flocq Require Import Core BinarySingleNaN.
From Verif Require Import Base PpgFloatModel PpgFloatProofs ProfileModel ProfileSpec FloatModel FloatSpec FloatProofs ShapeFloatModel ShapeFloatSpec ShapeFloatProofs SectionFloatModel SectionFloatProofs6 NacaModel NacaSpec NacaProofs NacaFloatModel NacaFloatSpec NacaFloatProofs5 NacaFloatProofs7 NacaFiveModel NacaFiveSpec NacaFiveProofs NacaFiveProofs2 NacaFiveProofs3 ChordFloatModel ChordFloatProofs ChordFloatProofs3.
Import ListNotations.
Open Scope R_scope.

Lemma line5_bound : forall k m x, 0 <= k -> 1 / 100 <= m <= 1 / 2 -> k * m ^ 2 <= 5 / 4 -> 0 <= x <= 1 -> Rabs (camber_line5 k m x) <= 1 / 2.
Proof.
  intros k m x K M Q X. assert (T : 0 <= k * m ^ 3 <= 5 / 8). { replace (k * m ^ 3) with (k * m ^ 2 * m) by ring. assert (0 <= k * m ^ 2) by (apply Rmult_le_pos; [exact K|apply pow2_ge_0]). split; [apply Rmult_le_pos; lra|]. replace (5 / 8) with (5 / 4 * (1 / 2)) by lra. apply Rmult_le_compat; lra. }
  unfold camber_line5. destruct (Rle_dec x m) as [I|I].
  - assert (A : 0 <= x ^ 2 <= m ^ 2) by (split; [apply pow2_ge_0|apply pow_incr; lra]). assert (B : 0 <= x ^ 3 <= m ^ 3) by (split; [apply pow_le; lra|apply pow_incr; lra]).
    assert (C : 0 <= m * x ^ 2 <= m ^ 3). { split; [apply Rmult_le_pos; lra|]. replace (m ^ 3) with (m * m ^ 2) by ring. apply Rmult_le_compat_l; lra. }
    assert (D : 0 <= m ^ 2 * x <= m ^ 3). { split; [apply Rmult_le_pos; [apply pow2_ge_0|lra]|]. replace (m ^ 3) with (m ^ 2 * m) by ring. apply Rmult_le_compat_l; [apply pow2_ge_0|lra]. }
    assert (E : 0 <= m ^ 2 * x * m <= m ^ 3 / 2). { split; [apply Rmult_le_pos; lra|]. apply Rle_trans with (m ^ 2 * x * (1 / 2)); [apply Rmult_le_compat_l; lra|lra]. }
    replace (k / 6 * _) with (k * (x ^ 3 - 3 * (m * x ^ 2) + 3 * (m ^ 2 * x) - m ^ 2 * x * m) / 6) by field.
    set (w := x ^ 3 - 3 * (m * x ^ 2) + 3 * (m ^ 2 * x) - m ^ 2 * x * m). assert (W : - (4 * m ^ 3) <= w <= 4 * m ^ 3) by (unfold w; lra).
    assert (k * w <= k * (4 * m ^ 3)) by (apply Rmult_le_compat_l; lra). assert (k * (- (4 * m ^ 3)) <= k * w) by (apply Rmult_le_compat_l; lra). apply Rabs_le. lra.
  - replace (k / 6 * _) with (k * m ^ 3 * (1 - x) / 6) by field. assert (0 <= k * m ^ 3 * (1 - x) <= 5 / 8 * 1) by (split; [apply Rmult_le_pos; lra|apply Rmult_le_compat; lra]). apply Rabs_le. lra.
Qed.

Lemma foil_camber5 : forall L S o a b reflex c d n cosine p, naca5_input L S a b reflex c d n -> naca_foil5_64 L S a b (third reflex) c d cosine n = Ok p -> (1 <= 10 * c + d)%nat -> cosine = false \/ b = 0%nat ->
  exists m k, (b <> 0%nat -> Rabs (m - junction5 reflex b) <= / 2 ^ 30 /\ Rabs (k - strength5 reflex b) <= / 2 ^ 10) /\
  exists M, max_camber64 o p = Ok M /\ is_number M /\
  (exists i x, (i < n)%nat /\ Rabs (x - INR i / INR (n - 1)) <= 3 * eps /\ 0 <= x <= 1 /\ Rabs (real M - camber5 a b cosine k m x) <= 167 * eps) /\
  (forall j, (j < n)%nat -> exists x, Rabs (x - INR j / INR (n - 1)) <= 3 * eps /\ 0 <= x <= 1 /\ Rabs (camber5 a b cosine k m x) <= Rabs (real M) + 167 * eps).
Proof.
  intros L S o a b reflex c d n cosine p K E T Fl. destruct (produced5 L S a b reflex c d n cosine K) as (p' & E' & Ln & Sz & N). assert (p' = p) by congruence. subst p'. clear E'.
  destruct (stations5 L S a b reflex c d n cosine K p E Fl) as (Ex & St & Inc). destruct (leading5 L S a b reflex c d n cosine K p E) as (X0 & Y0 & _ & _).
  destruct (crossed5 L S a b reflex c d n cosine K p E T) as (_ & Yn & _ & Xn & _). destruct (coordinates5 L S a b reflex c d n cosine K p E) as (m & k & Mk & Co). cbv zeta in *.
  pose proof K as (_ & _ & Da & Db & Dc & Dd & Nn & Mn). pose proof eps_bounds as [E1 E2].
  assert (Hd : forall l : list b64, hd zero64 l = nth 0 l zero64) by (intros []; reflexivity).
  assert (La : forall l : list b64, length l = n -> last l zero64 = nth (n - 1) l zero64).
  { clear. intros l <-. induction l as [|x [|y l] IH]; auto. change (last (x :: y :: l) zero64) with (last (y :: l) zero64). rewrite IH. cbn. rewrite Nat.sub_0_r. reflexivity. }
  pose proof Sz as (S1 & S2 & S3). unfold up64, down64 in *. cbn [fst snd] in *.
  assert (NE : fxup p <> []). { intros Q. rewrite Q in Ln. cbn in Ln. lia. }
  assert (Cm : common_abscissae p). { destruct N as (N1 & N2 & _). split; [exact N1|]. split; [exact N2|]. rewrite Ex. reflexivity. }
  assert (Lv : level p). { unfold level. rewrite !La, Hd by congruence. rewrite Y0, Yn. ring. }
  pose proof huge_big as HB. assert (E9 : 10000 * eps <= / 1000). { unfold eps. change (bpow radix2 (-53)) with (/ 9007199254740992). lra. }
  assert (CB : forall x, 0 <= x <= 1 -> Rabs (camber5 a b cosine k m x) <= 1 / 2).
  { intros x X. unfold camber5. destruct (Nat.eqb_spec b 0) as [Z|Z]; [rewrite Rabs_R0; lra|]. destruct Fl as [->|Z']; [|contradiction]. rewrite Rmult_1_l. destruct (Mk Z) as (M1 & M2). destruct Db as [Z'|Tb]; [contradiction|]. destruct (table_bounds reflex b m k Tb M1 M2) as (B1 & B2 & B3). apply line5_bound; auto; lra. }
  assert (Q : forall i, (i < n)%nat -> exists x, Rabs (x - INR i / INR (n - 1)) <= 3 * eps /\ 0 <= x <= 1 /\ let h := (real (nth i (fyup p) zero64) + real (nth i (fydown p) zero64)) / 2 in
    Rabs (h - camber5 a b cosine k m x) <= 160 * eps /\ Rabs (real (nth i (fyup p) zero64)) <= 1 /\ Rabs (real (nth i (fydown p) zero64)) <= 1).
  { intros i Hi. destruct (Co i Hi) as (x & Bx & Rx & _ & _ & _ & _ & Yu & Yd). exists x. split; [exact Bx|]. split; [exact Rx|].
    assert (An : angle5 b cosine k m x = 0). { unfold angle5. destruct Fl as [->| ->]; [rewrite orb_true_r|]; reflexivity. } rewrite An, cos_0, Rmult_1_r in Yu, Yd.
    pose proof (Rabs_le_inv _ _ (CB x Rx)) as (C0 & C1).
    destruct (thickness_val c d Dc Dd) as (_ & Tb & _). destruct (half_bounds _ x (proj1 Tb) Rx) as (G0 & G1). fold (half4 c d x) in G0, G1. apply Rabs_le_inv in Yu. apply Rabs_le_inv in Yd.
    split; [apply Rabs_le; lra|]. split; apply Rabs_le; lra. }
  assert (FB : forall l : list b64, length l = n -> (forall i, (i < n)%nat -> Rabs (real (nth i l zero64)) <= 1) -> Forall (fun y => Rabs y <= 1) (map real l)).
  { intros l Hl H. apply Forall_forall. intros y I. apply in_map_iff in I as (z & <- & I). destruct (In_nth l z zero64 I) as (i & Hi & <-). apply H. lia. }
  assert (P3 : 1 <= bpow radix2 300). { change 1 with (bpow radix2 0). apply bpow_le. lia. }
  destruct (level_measured o p 1 N Cm Sz NE Lv) as (M & Em & Fm & (i & Hi & Er) & Mx).
  { rewrite Hd, La by auto. rewrite X0. apply Rabs_le_inv in Xn. lra. }
  { unfold meaning. cbn [xup]. apply Forall_forall. intros y I. apply in_map_iff in I as (z & <- & I). destruct (In_nth _ z zero64 I) as (i & Hi & <-). rewrite Ln in Hi. pose proof (St i Hi) as Sx. assert (G : 0 <= INR i / INR (n - 1) <= 1).
    { assert (0 < INR (n - 1)) by (apply lt_0_INR; lia). pose proof (pos_INR i). assert (INR i <= INR (n - 1)) by (apply le_INR; lia). split; [apply Rmult_le_pos; [lra|apply Rlt_le, Rinv_0_lt_compat; lra]|]. apply Rmult_le_reg_r with (INR (n - 1)); [lra|]. unfold Rdiv. rewrite Rmult_assoc, Rinv_l; lra. }
    apply Rabs_le_inv in Sx. apply Rabs_le. lra. }
  { exact P3. }
  { apply FB; [congruence|]. intros i Hi. destruct (Q i Hi) as (x & _ & _ & _ & B & _). exact B. }
  { apply FB; [congruence|]. intros i Hi. destruct (Q i Hi) as (x & _ & _ & _ & _ & B). exact B. }
  rewrite Hd, Y0 in Er. rewrite Ln in Hi, Mx. exists m, k. split; [exact Mk|].
  assert (Ti : bpow radix2 (-500) <= eps) by (unfold eps; apply bpow_le; lia).
  exists M. split; [exact Em|]. split; [exact Fm|]. split.
  - destruct (Q i Hi) as (x & Bx & Rx & Cx & _). cbv zeta in Cx. apply Rabs_le_inv in Er. apply Rabs_le_inv in Cx. exists i, x. split; [exact Hi|]. split; [exact Bx|]. split; [exact Rx|]. apply Rabs_le. lra.
  - intros j Hj. destruct (Q j Hj) as (x & Bx & Rx & Cx & _). cbv zeta in Cx. exists x. split; [exact Bx|]. split; [exact Rx|]. pose proof (Mx j Hj) as Mj. rewrite Hd, Y0, Rminus_0_r in Mj.
    set (h := (real (nth j (fyup p) zero64) + real (nth j (fydown p) zero64)) / 2) in *. replace (camber5 a b cosine k m x) with (h - (h - camber5 a b cosine k m x)) by ring.
    eapply Rle_trans; [apply Rabs_triang|]. rewrite Rabs_Ropp. lra.
Qed.
