(** The largest camber of four-digit foils in binary64. *)
From Coq Require Import Reals ZArith List Lra Lia Bool.
From Flocq Require Import Core BinarySingleNaN.
From Verif Require Import Base PpgFloatModel PpgFloatProofs ProfileModel ProfileSpec FloatModel FloatSpec FloatProofs ShapeFloatModel ShapeFloatSpec ShapeFloatProofs SectionFloatModel SectionFloatProofs6 NacaModel NacaSpec NacaProofs NacaFloatModel NacaFloatSpec NacaFloatProofs5 NacaFloatProofs7 ChordFloatModel ChordFloatProofs ChordFloatProofs3.
Import ListNotations.
Open Scope R_scope.

Lemma camber4_bounds : forall a b x, digit a -> digit b -> 0 <= x <= 1 -> 0 <= camber4 a b x <= INR a / 100.
Proof.
  intros a b x A B X. unfold camber4, digit in *. pose proof (pos_INR a) as P. destruct (Nat.eqb_spec b 0) as [Z|Z]; [lra|]. apply camber4_range; [lra| |exact X].
  assert (1 <= INR b <= 9). { split; [change 1 with (INR 1)|replace 9 with (INR 9) by (cbn; lra)]; apply le_INR; lia. } lra.
Qed.

Lemma foil_camber : forall L o a b c d n cosine p, naca_input L a b c d n -> naca_foil64 L a b c d cosine n = Ok p -> (1 <= 10 * c + d)%nat -> cosine = false \/ b = 0%nat ->
  exists m, max_camber64 o p = Ok m /\ is_number m /\ - (1067 * eps) <= real m <= INR a / 100 + 1067 * eps /\
  (exists i x, (i < n)%nat /\ Rabs (x - INR i / INR (n - 1)) <= 3 * eps /\ 0 <= x <= 1 /\ Rabs (real m - camber4 a b x) <= 1067 * eps) /\
  (forall j, (j < n)%nat -> exists x, Rabs (x - INR j / INR (n - 1)) <= 3 * eps /\ 0 <= x <= 1 /\ camber4 a b x <= Rabs (real m) + 1067 * eps).
Proof.
  intros L o a b c d n cosine p K E T Fl. destruct (sizes L a b c d n cosine p K E) as (Ln & S). pose proof (all_numbers L a b c d n cosine p K E) as N.
  destruct (stations L a b c d n cosine p K E Fl) as (Ex & St & _). destruct (leading L a b c d n cosine p K E) as (X0 & Y0 & _ & _).
  destruct (trailing L a b c d n cosine p K E T) as (_ & Yn & Xn & _). destruct (trailing_linear L a b c d n cosine p K E T Fl) as (X1 & _). cbv zeta in *.
  pose proof K as (_ & Da & Db & Dc & Dd & Nn & Mn). pose proof eps_bounds as [E1 E2].
  assert (Hd : forall l : list b64, hd zero64 l = nth 0 l zero64) by (intros []; reflexivity).
  assert (La : forall l : list b64, length l = n -> last l zero64 = nth (n - 1) l zero64).
  { clear. intros l <-. induction l as [|x [|y l] IH]; auto. change (last (x :: y :: l) zero64) with (last (y :: l) zero64). rewrite IH. cbn. rewrite Nat.sub_0_r. reflexivity. }
  pose proof S as (S1 & S2 & S3). unfold up64, down64 in *. cbn [fst snd] in *.
  assert (NE : fxup p <> []). { intros Q. rewrite Q in Ln. cbn in Ln. lia. }
  assert (Cm : common_abscissae p). { destruct N as (N1 & N2 & _). split; [exact N1|]. split; [exact N2|]. rewrite Ex. reflexivity. }
  assert (Lv : level p). { unfold level. rewrite !La, Hd by congruence. rewrite Y0, Yn. ring. }
  pose proof huge_big as HB. assert (E9 : 10000 * eps <= / 1000). { unfold eps. change (bpow radix2 (-53)) with (/ 9007199254740992). lra. }
  assert (Q : forall i, (i < n)%nat -> exists x, Rabs (x - INR i / INR (n - 1)) <= 3 * eps /\ 0 <= x <= 1 /\ let m := (real (nth i (fyup p) zero64) + real (nth i (fydown p) zero64)) / 2 in
    Rabs (m - camber4 a b x) <= 1060 * eps /\ Rabs (real (nth i (fyup p) zero64)) <= 1 /\ Rabs (real (nth i (fydown p) zero64)) <= 1).
  { intros i Hi. destruct (coordinates L a b c d n cosine p K E i Hi) as (x & Bx & Rx & _ & _ & _ & _ & Yu & Yd). unfold up64, down64 in Yu, Yd. cbn [fst snd] in Yu, Yd. exists x. split; [exact Bx|]. split; [exact Rx|].
    assert (An : angle4 a b cosine x = 0). { unfold angle4. destruct Fl as [->| ->]; [rewrite orb_true_r|]; reflexivity. } rewrite An, cos_0, Rmult_1_r in Yu, Yd.
    destruct (camber4_bounds a b x Da Db Rx) as (C0 & C1). assert (INR a <= 9). { replace 9 with (INR 9) by (cbn; lra). apply le_INR. exact Da. }
    destruct (thickness_val c d Dc Dd) as (_ & Tb & _). destruct (half_bounds _ x (proj1 Tb) Rx) as (G0 & G1). fold (half4 c d x) in G0, G1. apply Rabs_le_inv in Yu. apply Rabs_le_inv in Yd.
    split; [apply Rabs_le; lra|]. split; apply Rabs_le; lra. }
  assert (FB : forall l : list b64, length l = n -> (forall i, (i < n)%nat -> Rabs (real (nth i l zero64)) <= 1) -> Forall (fun y => Rabs y <= 1) (map real l)).
  { intros l Hl H. apply Forall_forall. intros y I. apply in_map_iff in I as (z & <- & I). destruct (In_nth l z zero64 I) as (i & Hi & <-). apply H. lia. }
  assert (P3 : 1 <= bpow radix2 300). { change 1 with (bpow radix2 0). apply bpow_le. lia. }
  destruct (level_measured o p 1 N Cm S NE Lv) as (m & Em & Fm & (i & Hi & Er) & Mx).
  { rewrite Hd, La by auto. rewrite X0, X1. lra. }
  { unfold meaning. cbn [xup]. apply Forall_forall. intros y I. apply in_map_iff in I as (z & <- & I). destruct (In_nth _ z zero64 I) as (i & Hi & <-). rewrite Ln in Hi. pose proof (St i Hi) as Sx. assert (G : 0 <= INR i / INR (n - 1) <= 1).
    { assert (0 < INR (n - 1)) by (apply lt_0_INR; lia). pose proof (pos_INR i). assert (INR i <= INR (n - 1)) by (apply le_INR; lia). split; [apply Rmult_le_pos; [lra|apply Rlt_le, Rinv_0_lt_compat; lra]|]. apply Rmult_le_reg_r with (INR (n - 1)); [lra|]. unfold Rdiv. rewrite Rmult_assoc, Rinv_l; lra. }
    apply Rabs_le_inv in Sx. apply Rabs_le. lra. }
  { exact P3. }
  { apply FB; [congruence|]. intros i Hi. destruct (Q i Hi) as (x & _ & _ & _ & B & _). exact B. }
  { apply FB; [congruence|]. intros i Hi. destruct (Q i Hi) as (x & _ & _ & _ & _ & B). exact B. }
  rewrite Hd, Y0 in Er. rewrite Ln in Hi, Mx.
  assert (Ti : bpow radix2 (-500) <= eps) by (unfold eps; apply bpow_le; lia).
  exists m. split; [exact Em|]. split; [exact Fm|]. destruct (Q i Hi) as (x & Bx & Rx & Cx & _). cbv zeta in Cx. apply Rabs_le_inv in Er. apply Rabs_le_inv in Cx. destruct (camber4_bounds a b x Da Db Rx) as (C0 & C1). split; [lra|]. split.
  - exists i, x. split; [exact Hi|]. split; [exact Bx|]. split; [exact Rx|]. apply Rabs_le. lra.
  - intros j Hj. destruct (Q j Hj) as (x' & Bx' & Rx' & Cx' & _). cbv zeta in Cx'. exists x'. split; [exact Bx'|]. split; [exact Rx'|]. pose proof (Mx j Hj) as Mj. rewrite Hd, Y0, Rminus_0_r in Mj.
    pose proof (Rle_abs ((real (nth j (fyup p) zero64) + real (nth j (fydown p) zero64)) / 2)) as A. apply Rabs_le_inv in Cx'. lra.
Qed.
