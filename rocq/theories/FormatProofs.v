(** The printed numbers are accurate to nine digits and can be read back. *)
From Coq Require Import Reals List ZArith Ascii String Lra Lia.
From Verif Require Import Base TextModel TextProofs FormatModel FormatSpec.
Import ListNotations.
Open Scope R_scope.

Lemma int_part : forall x, IZR (Int_part x) <= x < IZR (Int_part x) + 1.
Proof. intros x. destruct (base_Int_part x). lra. Qed.

Lemma round_half_even_near : forall x, Rabs (IZR (round_half_even x) - x) <= 1 / 2.
Proof.
  intros x. unfold round_half_even. pose proof (int_part x) as H.
  destruct (Rlt_dec _ _); [apply Rabs_le; lra|]. destruct (Rlt_dec _ _); [rewrite plus_IZR; apply Rabs_le; lra|].
  destruct (Z.even _); try rewrite plus_IZR; apply Rabs_le; lra.
Qed.
Lemma round_half_even_mono : forall n x, IZR n <= x -> (n <= round_half_even x)%Z.
Proof.
  intros n x H.
  pose proof (int_part x) as P. assert (Q : (n <= Int_part x)%Z).
  { apply Z.lt_succ_r. apply lt_IZR. unfold Z.succ. rewrite plus_IZR. lra. }
  unfold round_half_even. destruct (Rlt_dec _ _); [auto|]. destruct (Rlt_dec _ _); [lia|]. destruct (Z.even _); lia.
Qed.
Lemma round_half_even_le : forall n x, x <= IZR n -> (round_half_even x <= n)%Z.
Proof.
  intros n x H. pose proof (int_part x) as P.
  destruct (Req_dec x (IZR n)) as [->|D].
  - assert (E : Int_part (IZR n) = n).
    { symmetry. apply Z.le_antisymm.
      - apply Z.lt_succ_r. apply lt_IZR. unfold Z.succ. rewrite plus_IZR. lra.
      - apply le_IZR. lra. }
    unfold round_half_even. rewrite E. destruct (Rlt_dec _ _); [lia|lra].
  - assert (Q : (Int_part x + 1 <= n)%Z).
    { assert (Int_part x < n)%Z; [|lia]. apply lt_IZR. lra. }
    unfold round_half_even. destruct (Rlt_dec _ _); [lia|]. destruct (Rlt_dec _ _); [lia|]. destruct (Z.even _); lia.
Qed.

Lemma ln10_pos : 0 < ln 10.
Proof. rewrite <- ln_1. apply ln_increasing; lra. Qed.
Lemma powerRZ_10_exp : forall e, powerRZ 10 e = exp (IZR e * ln 10).
Proof.
  intros e. rewrite powerRZ_Rpower by lra. reflexivity.
Qed.
Lemma ten_pos : forall e, 0 < powerRZ 10 e.
Proof. intros. apply powerRZ_lt. lra. Qed.
Lemma ten_add : forall a b, powerRZ 10 (a + b) = powerRZ 10 a * powerRZ 10 b.
Proof. intros. apply powerRZ_add. lra. Qed.

Lemma ten_8 : powerRZ 10 8 = 100000000.
Proof. unfold powerRZ. change (Pos.to_nat 8) with 8%nat. ring. Qed.
Lemma ten_9 : powerRZ 10 9 = 1000000000.
Proof. unfold powerRZ. change (Pos.to_nat 9) with 9%nat. ring. Qed.
Lemma ten_m8 : powerRZ 10 (-8) = / 100000000.
Proof. unfold powerRZ. change (Pos.to_nat 8) with 8%nat. f_equal. ring. Qed.
Lemma ten_1 : powerRZ 10 1 = 10.
Proof. unfold powerRZ. change (Pos.to_nat 1) with 1%nat. ring. Qed.

(** The decimal exponent. *)
Lemma decade : forall a, 0 < a -> let e := Int_part (ln a / ln 10) in powerRZ 10 e <= a < powerRZ 10 (e + 1).
Proof.
  intros a Ha e. pose proof ln10_pos as L. pose proof (int_part (ln a / ln 10)) as [H1 H2]. fold e in H1, H2.
  assert (E : ln a / ln 10 * ln 10 = ln a) by (field; lra).
  rewrite !powerRZ_10_exp, plus_IZR. split.
  - rewrite <- (exp_ln a Ha). assert (Q : IZR e * ln 10 <= ln a) by nra.
    destruct Q as [Q|Q]; [left; apply exp_increasing; auto|rewrite Q; lra].
  - rewrite <- (exp_ln a Ha) at 1. apply exp_increasing. nra.
Qed.

Lemma sci_parts_ok : forall a m e, 0 < a -> sci_parts a = (m, e) ->
  (100000000 <= m < 1000000000)%Z /\ Rabs (IZR m * powerRZ 10 (e - 8) - a) <= 5 / 1000000000 * a.
Proof.
  intros a m e Ha H. unfold sci_parts in H. pose proof (decade a Ha) as D. cbv zeta in D.
  set (e0 := Int_part (ln a / ln 10)) in *. destruct D as [D1 D2].
  set (y := a * powerRZ 10 (8 - e0)) in *.
  assert (T : powerRZ 10 (8 - e0) * powerRZ 10 (e0 - 8) = 1).
  { rewrite <- ten_add. replace (8 - e0 + (e0 - 8))%Z with 0%Z by lia. reflexivity. }
  assert (P1 := ten_pos (8 - e0)). assert (P2 := ten_pos (e0 - 8)).
  assert (Y1 : IZR 100000000 <= y).
  { unfold y. replace (IZR 100000000) with (powerRZ 10 e0 * powerRZ 10 (8 - e0)).
    - apply Rmult_le_compat_r; lra.
    - rewrite <- ten_add. replace (e0 + (8 - e0))%Z with 8%Z by lia. rewrite ten_8. reflexivity. }
  assert (Y2 : y <= IZR 1000000000).
  { unfold y. replace (IZR 1000000000) with (powerRZ 10 (e0 + 1) * powerRZ 10 (8 - e0)).
    - apply Rmult_le_compat_r; lra.
    - rewrite <- ten_add. replace (e0 + 1 + (8 - e0))%Z with 9%Z by lia. rewrite ten_9. reflexivity. }
  assert (M1 := round_half_even_mono _ _ Y1). assert (M2 := round_half_even_le _ _ Y2).
  assert (N := round_half_even_near y).
  assert (B : Rabs (IZR (round_half_even y) * powerRZ 10 (e0 - 8) - a) <= 5 / 1000000000 * a).
  { replace (IZR (round_half_even y) * powerRZ 10 (e0 - 8) - a) with ((IZR (round_half_even y) - y) * powerRZ 10 (e0 - 8)).
    - rewrite Rabs_mult, (Rabs_right (powerRZ 10 (e0 - 8))) by lra.
      apply Rle_trans with (1 / 2 * powerRZ 10 (e0 - 8)); [apply Rmult_le_compat_r; lra|].
      replace (powerRZ 10 (e0 - 8)) with (powerRZ 10 e0 * / 100000000); [lra|].
      rewrite <- ten_m8, <- ten_add. reflexivity.
    - unfold y. transitivity (IZR (round_half_even (a * powerRZ 10 (8 - e0))) * powerRZ 10 (e0 - 8) - a * (powerRZ 10 (8 - e0) * powerRZ 10 (e0 - 8))); [ring|].
      rewrite T. ring. }
  destruct (Z.eqb_spec (round_half_even y) 1000000000) as [E|E]; injection H as <- <-.
  - split; [lia|]. replace (IZR 100000000 * powerRZ 10 (e0 + 1 - 8)) with (IZR (round_half_even y) * powerRZ 10 (e0 - 8)); auto.
    rewrite E. replace (e0 + 1 - 8)%Z with (1 + (e0 - 8))%Z by lia. rewrite ten_add, ten_1. lra.
  - split; [lia|exact B].
Qed.

(** Number of digits. *)
Lemma digits_length : forall k fuel n, (10 ^ Z.of_nat k <= n < 10 ^ Z.of_nat (S k))%Z -> (n < 2 ^ Z.of_nat fuel)%Z ->
  List.length (digits fuel n) = S k.
Proof.
  induction k as [|k IH]; intros fuel n B F; (destruct fuel as [|f]; [cbn in F; pose proof (Z.pow_pos_nonneg 10 0); nia|]); cbn [digits].
  - replace (n <? 10)%Z with true by (symmetry; apply Z.ltb_lt; cbn in B; lia). reflexivity.
  - rewrite !Nat2Z.inj_succ, !Z.pow_succ_r in B by lia. rewrite Nat2Z.inj_succ, Z.pow_succ_r in F by lia.
    assert (0 < 10 ^ Z.of_nat k)%Z by (apply Z.pow_pos_nonneg; lia).
    replace (n <? 10)%Z with false by (symmetry; apply Z.ltb_ge; lia).
    rewrite app_length, (IH f); [cbn; lia| |apply Z.div_lt_upper_bound; lia].
    rewrite Nat2Z.inj_succ, Z.pow_succ_r by lia. split; [apply Z.div_le_lower_bound; lia|apply Z.div_lt_upper_bound; lia].
Qed.
Lemma show_nat_length9 : forall m, (100000000 <= m < 1000000000)%Z -> List.length (show_nat m) = 9%nat.
Proof.
  intros m H. unfold show_nat. apply (digits_length 8).
  - change (10 ^ Z.of_nat 8)%Z with 100000000%Z. change (10 ^ Z.of_nat 9)%Z with 1000000000%Z. auto.
  - rewrite Nat2Z.inj_succ, Z2Nat.id by apply Z.log2_nonneg. apply Z.log2_spec. lia.
Qed.

(** Reading back. *)
Lemma cut_app : forall c s t, ~ In c s -> cut c (s ++ c :: t) = Some (s, t).
Proof.
  intros c. induction s as [|a s IH]; intros t N; cbn [app cut].
  - destruct (ascii_dec c c); congruence.
  - destruct (ascii_dec a c) as [->|_]; [exfalso; apply N; left; auto|]. rewrite IH; auto. intro I. apply N; right; auto.
Qed.
Lemma digits_avoid : forall c s, digit_value c = None -> Forall (fun a => digit_value a <> None) s -> ~ In c s.
Proof. intros c s H F I. rewrite Forall_forall in F. apply (F c I H). Qed.

Lemma read_exponent_ok : forall e, read_exponent (exponent e) = Some e /\ Forall (fun a => is_ws a = false) (exponent e).
Proof.
  intros e. unfold exponent. destruct (show_nat_spec (Z.abs e)) as (P & N & D); [lia|].
  assert (Q : parse_digits 0 false (match show_nat (Z.abs e) with [d] => ["0"%char; d] | ds => ds end) = Some (Z.abs e) /\
              Forall (fun a => is_ws a = false) (match show_nat (Z.abs e) with [d] => ["0"%char; d] | ds => ds end)).
  { destruct (show_nat (Z.abs e)) as [|a [|b s]]; [congruence| |].
    - inversion D; subst. split.
      + cbn [parse_digits] in *. change (digit_value "0"%char) with (Some 0%Z). destruct (digit_value a); [exact P|congruence].
      + constructor; [reflexivity|]. constructor; auto. apply digit_not_ws; auto.
    - split; [exact P|]. eapply Forall_impl; [|exact D]. apply digit_not_ws. }
  destruct Q as [Q W]. destruct (Z.ltb_spec e 0); cbn [read_exponent]; rewrite Q; (split; [cbn; f_equal; lia|constructor; auto]).
Qed.

Lemma mantissa_shape : forall m, (100000000 <= m < 1000000000)%Z ->
  exists d ds, show_nat m = d :: ds /\ List.length ds = 8%nat /\ mantissa m = d :: "."%char :: ds /\
    Forall (fun a => digit_value a <> None) (d :: ds) /\ parse_digits 0 false (d :: ds) = Some m.
Proof.
  intros m H. pose proof (show_nat_length9 m H) as L. destruct (show_nat_spec m) as (P & N & D); [lia|].
  unfold mantissa. destruct (show_nat m) as [|d ds]; [congruence|]. exists d, ds. injection L as L. auto.
Qed.

Lemma read_unsigned_ok : forall m e, (100000000 <= m < 1000000000)%Z ->
  read_unsigned (mantissa m ++ "e"%char :: exponent e) = Some (IZR m * powerRZ 10 (e - 8)).
Proof.
  intros m e H. destruct (mantissa_shape m H) as (d & ds & E & L & M & D & P). unfold read_unsigned.
  rewrite M, cut_app.
  - change (d :: "."%char :: ds) with ([d] ++ "."%char :: ds). rewrite cut_app.
    + change ([d] ++ ds) with (d :: ds). rewrite P, (proj1 (read_exponent_ok e)), L. reflexivity.
    + apply digits_avoid; [reflexivity|]. inversion D; subst. constructor; auto.
  - inversion D; subst. intros [I|[I|I]]; [subst d; apply H2; reflexivity|discriminate|].
    revert I. apply digits_avoid; auto.
Qed.

Lemma sci_word : forall x, word (sci x).
Proof.
  intros x. unfold sci. destruct (Req_EM_T x 0) as [_|N].
  - split; [discriminate|]. repeat constructor.
  - destruct (sci_parts (Rabs x)) as [m e] eqn:E. assert (0 < Rabs x) by (apply Rabs_pos_lt; auto).
    destruct (sci_parts_ok _ _ _ H E) as [B _]. destruct (mantissa_shape m B) as (d & ds & _ & _ & M & D & _).
    rewrite M. inversion D; subst. split; [destruct (Rlt_dec x 0); discriminate|].
    apply Forall_app. split; [destruct (Rlt_dec x 0); repeat constructor|].
    cbn [app]. constructor; [apply digit_not_ws; auto|]. constructor; [reflexivity|]. apply Forall_app.
    split; [eapply Forall_impl; [|eassumption]; apply digit_not_ws|]. constructor; [reflexivity|]. apply read_exponent_ok.
Qed.

Lemma sci_read : forall x, exists v, read_number (sci x) = Some v /\ nine_digits x v.
Proof.
  intros x. unfold sci, nine_digits. destruct (Req_EM_T x 0) as [->|N].
  - exists 0. split; [|rewrite Rminus_0_r, Rabs_R0; lra].
    change (Some (IZR 0 * powerRZ 10 (0 - 8)) = Some 0). f_equal. ring.
  - destruct (sci_parts (Rabs x)) as [m e] eqn:E. assert (P : 0 < Rabs x) by (apply Rabs_pos_lt; auto).
    destruct (sci_parts_ok _ _ _ P E) as [B A]. pose proof (read_unsigned_ok m e B) as R.
    destruct (Rlt_dec x 0) as [L|L].
    + rewrite (Rabs_left x L) in A. exists (- (IZR m * powerRZ 10 (e - 8))). split.
      * cbn [app read_number]. rewrite R. reflexivity.
      * rewrite (Rabs_left x L). replace (- (IZR m * powerRZ 10 (e - 8)) - x) with (- (IZR m * powerRZ 10 (e - 8) - - x)) by ring.
        rewrite Rabs_Ropp. exact A.
    + assert (Q : 0 <= x) by lra. rewrite (Rabs_right x) in * by lra. exists (IZR m * powerRZ 10 (e - 8)). split; auto.
      rewrite <- R. cbn [app]. destruct (mantissa_shape m B) as (d & ds & _ & _ & M & D & _). rewrite M.
      inversion D; subst. cbn [app]. unfold read_number.
      assert (d <> "-"%char) by (intros ->; apply H1; reflexivity).
      destruct d as [[] [] [] [] [] [] [] []]; congruence || reflexivity.
Qed.

Lemma sci_text : forall x, (forall a, In a (sci x) -> is_ws a = false) /\ sci x <> [] /\
  exists v, read_number (sci x) = Some v /\ nine_digits x v.
Proof.
  intros x. destruct (sci_word x) as (N & W). split.
  - rewrite Forall_forall in W. auto.
  - split; [exact N|apply sci_read].
Qed.
