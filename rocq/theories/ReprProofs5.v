(** The printed text: shortest, closest, and its layout. *)
From Coq Require Import Reals String List ZArith Ascii Bool Lra Lia.
From Flocq Require Import Core Div BinarySingleNaN.
From Verif Require Import Base TextModel TextSpec TextProofs TextProofs2 FormatModel ParamsModel ParamsSpec.
From Verif Require Import PpgFloatModel PpgFloatProofs FloatModel ReprModel ReprSpec ReprProofs ReprProofs2 ReprProofs3 ReprProofs4.
Import ListNotations.
Open Scope Z_scope.

Lemma digit_char_zero : forall d, 0 <= d < 10 -> digit_char d = "0"%char -> d = 0.
Proof.
  intros d D E. assert (H : Forall (fun z => digit_char z = "0"%char -> z = 0) [0;1;2;3;4;5;6;7;8;9]) by (repeat constructor; intros X; try reflexivity; discriminate).
  rewrite Forall_forall in H. apply H; auto. cbn. lia.
Qed.
Lemma digits_shape : forall f n, 0 < n < 2 ^ Z.of_nat f -> (exists a t, digits f n = a :: t /\ a <> "0"%char) /\
  (10 ^ (zlen (digits f n) - 1) <= n < 10 ^ zlen (digits f n)) /\ 0 < zlen (digits f n) /\
  (n mod 10 <> 0 -> forall v, digits f n <> v ++ ["0"%char]).
Proof.
  induction f as [|f IH]; intros n N; [cbn in N; lia|]. cbn [digits]. destruct (Z.ltb_spec n 10) as [C|C].
  - split; [exists (digit_char n), []; split; auto; intros E; apply digit_char_zero in E; lia|]. unfold zlen. cbn [List.length]. change (Z.of_nat 1) with 1. cbn.
    split; [lia|]. split; [lia|]. intros M v E. apply (app_inj_tail [] v) in E. destruct E as [_ E]. apply digit_char_zero in E; lia.
  - rewrite Nat2Z.inj_succ, Z.pow_succ_r in N by lia. assert (Q : 0 < n / 10 < 2 ^ Z.of_nat f).
    { split; [apply Z.div_str_pos; lia|]. apply Z.div_lt_upper_bound; lia. }
    destruct (IH _ Q) as ((a & t & E & A) & B & L0 & _). split; [rewrite E; exists a; eexists; split; [reflexivity|auto]|].
    rewrite zlen_app. change (zlen [digit_char (n mod 10)]) with 1. set (k := zlen (digits f (n / 10))) in *.
    pose proof (Z.mod_pos_bound n 10 ltac:(lia)). pose proof (Z.div_mod n 10 ltac:(lia)). replace (k + 1 - 1) with (k - 1 + 1) by ring.
    rewrite !Z.pow_add_r by lia. change (10 ^ 1) with 10. split; [lia|]. split; [lia|]. intros M v EV. apply app_inj_tail in EV. destruct EV as [_ EV].
    apply digit_char_zero in EV; lia.
Qed.
Lemma show_nat_shape : forall m, 0 < m -> (exists a t, show_nat m = a :: t /\ a <> "0"%char) /\
  (10 ^ (zlen (show_nat m) - 1) <= m < 10 ^ zlen (show_nat m)) /\ 0 < zlen (show_nat m) /\ (m mod 10 <> 0 -> forall v, show_nat m <> v ++ ["0"%char]).
Proof.
  intros m M. apply digits_shape. split; auto. rewrite Nat2Z.inj_succ, Z2Nat.id by apply Z.log2_nonneg. apply Z.log2_spec. auto.
Qed.
Lemma exponent_shape : forall e, exists sg t, exponent e = sg :: t /\ (sg = "+"%char \/ sg = "-"%char) /\ Forall digit t /\ (2 <= List.length t)%nat /\
  ((3 <= List.length t)%nat -> hd_error t <> Some "0"%char).
Proof.
  intros e. unfold exponent. destruct (show_nat_isd (Z.abs e)) as (D & N & V); [lia|]. apply isd_digit in D.
  eexists. eexists. split; [reflexivity|]. split; [destruct (e <? 0); auto|].
  destruct (show_nat (Z.abs e)) as [|a [|b s]] eqn:E; [congruence| |].
  - split; [constructor; auto; split; cbv; lia|]. split; [cbn; lia|cbn; lia].
  - split; auto. split; [cbn; lia|]. intros L E0. destruct (Z.eq_dec e 0) as [->|NZ]; [vm_compute in E; discriminate|].
    destruct (show_nat_shape (Z.abs e)) as ((c & t & E2 & C) & _); [lia|]. rewrite E in E2. injection E2 as -> _. injection E0. auto.
Qed.

(** The size of the number decides the layout. *)
Lemma size_of : forall d k, 0 < d -> (bpow radix10 (zlen (show_nat d) + k - 1) <= dec d k < bpow radix10 (zlen (show_nat d) + k))%R.
Proof.
  intros d k D. destruct (show_nat_shape d D) as (_ & B & L0 & _). rewrite dec_bpow. set (n := zlen (show_nat d)) in *.
  replace (n + k - 1) with (n - 1 + k) by ring. rewrite !bpow_plus. pose proof (bpow_gt_0 radix10 k).
  rewrite <- (IZR_Zpower radix10 (n - 1)), <- (IZR_Zpower radix10 n) by lia. change (Zpower radix10 (n - 1)) with (10 ^ (n - 1)). change (Zpower radix10 n) with (10 ^ n).
  split; [apply Rmult_le_compat_r; [lra|apply IZR_le; lia]|apply Rmult_lt_compat_r; [lra|apply IZR_lt; lia]].
Qed.
Lemma repeat_snoc : forall (a : ascii) n, repeat a (S n) = repeat a n ++ [a].
Proof. intros a n. induction n as [|n IH]; auto. change (repeat a (S (S n))) with (a :: repeat a (S n)). rewrite IH at 1. reflexivity. Qed.
Lemma app_snoc : forall (v x : str) (a : ascii) (ds : str), ds <> [] -> v ++ ds = x ++ [a] -> exists y, ds = y ++ [a].
Proof. intros v x a ds N E. destruct (exists_last N) as (y & b & ->). rewrite app_assoc in E. apply app_inj_tail in E. destruct E as [_ ->]. eauto. Qed.
Lemma layout_form : forall d k, 0 < d -> d mod 10 <> 0 ->
  (dec 1 (-4) <= dec d k < dec 1 16)%R /\ fixed_form (layout d k) \/
  ((dec d k < dec 1 (-4))%R \/ (dec 1 16 <= dec d k)%R) /\ exponent_form (layout d k).
Proof.
  intros d k D M. destruct (show_nat_isd d) as (DD & N & V); [lia|]. destruct (show_nat_shape d D) as ((a & t & E & A) & B & L0 & LAST).
  pose proof (size_of d k D) as (S1 & S2). assert (P4 : dec 1 (-4) = bpow radix10 (-4)) by (rewrite dec_bpow; ring). assert (P16 : dec 1 16 = bpow radix10 16) by (rewrite dec_bpow; ring).
  rewrite P4, P16. unfold layout. fold (zlen (show_nat d)). apply isd_digit in DD. set (ds := show_nat d) in *. specialize (LAST M).
  assert (Z0 : Forall digit ["0"%char]) by (constructor; auto; split; cbv; lia).
  assert (ZS : forall n, Forall digit (repeat "0"%char n)) by (intros n; apply isd_digit, isd_zeros).
  destruct (Z.ltb_spec (-4) (zlen ds + k)) as [C1|C1]; [destruct (Z.leb_spec (zlen ds + k) 16) as [C2|C2]|]; cbn [andb].
  - left. split.
    { split; [eapply Rle_trans; [|exact S1]; apply bpow_le; lia|]. eapply Rlt_le_trans; [exact S2|]. apply bpow_le. lia. }
    destruct (Z.leb_spec (zlen ds + k) 0) as [C3|C3]; [|destruct (Z.leb_spec (zlen ds) (zlen ds + k)) as [C4|C4]].
    + exists ["0"%char], (repeat "0"%char (Z.to_nat (- (zlen ds + k))) ++ ds). split; [reflexivity|]. split; auto. split; [apply Forall_app; auto|]. split; [discriminate|].
      split; [intros X; apply app_eq_nil in X; destruct X; auto|]. split; auto. intros v' X. apply app_snoc in X; auto. destruct X as (y & X). exfalso. exact (LAST _ X).
    + exists (ds ++ repeat "0"%char (Z.to_nat (zlen ds + k - zlen ds))), ["0"%char]. split; [rewrite <- app_assoc; reflexivity|]. split; [apply Forall_app; auto|]. split; auto.
      split; [rewrite E; discriminate|]. split; [discriminate|]. split; [rewrite E; cbn [app hd_error]; intros X; injection X; intros; contradiction|].
      intros v' X. destruct v' as [|b v']; auto. destruct v'; discriminate.
    + rewrite <- (firstn_skipn (Z.to_nat (zlen ds + k)) ds) in DD. apply Forall_app in DD. destruct DD as [D1 D2].
      exists (firstn (Z.to_nat (zlen ds + k)) ds), (skipn (Z.to_nat (zlen ds + k)) ds). split; [reflexivity|]. split; auto. split; auto.
      assert (NE : skipn (Z.to_nat (zlen ds + k)) ds <> []).
      { intros X. apply (f_equal (@List.length ascii)) in X. rewrite skipn_length in X. cbn [List.length] in X. unfold zlen in *. lia. }
      split; [intros X; apply (f_equal (@List.length ascii)) in X; rewrite firstn_length in X; cbn [List.length] in X; unfold zlen in *; lia|]. split; auto.
      split; [|intros v' X; exfalso; apply (LAST (firstn (Z.to_nat (zlen ds + k)) ds ++ v')); rewrite <- app_assoc, <- X; symmetry; apply firstn_skipn].
      destruct (Z.to_nat (zlen ds + k)) eqn:Q; [lia|]. rewrite E. cbn [firstn hd_error]. intros X; injection X; intros; contradiction.
  - right. split; [right; eapply Rle_trans; [|exact S1]; apply bpow_le; lia|]. revert E. destruct ds as [|b r]; [discriminate|]. intros E. injection E as -> ->.
    destruct (exponent_shape (zlen (a :: t) + k - 1)) as (sg & e & -> & S & ED & E2 & E3). inversion DD; subst. exists a, t, sg, e. repeat (split; auto).
    intros v' X. apply (LAST (a :: v')). rewrite X. reflexivity.
  - right. split; [left; eapply Rlt_le_trans; [exact S2|]; apply bpow_le; lia|]. revert E. destruct ds as [|b r]; [discriminate|]. intros E. injection E as -> ->.
    destruct (exponent_shape (zlen (a :: t) + k - 1)) as (sg & e & -> & S & ED & E2 & E3). inversion DD; subst. exists a, t, sg, e. repeat (split; auto).
    intros v' X. apply (LAST (a :: v')). rewrite X. reflexivity.
Qed.

Lemma printed : forall x : b64, is_finite x = true -> B2R x <> 0%R ->
  exists w m q d k, float_repr x = (if Bsign x then ["-"%char] else []) ++ w /\ numeral w m q /\ dec m q = dec d k /\
    0 < d < 10 ^ 17 /\ d mod 10 <> 0 /\
    ((dec 1 (-4) <= dec d k < dec 1 16)%R /\ fixed_form w \/ ((dec d k < dec 1 (-4))%R \/ (dec 1 16 <= dec d k)%R) /\ exponent_form w) /\
    rounded (Bsign x) d k x /\
    forall m' q', 0 < m' -> rounded (Bsign x) m' q' x -> digits10 d <= digits10 m' /\
      (digits10 m' <= digits10 d -> (Rabs (dec d k - Rabs (B2R x)) <= Rabs (dec m' q' - Rabs (B2R x)))%R).
Proof.
  intros [s|s| |s m e H] F NZ; try discriminate; [cbn in NZ; lra|]. cbn [float_repr Bsign]. destruct (shortest m e H) as [d k] eqn:E.
  destruct (shortest_spec _ _ _ _ _ E) as (D & M & R & MIN). destruct (layout_read d k) as (m' & q' & P & M' & V); [lia|].
  exists (layout d k), m', q', d, k. split; [reflexivity|]. split; [apply decimal_iff; auto|]. split; [exact V|]. split; auto. split; auto.
  split; [apply layout_form; auto; lia|].
  split; [apply rounded_iff; [lia|]; symmetry; apply reads_back; auto; lia|].
  intros m'' q'' M'' R''. apply rounded_iff in R''; [|lia]. symmetry in R''. apply reads_iff in R''; [|lia].
  assert (A : Rabs (B2R (B754_finite s m e H : b64)) = F2R (Float radix2 (Zpos m) e)).
  { unfold B2R. rewrite <- F2R_Zabs, abs_cond_Zopp. reflexivity. }
  rewrite A. apply MIN; auto.
Qed.
