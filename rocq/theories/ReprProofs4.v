(** Which texts are read as numbers. *)
From Coq Require Import Reals String List ZArith Ascii Bool Lra Lia.
From Flocq Require Import Core Div BinarySingleNaN.
From Verif Require Import Base TextModel TextSpec TextProofs TextProofs2 TextProofs3 FormatModel ParamsModel ParamsSpec.
From Verif Require Import PpgFloatModel PpgFloatProofs FloatModel ReprModel ReprSpec ReprProofs ReprProofs2 ReprProofs3.
Import ListNotations.
Open Scope Z_scope.

Lemma digit_isd : forall s, Forall digit s <-> isd s.
Proof.
  intros s. split; [|apply isd_digit]. intros H. eapply Forall_impl; [|exact H]. intros a A.
  rewrite (proj2 (digit_value_spec a _) (conj A eq_refl)). discriminate.
Qed.
Lemma is_digit_iff : forall a, is_digit a = true <-> digit a.
Proof.
  intros a. unfold is_digit. destruct (digit_value a) as [d|] eqn:E.
  - apply digit_value_spec in E. split; auto. intros _. apply E.
  - split; [discriminate|]. intros D. rewrite (proj2 (digit_value_spec a _) (conj D eq_refl)) in E. discriminate.
Qed.
Lemma digit_no_underscore : forall a, digit a -> a <> "_"%char.
Proof. intros a D ->. destruct D as [D1 D2]. cbv in D2. lia. Qed.

(** Underscores. *)
Lemma ungrouped_cons : forall s t, ungrouped ("x"%char :: s) ("x"%char :: t) -> ungrouped s t.
Proof. intros s t U. inversion U as [|a s' t' N V|a b s' t' A B V]; subst; auto. exfalso. destruct A as [A1 A2]. cbv in A2. lia. Qed.
Lemma drop_ok : forall s b t, drop_underscores b s = Some t -> forall a, (b = true -> digit a) -> a <> "_"%char ->
  ungrouped (a :: s) (a :: t).
Proof.
  induction s as [|c s IH]; intros b t H a A N; cbn [drop_underscores] in H.
  - injection H as <-. constructor; auto. constructor.
  - destruct (Ascii.eqb_spec c "_") as [->|C].
    + destruct s as [|d s]; [discriminate|]. destruct b; [|discriminate]. destruct (is_digit d) eqn:D; [|discriminate]. cbn [andb] in H.
      assert (DD := proj1 (is_digit_iff d) D). apply ug_drop; auto.
      specialize (IH false t H "x"%char ltac:(discriminate) ltac:(discriminate)). apply ungrouped_cons. auto.
    + destruct (drop_underscores (is_digit c) s) as [u|] eqn:E; [|discriminate]. injection H as <-. constructor; auto.
      apply (IH _ _ E); auto. intros B. apply is_digit_iff. auto.
Qed.
Lemma drop_sound : forall s t, drop_underscores false s = Some t -> ungrouped s t.
Proof.
  intros s t H. pose proof (drop_ok _ _ _ H "x"%char ltac:(discriminate) ltac:(discriminate)) as U. apply ungrouped_cons. auto.
Qed.
Lemma drop_keep : forall b a s, a <> "_"%char -> drop_underscores b (a :: s) = option_map (cons a) (drop_underscores (is_digit a) s).
Proof. intros b a s N. cbn [drop_underscores]. destruct (Ascii.eqb_spec a "_"); [contradiction|]. reflexivity. Qed.
Lemma drop_under : forall b s, digit b -> drop_underscores true ("_"%char :: b :: s) = drop_underscores false (b :: s).
Proof.
  intros b s D. transitivity (if is_digit b then drop_underscores false (b :: s) else None); [reflexivity|].
  rewrite (proj2 (is_digit_iff b) D). reflexivity.
Qed.
Lemma drop_complete : forall s t, ungrouped s t -> forall b, drop_underscores b s = Some t.
Proof.
  induction 1 as [|a s t N U IH|a b' s t A B U IH]; intros b; [reflexivity| |].
  - rewrite drop_keep, IH by auto. reflexivity.
  - rewrite drop_keep by (apply digit_no_underscore; auto). rewrite (proj2 (is_digit_iff a) A), drop_under, IH by auto. reflexivity.
Qed.
Lemma drop_iff : forall s t, drop_underscores false s = Some t <-> ungrouped s t.
Proof. intros s t. split; [apply drop_sound|]. intros U. apply drop_complete. auto. Qed.
(** The ends stay. *)
Lemma ungrouped_head : forall s t, ungrouped s t -> hd_error s = hd_error t.
Proof. induction 1; reflexivity. Qed.
Lemma ungrouped_nil : forall s t, ungrouped s t -> t = [] -> s = [].
Proof. intros s t [] E; auto; discriminate. Qed.
Lemma ungrouped_last : forall s t, ungrouped s t -> forall d, last s d = last t d.
Proof.
  induction 1 as [|a s t N U IH|a b s t A B U IH]; intros d; auto.
  - destruct U as [|a' s' t'|a' b' s' t']; auto; exact (IH d).
  - change (last (a :: "_"%char :: b :: s) d) with (last (b :: s) d). rewrite IH. destruct t as [|c t]; auto. apply ungrouped_nil in U; auto. discriminate.
Qed.

(** Digits. *)
Lemma take_spec : forall s acc n m k r, take_digits acc n s = (m, k, r) ->
  exists u, s = u ++ r /\ isd u /\ stops r /\ m = dec_from acc u /\ k = n + zlen u.
Proof.
  induction s as [|a s IH]; intros acc n m k r H; cbn [take_digits] in H.
  - injection H as <- <- <-. exists []. unfold zlen. cbn. repeat split; auto; try constructor. lia.
  - destruct (digit_value a) as [d|] eqn:E.
    + apply IH in H. destruct H as (u & -> & U & S & -> & ->). exists (a :: u). split; [reflexivity|]. split; [constructor; [congruence|auto]|].
      split; auto. apply digit_value_spec in E. destruct E as [_ ->]. split; [reflexivity|]. unfold zlen. cbn [List.length]. lia.
    + injection H as <- <- <-. exists []. unfold zlen. cbn. repeat split; auto; try constructor; auto. lia.
Qed.
Lemma zlen_zero : forall s, zlen s = 0 <-> s = [].
Proof. intros [|a s]; unfold zlen; cbn [List.length]; split; intros; auto; try discriminate; lia. Qed.
Definition unsigned (s : str) : bool * str :=
  match s with
  | "-"%char :: t => (true, t)
  | "+"%char :: t => (false, t)
  | _ => (false, s)
  end.
Lemma unsigned_spec : forall s neg t, unsigned s = (neg, t) -> exists sg, s = sg ++ t /\ sign_of sg neg.
Proof.
  intros s neg t H. destruct s as [|a s]; [injection H as <- <-; exists []; split; [auto|left; auto]|].
  destruct (ascii_dec a "-"%char) as [->|A]; [injection H as <- <-; exists ["-"%char]; split; [auto|reflexivity]|].
  destruct (ascii_dec a "+"%char) as [->|B]; [injection H as <- <-; exists ["+"%char]; split; [auto|right; auto]|].
  assert (E : unsigned (a :: s) = (false, a :: s)) by (destruct a as [[] [] [] [] [] [] [] []]; congruence || reflexivity).
  rewrite E in H. injection H as <- <-. exists []. split; [auto|left; auto].
Qed.
Lemma unsigned_app : forall sg neg t, sign_of sg neg -> hd_error t <> Some "-"%char -> hd_error t <> Some "+"%char -> unsigned (sg ++ t) = (neg, t).
Proof.
  intros sg [] t S N P; cbn [sign_of] in S; [subst; reflexivity|]. destruct S as [->| ->]; [|reflexivity]. cbn [app].
  destruct t as [|a t]; auto. cbn [hd_error] in N, P. destruct a as [[] [] [] [] [] [] [] []]; congruence || reflexivity.
Qed.
Lemma digits_unsigned : forall w, isd w -> w <> [] -> hd_error w <> Some "-"%char /\ hd_error w <> Some "+"%char.
Proof. intros [|a w] D N; [congruence|]. inversion D; subst. destruct (digit_not_sign a) as [A B]; auto. split; intros E; injection E; auto. Qed.

Lemma exponent_iff : forall t k, parse_exponent t = Some k <->
  exists sg neg w, t = sg ++ w /\ sign_of sg neg /\ w <> [] /\ Forall digit w /\ k = (if neg then - decimal w else decimal w).
Proof.
  intros t k. unfold parse_exponent. change (match t with "-"%char :: u1 => (true, u1) | "+"%char :: u2 => (false, u2) | _ => (false, t) end) with (unsigned t). split.
  - destruct (unsigned t) as [neg w] eqn:U. apply unsigned_spec in U. destruct U as (sg & -> & S).
    destruct (take_digits 0 0 w) as [[m n] [|a r]] eqn:T; [|discriminate]. apply take_spec in T. destruct T as (u & E & D & _ & M & N).
    rewrite app_nil_r in E. subst u. destruct (Z.eqb_spec n 0) as [Z|Z]; [discriminate|]. intros K. injection K as <-.
    exists sg, neg, w. split; auto. split; auto. split; [intros ->; apply Z; rewrite N; reflexivity|]. split; [apply digit_isd; auto|]. rewrite M. destruct neg; reflexivity.
  - intros (sg & neg & w & -> & S & W & D & ->). apply digit_isd in D. destruct (digits_unsigned w D W) as [A B]. rewrite (unsigned_app sg neg) by auto.
    rewrite <- (app_nil_r w) at 1. rewrite take_all; [|exact D|exact I]. destruct (Z.eqb_spec (0 + zlen w) 0) as [Z|Z]; [exfalso; apply W; apply zlen_zero; lia|].
    destruct neg; reflexivity.
Qed.
Lemma dot_case : forall r, (exists t, r = "."%char :: t) \/ (forall (A : Type) (f : str -> A) (x : A), match r with "."%char :: t => f t | _ => x end = x) /\ hd_error r <> Some "."%char.
Proof.
  intros [|a t]; [right; split; [auto|discriminate]|]. destruct (ascii_dec a "."%char) as [->|N]; [left; eauto|]. right.
  split; [|intros E; injection E; auto]. intros A f x. destruct a as [[] [] [] [] [] [] [] []]; congruence || reflexivity.
Qed.
Lemma tail_iff : forall (r2 : str) (m2 n2 m q : Z), (match r2 with
  | [] => Some (m2, - n2)
  | c :: t => if (Ascii.eqb c "e" || Ascii.eqb c "E")%bool then match parse_exponent t with Some k => Some (m2, k - n2) | None => None end else None
  end = Some (m, q)) <-> m = m2 /\ exists k, exponent_of r2 k /\ q = k - n2.
Proof.
  intros r2 m2 n2 m q. split.
  - destruct r2 as [|c t]; [intros H; injection H as <- <-; split; auto; exists 0; split; [left; auto|lia]|].
    destruct (Ascii.eqb_spec c "e") as [->|C1]; [|destruct (Ascii.eqb_spec c "E") as [->|C2]; [|discriminate]]; cbn [orb];
      (destruct (parse_exponent t) as [k|] eqn:E; [|discriminate]); intros H; injection H as <- <-; (split; [reflexivity|]); exists k;
      (split; [|reflexivity]); right; apply exponent_iff in E; destruct E as (sg & neg & w & -> & S & W & D & K).
    + exists "e"%char, sg, neg, w. repeat split; auto.
    + exists "E"%char, sg, neg, w. repeat split; auto.
  - intros (-> & k & [[-> ->]|(c & sg & neg & w & -> & C & S & W & D & K)] & ->); [reflexivity|].
    assert (P : parse_exponent (sg ++ w) = Some k) by (apply exponent_iff; exists sg, neg, w; auto). rewrite P.
    destruct C as [->| ->]; reflexivity.
Qed.
Lemma exponent_stops : forall ex k, exponent_of ex k -> stops ex /\ hd_error ex <> Some "."%char.
Proof.
  intros ex k [[-> _]|(c & sg & neg & w & -> & C & _)]; [split; [exact I|discriminate]|]. destruct C as [->| ->]; split; try reflexivity; discriminate.
Qed.
Lemma stops_digits : forall r, stops r -> forall m n, take_digits m n r = (m, n, r).
Proof. intros. apply take_stop. auto. Qed.
Lemma decimal_iff : forall t m q, parse_decimal t = Some (m, q) <-> numeral t m q.
Proof.
  intros t m q. unfold parse_decimal. split.
  - destruct (take_digits 0 0 t) as [[m1 n1] r1] eqn:T1. apply take_spec in T1. destruct T1 as (u & -> & U & S1 & M1 & N1).
    destruct (dot_case r1) as [(t & ->)|(D & ND)].
    + destruct (take_digits m1 0 t) as [[m2 n2] r2] eqn:T2. apply take_spec in T2. destruct T2 as (v & -> & V & S2 & M2 & N2).
      destruct (Z.eqb_spec (n1 + n2) 0) as [Z|Z]; [discriminate|]. intros H. apply tail_iff in H. destruct H as (M & k & K & Q).
      exists u, ("."%char :: v), v, r2, k. split; [reflexivity|]. split; [apply digit_isd; auto|]. split; [apply digit_isd; auto|].
      split; [intros E; apply app_eq_nil in E; destruct E as [-> ->]; apply Z; rewrite N1, N2; reflexivity|]. split; [right; auto|]. split; auto.
      split; [rewrite M, M2, M1; symmetry; apply dec_from_app|]. rewrite Q, N2. unfold zlen. lia.
    + rewrite D. rewrite Z.add_0_r. destruct (Z.eqb_spec n1 0) as [Z|Z]; [discriminate|]. intros H. apply tail_iff in H. destruct H as (M & k & K & Q).
      exists u, [], [], r1, k. split; [reflexivity|]. split; [apply digit_isd; auto|]. split; [constructor|]. rewrite app_nil_r.
      split; [intros ->; apply Z; rewrite N1; reflexivity|]. split; [left; auto|]. split; auto. split; [rewrite M, M1; reflexivity|]. cbn [List.length Z.of_nat]. exact Q.
  - intros (u & fr & v & ex & k & -> & U & V & NE & F & K & -> & ->). apply digit_isd in U, V. destruct (exponent_stops ex k K) as [S ND].
    destruct F as [[-> ->]| ->].
    + cbn [app]. rewrite take_all by auto. destruct (dot_case ex) as [(t & ->)|(D & _)]; [exfalso; apply ND; reflexivity|]. rewrite D.
      rewrite app_nil_r in NE |- *. destruct (Z.eqb_spec (0 + zlen u + 0) 0) as [Z|Z]; [exfalso; apply NE, zlen_zero; lia|].
      apply tail_iff. split; [reflexivity|]. exists k. split; auto.
    + cbn [app]. rewrite take_all; [|exact U|reflexivity]. rewrite take_all by auto.
      destruct (Z.eqb_spec (0 + zlen u + (0 + zlen v)) 0) as [Z|Z].
      * exfalso. apply NE. assert (0 <= zlen u /\ 0 <= zlen v) by (unfold zlen; lia). assert (zlen u = 0) by lia. assert (zlen v = 0) by lia.
        rewrite (proj1 (zlen_zero u)), (proj1 (zlen_zero v)) by auto. reflexivity.
      * apply tail_iff. rewrite <- dec_from_app. split; [reflexivity|]. exists k. split; auto.
Qed.

(** Rounding. *)
Lemma two_1024 : IZR (2 ^ 1024) = bpow radix2 1024.
Proof. apply (IZR_Zpower radix2). lia. Qed.
Lemma dec_0 : forall q, dec 0 q = 0%R.
Proof. intros. unfold dec. ring. Qed.
Lemma of_decimal_rounded : forall neg m q, 0 <= m -> rounded neg m q (of_decimal neg m q).
Proof.
  intros neg m q M. unfold rounded, round64. rewrite two_1024. destruct (Z.eq_dec m 0) as [->|N].
  - rewrite dec_0, round_0 by apply valid_rnd_N. pose proof (bpow_gt_0 radix2 1024). split; intros; [|lra]. cbn. destruct neg; repeat split; lra.
  - destruct (of_decimal_spec neg m q) as (A & B); [lia|]. split; auto. intros C. destruct (A C) as (V & F & S). split; auto.
Qed.
Lemma rounded_unique : forall neg m q x y, rounded neg m q x -> rounded neg m q y -> x = y.
Proof.
  intros neg m q x y (A1 & A2) (B1 & B2). destruct (Rlt_le_dec (round64 (dec m q)) (IZR (2 ^ 1024))) as [C|C].
  - destruct (A1 C) as (FX & SX & VX). destruct (B1 C) as (FY & SY & VY). apply B2R_Bsign_inj; auto; congruence.
  - rewrite A2, B2; auto.
Qed.
Lemma decimal_nonneg : forall s, Forall digit s -> 0 <= decimal s.
Proof.
  intros s D. unfold decimal. assert (G : forall s acc, Forall digit s -> 0 <= acc -> 0 <= fold_left (fun n a => 10 * n + (Z.of_nat (nat_of_ascii a) - 48)) s acc); [|apply G; auto; lia].
  clear. induction s as [|a s IH]; intros acc D A; auto. inversion D as [|? ? E D']; subst. cbn [fold_left]. apply IH; auto. destruct E. lia.
Qed.
Lemma numeral_nonneg : forall t m q, numeral t m q -> 0 <= m.
Proof. intros t m q (u & fr & v & ex & k & _ & U & V & _ & _ & _ & -> & _). apply decimal_nonneg. apply Forall_app. auto. Qed.
Lemma rounded_iff : forall neg m q y, 0 <= m -> rounded neg m q y <-> y = of_decimal neg m q.
Proof.
  intros neg m q y M. split; [|intros ->; apply of_decimal_rounded; auto]. intros R. eapply rounded_unique; [exact R|]. apply of_decimal_rounded. auto.
Qed.

(** Letters. *)
Lemma letter_lower : forall a, same_letter a (lower1 a).
Proof.
  intros a. unfold lower1. destruct (Nat.leb_spec 65 (nat_of_ascii a)) as [A|A]; [|left; auto]. destruct (Nat.leb_spec (nat_of_ascii a) 90) as [B|B]; [|left; auto].
  cbn [andb]. right. exists (nat_of_ascii a - 65)%nat. split; [lia|]. left. split; [rewrite <- (ascii_nat_embedding a) at 1|]; f_equal; lia.
Qed.
Lemma any_case_iff : forall v w, lower v = v -> any_case w v <-> lower w = v.
Proof.
  intros v w L. split.
  - intros H. rewrite <- L. clear L. induction H as [|a b w v A H IH]; auto. cbn [lower map]. f_equal; [apply lower_letter; auto|exact IH].
  - intros <-. clear L. induction w as [|a w IH]; [constructor|]. constructor; [apply letter_lower|exact IH].
Qed.
Lemma eqb_str_iff : forall a b, eqb_str a b = true <-> a = b.
Proof. intros a b. unfold eqb_str. destruct (list_eq_dec ascii_dec a b); split; auto; discriminate. Qed.

(** Numerals are not words. *)
Lemma numeral_head : forall t m q, numeral t m q -> exists a u, t = a :: u /\ (digit a \/ a = "."%char).
Proof.
  intros t m q (u & fr & v & ex & k & -> & U & V & NE & F & _). destruct u as [|a u].
  - destruct F as [[-> ->]| ->]; [contradiction NE; reflexivity|]. cbn [app]. eauto.
  - inversion U; subst. cbn [app]. eauto.
Qed.
Lemma numeral_last : forall t m q, numeral t m q -> exists a u, t = u ++ [a] /\ (digit a \/ a = "."%char).
Proof.
  intros t m q (u & fr & v & ex & k & -> & U & V & NE & F & K & _). assert (L1 : forall s, s <> [] -> Forall digit s -> exists a s', s = s' ++ [a] /\ digit a).
  { intros s N D. destruct (exists_last N) as (s' & a & ->). exists a, s'. split; auto. apply Forall_app in D. destruct D as [_ D]. inversion D; auto. }
  destruct K as [[-> _]|(c & sg & neg & w & -> & _ & _ & W & D & _)].
  - rewrite app_nil_r. destruct F as [[-> ->]| ->].
    + rewrite app_nil_r in NE |- *. destruct (L1 u NE U) as (a & s & -> & A). eauto.
    + destruct v as [|b v]; [exists "."%char, u; auto|]. destruct (L1 (b :: v)) as (a & s & E & A); [discriminate|auto|]. exists a, (u ++ "."%char :: s). split; auto.
      rewrite <- app_assoc. cbn [app]. rewrite <- E. reflexivity.
  - destruct (L1 w W D) as (a & s & -> & A). exists a, (u ++ fr ++ c :: sg ++ s). split; auto. rewrite <- !app_assoc. cbn [app]. rewrite <- !app_assoc. reflexivity.
Qed.
Lemma body_facts : forall neg w y, stands_for neg w y ->
  (hd_error w <> Some "-"%char /\ hd_error w <> Some "+"%char) /\ (exists a u, w = a :: u /\ is_ws a = false) /\ (exists a u, w = u ++ [a] /\ is_ws a = false).
Proof.
  assert (Q : forall w v b c u u', any_case w v -> lower v = v -> v = b :: u -> v = u' ++ [c] -> is_ws b = false -> is_ws c = false -> b <> "-"%char -> b <> "+"%char ->
    (hd_error w <> Some "-"%char /\ hd_error w <> Some "+"%char) /\ (exists a u, w = a :: u /\ is_ws a = false) /\ (exists a u, w = u ++ [a] /\ is_ws a = false)).
  { intros w v b c u u' H L E1 E2 B C N1 N2. apply any_case_iff in H; auto. subst v. destruct w as [|a w]; [discriminate|]. cbn [lower map] in E1. injection E1 as E1 E3.
    assert (WS : forall a, is_ws (lower1 a) = is_ws a) by (intros [[] [] [] [] [] [] [] []]; reflexivity).
    split; [split; intros X; injection X as ->; [apply N1|apply N2]; rewrite <- E1; reflexivity|]. split; [exists a, w; split; auto; rewrite <- WS; congruence|].
    assert (NE : a :: w <> []) by discriminate. destruct (exists_last NE) as (s & d & E). rewrite E in *. exists d, s. split; auto.
    unfold lower in E2. rewrite map_app in E2. apply app_inj_tail in E2. destruct E2 as [_ E2]. rewrite <- WS, E2. auto. }
  intros neg w y [[[H|H] _]|[[H _]|(m & q & H & _)]].
  - apply (Q w _ "i"%char "f"%char ["n"; "f"]%char ["i"; "n"]%char H); try reflexivity; discriminate.
  - apply (Q w _ "i"%char "y"%char ["n"; "f"; "i"; "n"; "i"; "t"; "y"]%char ["i"; "n"; "f"; "i"; "n"; "i"; "t"]%char H); try reflexivity; discriminate.
  - apply (Q w _ "n"%char "n"%char ["a"; "n"]%char ["n"; "a"]%char H); try reflexivity; discriminate.
  - destruct (numeral_head w m q H) as (a & u & E1 & A). destruct (numeral_last w m q H) as (b & v & E2 & B).
    assert (D : forall c, digit c \/ c = "."%char -> is_ws c = false /\ c <> "-"%char /\ c <> "+"%char).
    { intros c [C|C]; [|subst; repeat split; try reflexivity; discriminate]. split; [apply digit_nonws; auto|].
      split; intros ->; destruct C as [C _]; cbv in C; lia. }
    destruct (D a A) as (A1 & A2 & A3). destruct (D b B) as (B1 & _). split; [rewrite E1; split; intros X; injection X; auto|]. split; eauto.
Qed.

Lemma numeral_not_word : forall w m q, numeral w m q -> forall v, hd_error v = Some "i"%char \/ hd_error v = Some "n"%char -> eqb_str (lower w) v = false.
Proof.
  intros w m q H v V. destruct (numeral_head w m q H) as (a & u & -> & [A|A]).
  - apply not_special; auto. rewrite (proj2 (digit_value_spec a _) (conj A eq_refl)). discriminate.
  - subst a. destruct (eqb_str (lower ("."%char :: u)) v) eqn:E; auto. apply eqb_str_iff in E. rewrite <- E in V. destruct V; discriminate.
Qed.
Lemma body_iff : forall neg w y,
  (if (eqb_str (lower w) (L "inf") || eqb_str (lower w) (L "infinity"))%bool then Some (B754_infinity neg)
   else if eqb_str (lower w) (L "nan") then Some B754_nan
   else option_map (fun mq => of_decimal neg (fst mq) (snd mq)) (parse_decimal w)) = Some y <-> stands_for neg w y.
Proof.
  intros neg w y. split.
  - destruct (eqb_str (lower w) (L "inf")) eqn:E1; [|destruct (eqb_str (lower w) (L "infinity")) eqn:E2; [|destruct (eqb_str (lower w) (L "nan")) eqn:E3]]; cbn [orb]; intros H.
    + left. apply eqb_str_iff in E1. split; [left; apply any_case_iff; auto|congruence].
    + left. apply eqb_str_iff in E2. split; [right; apply any_case_iff; auto|congruence].
    + right. left. apply eqb_str_iff in E3. split; [apply any_case_iff; auto|congruence].
    + right. right. destruct (parse_decimal w) as [[m q]|] eqn:P; [|discriminate]. apply decimal_iff in P. exists m, q. split; auto.
      apply rounded_iff; [eapply numeral_nonneg; eauto|]. cbn [option_map fst snd] in H. congruence.
  - intros [[[H|H] ->]|[[H ->]|(m & q & H & R)]].
    + apply any_case_iff in H; [|reflexivity]. rewrite H. reflexivity.
    + apply any_case_iff in H; [|reflexivity]. rewrite H. reflexivity.
    + apply any_case_iff in H; [|reflexivity]. rewrite H. reflexivity.
    + rewrite !(numeral_not_word w m q) by (auto; cbn; auto). cbn [orb]. rewrite (proj2 (decimal_iff w m q) H). cbn [option_map fst snd].
      apply (rounded_iff neg m q y (numeral_nonneg w m q H)) in R. rewrite R. reflexivity.
Qed.
Lemma last_app1 : forall (u : str) a d, last (u ++ [a]) d = a.
Proof. intros. apply last_last. Qed.
Lemma float_of_text_iff : forall s y, float_of_text s = Some y <-> number_text s y.
Proof.
  intros s y. unfold float_of_text. split.
  - destruct (drop_underscores false (strip s)) as [t|] eqn:D; [|discriminate]. apply drop_iff in D.
    change (match t with "-"%char :: u1 => (true, u1) | "+"%char :: u2 => (false, u2) | _ => (false, t) end) with (unsigned t).
    destruct (unsigned t) as [neg w] eqn:U. apply unsigned_spec in U. destruct U as (sg & -> & S). intros H. apply body_iff in H.
    destruct (strip_split s) as (l & r & E & W1 & W2). exists l, (strip s), r, sg, neg, w. repeat split; auto.
  - intros (l & t & r & sg & neg & w & -> & W1 & W2 & U & S & B). destruct (body_facts neg w y B) as ((N1 & N2) & (a & u & E1 & A) & (b & v & E2 & C)).
    assert (SG : sg = [] \/ sg = ["+"%char] \/ sg = ["-"%char]) by (destruct neg; cbn in S; tauto).
    assert (ST : strip (l ++ t ++ r) = t).
    { assert (H0 : exists c, hd_error t = Some c /\ is_ws c = false).
      { rewrite (ungrouped_head _ _ U). destruct SG as [->|[->| ->]]; cbn [app]; [rewrite E1|..]; cbn [hd_error]; eauto. }
      assert (H1 : exists c, forall d, last t d = c /\ is_ws c = false).
      { exists b. intros d. rewrite (ungrouped_last _ _ U). rewrite E2, app_assoc, last_app1. auto. }
      destruct H0 as (c & H0 & H0'). destruct H1 as (c' & H1). destruct t as [|x t]; [discriminate|]. injection H0 as ->.
      apply strip_between; auto; [discriminate|eauto|]. assert (NE : c :: t <> []) by discriminate. destruct (exists_last NE) as (s' & e & E). rewrite E in H1 |- *.
      destruct (H1 " "%char) as [H2 H3]. rewrite last_app1 in H2. subst. eauto. }
    rewrite ST. rewrite (proj2 (drop_iff _ _) U).
    change (match sg ++ w with "-"%char :: u1 => (true, u1) | "+"%char :: u2 => (false, u2) | _ => (false, sg ++ w) end) with (unsigned (sg ++ w)).
    rewrite (unsigned_app sg neg w) by auto. apply body_iff. auto.
Qed.
