(** The text of a number and reading it back. *)
From Coq Require Import Reals String List ZArith Ascii Bool Lra Lia.
From Flocq Require Import Core Div BinarySingleNaN.
From Verif Require Import Base TextModel TextSpec TextProofs TextProofs2 FormatModel FormatProofs ParamsModel ParamsSpec ParamsProofs3.
From Verif Require Import PpgFloatModel PpgFloatProofs FloatModel ReprModel ReprSpec ReprProofs ReprProofs2.
Import ListNotations.
Open Scope Z_scope.

Definition isd (s : str) : Prop := Forall (fun a => digit_value a <> None) s.
Definition stops (t : str) : Prop := match t with [] => True | a :: _ => digit_value a = None end.
Definition zlen (s : str) : Z := Z.of_nat (List.length s).
Lemma isd_digit : forall s, isd s -> Forall digit s.
Proof.
  intros s H. eapply Forall_impl; [|exact H]. intros a A. destruct (digit_value a) as [d|] eqn:E; [|congruence]. apply digit_value_spec in E. apply E.
Qed.
Lemma take_run : forall s acc n t, isd s -> take_digits acc n (s ++ t) = take_digits (dec_from acc s) (n + zlen s) t.
Proof.
  induction s as [|a s IH]; intros acc n t H; [cbn [app]; f_equal; unfold zlen; cbn; lia|]. inversion H as [|? ? A S]; subst.
  cbn [app take_digits]. destruct (digit_value a) as [d|] eqn:E; [|congruence]. apply digit_value_spec in E. destruct E as [_ ->].
  rewrite IH by auto. unfold dec_from at 2. cbn [fold_left]. f_equal. unfold zlen. cbn [List.length]. lia.
Qed.
Lemma take_stop : forall acc n t, stops t -> take_digits acc n t = (acc, n, t).
Proof. intros acc n [|a t] H; cbn [take_digits]; auto. cbn in H. rewrite H. reflexivity. Qed.
Lemma take_all : forall s acc n t, isd s -> stops t -> take_digits acc n (s ++ t) = (dec_from acc s, n + zlen s, t).
Proof. intros. rewrite take_run by auto. apply take_stop. auto. Qed.
Lemma dec_from_app : forall s t acc, dec_from acc (s ++ t) = dec_from (dec_from acc s) t.
Proof. intros. unfold dec_from. apply fold_left_app. Qed.
Lemma dec_from_zeros : forall k acc, dec_from acc (repeat "0"%char k) = acc * 10 ^ Z.of_nat k.
Proof.
  induction k as [|k IH]; intros acc; [cbn; lia|]. cbn [repeat]. unfold dec_from in *. cbn [fold_left]. rewrite IH.
  change (Z.of_nat (nat_of_ascii "0"%char) - 48) with 0. rewrite Nat2Z.inj_succ, Z.pow_succ_r by lia. lia.
Qed.
Lemma isd_zeros : forall k, isd (repeat "0"%char k).
Proof. intros k. apply Forall_forall. intros a I. apply repeat_spec in I. subst. discriminate. Qed.
Lemma isd_app : forall s t, isd s -> isd t -> isd (s ++ t).
Proof. intros. apply Forall_app; auto. Qed.
Lemma show_nat_isd : forall m, 0 <= m -> isd (show_nat m) /\ show_nat m <> [] /\ dec_from 0 (show_nat m) = m.
Proof.
  intros m M. destruct (show_nat_spec m M) as (P & N & D). split; [exact D|]. split; [exact N|].
  rewrite <- (app_nil_r (show_nat m)) in P. rewrite digits_run in P by (try apply isd_digit; auto). cbn [parse_digits] in P. apply (f_equal (fun o => match o with Some z => z | None => 0 end)) in P. exact P.
Qed.
Lemma zlen_app : forall s t, zlen (s ++ t) = zlen s + zlen t.
Proof. intros. unfold zlen. rewrite app_length. lia. Qed.
Lemma zlen_repeat : forall k, zlen (repeat "0"%char k) = Z.of_nat k.
Proof. intros. unfold zlen. rewrite repeat_length. reflexivity. Qed.

(** The exponent. *)
Lemma exponent_read : forall e, parse_exponent (exponent e) = Some e.
Proof.
  intros e. unfold exponent. destruct (show_nat_isd (Z.abs e)) as (D & N & V); [lia|].
  set (ds := match show_nat (Z.abs e) with [d] => ["0"%char; d] | ds => ds end).
  assert (Q : isd ds /\ dec_from 0 ds = Z.abs e /\ 0 < zlen ds).
  { unfold ds. destruct (show_nat (Z.abs e)) as [|a [|b s]]; [congruence| |].
    - inversion D; subst. split; [constructor; [discriminate|auto]|]. split; [exact V|reflexivity].
    - split; [auto|]. split; [auto|]. unfold zlen. cbn [List.length]. lia. }
  destruct Q as (Q1 & Q2 & Q3). assert (T : take_digits 0 0 ds = (Z.abs e, zlen ds, [])).
  { rewrite <- (app_nil_r ds) at 1. rewrite take_all; [|exact Q1|exact I]. rewrite Q2. reflexivity. }
  unfold parse_exponent. destruct (Z.ltb_spec e 0); rewrite T; rewrite (proj2 (Z.eqb_neq (zlen ds) 0)) by lia; f_equal; lia.
Qed.

(** A numeral without exponent. *)
Lemma parse_point : forall u v, isd u -> isd v -> u <> [] -> parse_decimal (u ++ "."%char :: v) = Some (dec_from 0 (u ++ v), - zlen v).
Proof.
  intros u v U V N. unfold parse_decimal. rewrite take_all; [|exact U|reflexivity]. rewrite <- (app_nil_r v) at 1. rewrite take_all; [|exact V|exact I].
  assert (0 < zlen u) by (unfold zlen; destruct u; [congruence|cbn [List.length]; lia]).
  rewrite (proj2 (Z.eqb_neq _ 0)) by (unfold zlen in *; lia). rewrite dec_from_app. reflexivity.
Qed.
Lemma parse_sci : forall d rest k, digit_value d <> None -> isd rest ->
  parse_decimal (d :: match rest with [] => [] | _ => "."%char :: rest end ++ "e"%char :: exponent k) = Some (dec_from 0 (d :: rest), k - zlen rest).
Proof.
  intros d rest k D R. unfold parse_decimal. destruct rest as [|a r].
  - cbn [app]. change (d :: "e"%char :: exponent k) with ([d] ++ "e"%char :: exponent k). rewrite take_all; [|constructor; auto|reflexivity].
    cbn [zlen List.length Z.of_nat Z.add Z.eqb Pos.of_succ_nat Ascii.eqb Bool.eqb orb]. rewrite exponent_read. reflexivity.
  - change (d :: ("."%char :: a :: r) ++ "e"%char :: exponent k) with ([d] ++ "."%char :: (a :: r) ++ "e"%char :: exponent k).
    rewrite take_all; [|constructor; auto|reflexivity]. rewrite take_all; [|exact R|reflexivity].
    rewrite (proj2 (Z.eqb_neq _ 0)) by (unfold zlen; cbn [List.length]; lia).
    change (Ascii.eqb "e" "e" || Ascii.eqb "e" "E")%bool with true. cbv iota. rewrite exponent_read. rewrite <- dec_from_app. reflexivity.
Qed.

Lemma layout_read : forall m q, 0 < m -> exists m' q', parse_decimal (layout m q) = Some (m', q') /\ 0 < m' /\ dec m' q' = dec m q.
Proof.
  intros m q M. destruct (show_nat_isd m) as (D & N & V); [lia|]. unfold layout. fold (zlen (show_nat m)). set (ds := show_nat m) in *.
  assert (L0 : 0 < zlen ds) by (unfold zlen; destruct ds; [congruence|cbn [List.length]; lia]).
  destruct ((-4 <? zlen ds + q) && (zlen ds + q <=? 16))%bool.
  - destruct (Z.leb_spec (zlen ds + q) 0) as [C|C].
    + exists m, q. split; [|split; auto]. change (L "0." ++ repeat "0"%char (Z.to_nat (- (zlen ds + q))) ++ ds) with (["0"%char] ++ "."%char :: repeat "0"%char (Z.to_nat (- (zlen ds + q))) ++ ds).
      rewrite parse_point; [|repeat constructor; discriminate|apply isd_app; [apply isd_zeros|auto]|discriminate].
      rewrite !dec_from_app, dec_from_zeros, zlen_app, zlen_repeat. change (dec_from 0 ["0"%char]) with 0. rewrite Z.mul_0_l, V. do 2 f_equal. lia.
    + destruct (Z.leb_spec (zlen ds) (zlen ds + q)) as [C2|C2].
      * exists (m * 10 ^ (q + 1)), (-1). split; [|split].
        -- change (L ".0") with ("."%char :: ["0"%char]). rewrite app_assoc. rewrite parse_point; [|apply isd_app; [auto|apply isd_zeros]|repeat constructor; discriminate|destruct ds; [congruence|discriminate]].
           rewrite !dec_from_app, V, dec_from_zeros. replace (zlen ds + q - zlen ds) with q by ring. rewrite Z2Nat.id by lia.
           change ["0"%char] with (repeat "0"%char 1). rewrite dec_from_zeros, <- Z.mul_assoc, <- Z.pow_add_r by lia. reflexivity.
        -- assert (0 < 10 ^ (q + 1)) by (apply Z.pow_pos_nonneg; lia). nia.
        -- rewrite dec_scale by lia. f_equal. lia.
      * exists m, q. split; [|split; auto]. rewrite <- (firstn_skipn (Z.to_nat (zlen ds + q)) ds) in D. apply Forall_app in D. destruct D as (D1 & D2).
        rewrite parse_point; auto.
        -- rewrite firstn_skipn, V. unfold zlen at 1. rewrite skipn_length. do 2 f_equal. unfold zlen in *. lia.
        -- intros E. apply (f_equal (@List.length ascii)) in E. rewrite firstn_length in E. cbn [List.length] in E. unfold zlen in *. clear - E C L0. lia.
  - exists m, q. split; [|split; auto]. destruct ds as [|d rest]; [congruence|]. rewrite parse_sci; [|exact (Forall_inv D)|exact (Forall_inv_tail D)].
    rewrite V. do 2 f_equal. unfold zlen. cbn [List.length]. lia.
Qed.

(** Characters. *)
Definition plain (a : ascii) : Prop := digit_value a <> None \/ In a [".";"e";"+";"-"]%char.
Lemma isd_plain : forall s, isd s -> Forall plain s.
Proof. intros s H. eapply Forall_impl; [|exact H]. intros a A. left. exact A. Qed.
Lemma exponent_plain : forall e, Forall plain (exponent e).
Proof.
  intros e. unfold exponent. destruct (show_nat_isd (Z.abs e)) as (D & N & V); [lia|]. constructor; [right; destruct (e <? 0); cbn; auto|].
  apply isd_plain. destruct (show_nat (Z.abs e)) as [|a [|b s]]; auto. constructor; [discriminate|auto].
Qed.
Lemma layout_plain : forall m q, 0 < m -> Forall plain (layout m q) /\ exists a t, layout m q = a :: t /\ digit_value a <> None.
Proof.
  intros m q M. destruct (show_nat_isd m) as (D & N & V); [lia|]. unfold layout. set (ds := show_nat m) in *.
  assert (DOT : plain "."%char) by (right; cbn; auto). assert (ZERO : plain "0"%char) by (left; discriminate).
  destruct ((-4 <? Z.of_nat (List.length ds) + q) && (Z.of_nat (List.length ds) + q <=? 16))%bool.
  - destruct (Z.of_nat (List.length ds) + q <=? 0) eqn:C.
    + split; [|eexists; eexists; split; [reflexivity|discriminate]]. cbn [L list_ascii_of_string app]. repeat (constructor; auto).
      apply Forall_app. split; apply isd_plain; [apply isd_zeros|auto].
    + apply Z.leb_gt in C. destruct (Z.of_nat (List.length ds) <=? Z.of_nat (List.length ds) + q).
      * split; [repeat (apply Forall_app; split); try (apply isd_plain; auto; apply isd_zeros); cbn [L list_ascii_of_string]; repeat (constructor; auto)|].
        destruct ds as [|a t]; [congruence|]. inversion D; subst. exists a. eexists. split; [reflexivity|auto].
      * split.
        -- rewrite <- (firstn_skipn (Z.to_nat (Z.of_nat (List.length ds) + q)) ds) in D. apply Forall_app in D. destruct D as (D1 & D2).
           apply Forall_app. split; [apply isd_plain; auto|]. constructor; auto. apply isd_plain. auto.
        -- destruct ds as [|a t]; [congruence|]. inversion D; subst. exists a. destruct (Z.to_nat (Z.of_nat (List.length (a :: t)) + q)) eqn:E; [lia|].
           cbn [firstn app]. eexists. split; [reflexivity|auto].
  - destruct ds as [|d rest]; [congruence|]. inversion D; subst. split; [|eexists; eexists; split; [reflexivity|auto]].
    constructor; [left; auto|]. apply Forall_app. split; [destruct rest; constructor; auto; apply isd_plain; auto|].
    constructor; [right; cbn; auto|]. apply exponent_plain.
Qed.
Lemma plain_facts : forall a, plain a -> is_ws a = false /\ Ascii.eqb a "_" = false /\ a <> "#"%char /\ a <> ";"%char.
Proof.
  intros a [D|I].
  - split; [apply digit_not_ws; auto|]. split; [destruct (Ascii.eqb_spec a "_"); [subst; exfalso; apply D; reflexivity|auto]|].
    split; intros ->; apply D; reflexivity.
  - cbn in I. repeat (destruct I as [<-|I]; [repeat split; try reflexivity; discriminate|]). contradiction.
Qed.
Lemma no_underscores : forall s b, Forall plain s -> drop_underscores b s = Some s.
Proof.
  induction s as [|a s IH]; intros b H; auto. inversion H as [|? ? A S]; subst. cbn [drop_underscores]. destruct (plain_facts a A) as (_ & U & _).
  rewrite U, IH by auto. reflexivity.
Qed.
Lemma word_strip : forall s, Forall plain s -> s <> [] -> strip s = s.
Proof.
  intros s H N. apply strip_word. split; auto. eapply Forall_impl; [|exact H]. intros a A. apply (plain_facts a A).
Qed.
Lemma digit_lower : forall a, digit_value a <> None -> lower1 a = a /\ a <> "i"%char /\ a <> "n"%char.
Proof.
  intros a D. unfold lower1. destruct (digit_value a) as [d|] eqn:E; [|congruence]. apply digit_value_spec in E. destruct E as [E _]. unfold digit in E.
  split; [|split; intros ->; cbn in E; lia]. destruct (Nat.leb_spec 65 (nat_of_ascii a)); [lia|]. reflexivity.
Qed.
Lemma not_special : forall a t w, digit_value a <> None -> hd_error w = Some "i"%char \/ hd_error w = Some "n"%char -> eqb_str (lower (a :: t)) w = false.
Proof.
  intros a t w D H. unfold eqb_str. destruct (list_eq_dec ascii_dec (lower (a :: t)) w) as [E|]; auto. exfalso. subst w. unfold lower in H. cbn [map hd_error] in H.
  destruct (digit_lower a D) as (L1 & L2 & L3). rewrite L1 in H. destruct H as [H|H]; injection H; auto.
Qed.
Lemma digit_not_sign : forall a, digit_value a <> None -> a <> "-"%char /\ a <> "+"%char.
Proof. intros a D. split; intros ->; apply D; reflexivity. Qed.
Lemma split_sign : forall s a t, digit_value a <> None ->
  (match sign_text s ++ a :: t with
   | "-"%char :: u => (true, u)
   | "+"%char :: u => (false, u)
   | _ => (false, sign_text s ++ a :: t)
   end) = (s, a :: t).
Proof.
  intros s a t D. destruct s; [reflexivity|]. cbn [sign_text app]. destruct (digit_not_sign a D) as (A & B).
  destruct a as [[] [] [] [] [] [] [] []]; try reflexivity; [exfalso; apply B; reflexivity|exfalso; apply A; reflexivity].
Qed.
Lemma signed_plain : forall s w, Forall plain w -> Forall plain (sign_text s ++ w).
Proof. intros [] w H; cbn [sign_text app]; auto. constructor; auto. right. cbn. auto. Qed.
(** Reading a signed numeral. *)
Lemma read_numeral : forall s a t m q, Forall plain (a :: t) -> digit_value a <> None -> parse_decimal (a :: t) = Some (m, q) ->
  float_of_text (sign_text s ++ a :: t) = Some (of_decimal s m q).
Proof.
  intros s a t m q P D E. unfold float_of_text. rewrite word_strip; [|apply signed_plain; auto|destruct s; discriminate].
  rewrite no_underscores by (apply signed_plain; auto). rewrite split_sign by auto.
  rewrite !not_special by (auto; cbn; auto). cbn [orb]. rewrite E. reflexivity.
Qed.

Lemma repr_reads : forall x : b64, float_of_text (float_repr x) = Some x.
Proof.
  intros [[]|[]| |s m e H]; [reflexivity..|]. cbn [float_repr]. destruct (shortest m e H) as [d q] eqn:E.
  destruct (shortest_spec _ _ _ _ _ E) as (D & _ & R & _). destruct (layout_read d q) as (d' & q' & P & D' & V); [lia|].
  destruct (layout_plain d q) as (W & a & t & T & A); [lia|]. rewrite T in *. rewrite (read_numeral s a t d' q') by auto.
  f_equal. apply reads_back; auto. rewrite V. exact R.
Qed.
Lemma repr_printable : forall x : b64, printable codec64 x.
Proof.
  intros x. unfold printable. cbn [c_show c_read codec64].
  assert (K : float_repr x <> [] /\ Forall (fun a => is_ws a = false) (float_repr x) /\ hd_error (float_repr x) <> Some "#"%char /\ hd_error (float_repr x) <> Some ";"%char).
  { destruct x as [[]|[]| |s m e H]; try (repeat split; try discriminate; repeat constructor; fail). cbn [float_repr]. destruct (shortest m e H) as [d q] eqn:E.
    destruct (shortest_spec _ _ _ _ _ E) as (D & _). destruct (layout_plain d q) as (W & a & t & T & A); [lia|].
    split; [rewrite T; destruct s; discriminate|]. apply (signed_plain s) in W. split; [eapply Forall_impl; [|exact W]; intros b B; apply (plain_facts b B)|].
    rewrite T in *. destruct (sign_text s ++ a :: t) as [|b u] eqn:Q; [destruct s; discriminate|]. inversion W; subst. destruct (plain_facts b H2) as (_ & _ & B1 & B2).
    cbn [hd_error]. split; intros C; injection C; auto. }
  destruct K as (K1 & K2 & K3 & K4). split; auto. split; [apply word_ws; auto|]. split; auto. split; auto. apply repr_reads.
Qed.
