(** Lemmas about the text model. *)
From Coq Require Import List ZArith Ascii String Bool Arith Lia.
From Verif Require Import Base TextModel TextSpec.
Import ListNotations.
Open Scope nat_scope.

(** ** White space *)
Lemma blank_iff : forall a, is_ws a = true <-> blank a.
Proof.
  intros a. unfold blank. split.
  - destruct a as [[] [] [] [] [] [] [] []]; intros H; try discriminate H; cbn [In]; tauto.
  - intros H. cbn [In] in H. repeat (destruct H as [<-|H]; [reflexivity|]). destruct H.
Qed.
Lemma not_blank : forall a, is_ws a = false <-> ~ blank a.
Proof. intros a. rewrite <- blank_iff. destruct (is_ws a); split; congruence. Qed.
Lemma white_ws : forall s, white s <-> Forall (fun a => is_ws a = true) s.
Proof. intros s. unfold white. rewrite !Forall_forall. split; intros H a I; apply blank_iff; auto. Qed.
Lemma word_ws : forall s, Forall (fun a => ~ blank a) s <-> Forall (fun a => is_ws a = false) s.
Proof. intros s. rewrite !Forall_forall. split; intros H a I; apply not_blank; auto. Qed.

Lemma ws_blank : forall a, is_ws a = true -> blank a.
Proof. intros a. apply blank_iff. Qed.
Lemma blank_ws : forall a, blank a -> is_ws a = true.
Proof. intros a. apply blank_iff. Qed.
Lemma nonws_blank : forall a, is_ws a = false -> ~ blank a.
Proof. intros a. apply not_blank. Qed.
Lemma nonblank_ws : forall a, ~ blank a -> is_ws a = false.
Proof. intros a. apply not_blank. Qed.
Lemma ws_white : forall s, Forall (fun a => is_ws a = true) s -> white s.
Proof. intros s. apply white_ws. Qed.
Lemma white_all : forall s, white s -> Forall (fun a => is_ws a = true) s.
Proof. intros s. apply white_ws. Qed.
#[export] Hint Resolve ws_blank blank_ws nonws_blank nonblank_ws ws_white white_all : core.

(** ** Words: no whitespace inside *)
Definition word (w : str) : Prop := w <> [] /\ Forall (fun a => is_ws a = false) w.

Lemma lstrip_word : forall w t, word w -> lstrip (w ++ t) = w ++ t.
Proof. intros [|a w] t [N H]; [congruence|]. inversion H; subst. simpl. rewrite H2. auto. Qed.
Lemma word_rev : forall w, word w -> word (rev w).
Proof.
  intros w [N H]. split; [|apply Forall_rev; auto].
  intro E. apply N. rewrite <- (rev_involutive w), E. auto.
Qed.
Lemma rstrip_word : forall s w, word w -> rstrip (s ++ w) = s ++ w.
Proof.
  intros s w H. unfold rstrip. rewrite rev_app_distr, lstrip_word by (apply word_rev; auto).
  rewrite rev_app_distr, !rev_involutive. auto.
Qed.
Lemma rstrip_word0 : forall w, word w -> rstrip w = w.
Proof. intros. apply (rstrip_word [] w); auto. Qed.
Lemma lstrip_ws : forall s t, Forall (fun a => is_ws a = true) s -> lstrip (s ++ t) = lstrip t.
Proof. induction 1; simpl; auto. rewrite H. auto. Qed.
Lemma rstrip_ws : forall s t, Forall (fun a => is_ws a = true) t -> rstrip (s ++ t) = rstrip s.
Proof. intros. unfold rstrip. rewrite rev_app_distr, lstrip_ws; auto. apply Forall_rev; auto. Qed.
Lemma lstrip_word0 : forall w, word w -> lstrip w = w.
Proof. intros w H. pose proof (lstrip_word w [] H). rewrite app_nil_r in H0. auto. Qed.
Lemma strip_word : forall w, word w -> strip w = w.
Proof. intros. unfold strip. rewrite lstrip_word0, rstrip_word0; auto. Qed.
Lemma spaces_ws : forall n, Forall (fun a => is_ws a = true) (repeat " "%char n).
Proof. induction n; simpl; constructor; auto. Qed.
Lemma strip_pad : forall n w, word w -> strip (repeat " "%char n ++ w) = w.
Proof. intros. unfold strip. rewrite lstrip_ws by apply spaces_ws. rewrite lstrip_word0, rstrip_word0; auto. Qed.

Lemma count_word : forall w, word w -> count_words false w = 1.
Proof.
  intros [|a w] [N H]; [congruence|]. inversion H; subst. simpl. rewrite H2. f_equal.
  clear - H3. induction H3; simpl; auto. rewrite H. auto.
Qed.

(** ** Lines *)
Definition no_nl (s : str) : Prop := ~ In nl s.
Definition no_cr (s : str) : Prop := ~ In "013"%char s.
Lemma word_no_nl : forall w, word w -> no_nl w.
Proof. intros w [_ H] I. rewrite Forall_forall in H. specialize (H _ I). discriminate. Qed.
Lemma word_no_cr : forall w, word w -> no_cr w.
Proof. intros w [_ H] I. rewrite Forall_forall in H. specialize (H _ I). discriminate. Qed.

Lemma split_nl_nonempty : forall s, split_nl s <> [].
Proof. destruct s; simpl; [discriminate|]. destruct (ascii_dec a nl); [discriminate|]. destruct (split_nl s); discriminate. Qed.
Lemma split_nl_app : forall w s, no_nl w -> split_nl (w ++ nl :: s) = w :: split_nl s.
Proof.
  induction w as [|a w IH]; intros s N; simpl.
  - auto.
  - destruct (ascii_dec a nl) as [->|E]; [exfalso; apply N; left; auto|].
    rewrite IH by (intro I; apply N; right; auto). auto.
Qed.
Lemma split_nl_one : forall w, no_nl w -> split_nl w = [w].
Proof.
  induction w as [|a w IH]; intros N; simpl; auto.
  destruct (ascii_dec a nl) as [->|E]; [exfalso; apply N; left; auto|].
  rewrite IH by (intro I; apply N; right; auto). auto.
Qed.
Lemma split_join : forall l, l <> [] -> Forall no_nl l -> split_nl (join_nl l) = l.
Proof.
  induction l as [|w l IH]; intros N H; [congruence|]. inversion H; subst. destruct l as [|w' l].
  - apply split_nl_one; auto.
  - change (join_nl (w :: w' :: l)) with (w ++ nl :: join_nl (w' :: l)). rewrite split_nl_app by auto.
    f_equal. apply IH; auto. discriminate.
Qed.
Lemma lstrip_keep : forall u b v, is_ws b = false -> lstrip (u ++ b :: v) = lstrip (u ++ [b]) ++ v.
Proof.
  induction u as [|a u IH]; intros b v B; simpl; [rewrite B; auto|]. destruct (is_ws a); auto.
  simpl. rewrite <- app_assoc. auto.
Qed.
Lemma rstrip_keep : forall x b t, is_ws b = false -> rstrip (x ++ b :: t) = x ++ rstrip (b :: t).
Proof.
  intros x b t B. unfold rstrip. rewrite rev_app_distr. simpl. rewrite <- app_assoc. simpl.
  rewrite lstrip_keep by auto. rewrite rev_app_distr, rev_involutive. auto.
Qed.
Lemma blanks_ws : forall n, Forall (fun a => is_ws a = true) (join_nl (repeat [] n)).
Proof. induction n as [|n IH]; simpl; auto. destruct n; simpl in *; auto. Qed.
Lemma join_pad : forall l n, Forall word l -> rstrip (join_nl (l ++ repeat [] n)) = join_nl l.
Proof.
  intros l n H. destruct l as [|w l].
  - apply (rstrip_ws [] _ (blanks_ws n)).
  - revert w H. induction l as [|w' l IH]; intros w H; inversion H; subst.
    + change ([w] ++ repeat [] n) with (w :: repeat [] n).
      assert (E : forall n, exists t, join_nl (w :: repeat [] n) = w ++ t /\ Forall (fun a => is_ws a = true) t).
      { clear. intros n. destruct n.
        - exists []. split; auto. rewrite app_nil_r. auto.
        - exists (nl :: join_nl (repeat [] (S n))). split; auto. constructor; auto. apply blanks_ws. }
      destruct (E n) as (t & -> & T). rewrite rstrip_ws by auto. apply rstrip_word0; auto.
    + specialize (IH w' H3). change ((w :: w' :: l) ++ repeat [] n) with (w :: (w' :: l) ++ repeat [] n).
      assert (J : join_nl (w :: (w' :: l) ++ repeat [] n) = w ++ nl :: join_nl ((w' :: l) ++ repeat [] n)) by auto.
      rewrite J. change (join_nl (w :: w' :: l)) with (w ++ nl :: join_nl (w' :: l)). rewrite <- IH.
      set (z := join_nl ((w' :: l) ++ repeat [] n)) in *.
      (* z starts with the word w', so stripping does not reach the left part *)
      assert (Z : exists b t, z = b :: t /\ is_ws b = false).
      { assert (W : word w') by (inversion H3; auto). destruct w' as [|b w'']; [destruct W; congruence|].
        destruct W as [_ W]. inversion W; subst. exists b. unfold z. simpl.
        destruct (l ++ repeat [] n); eauto. }
      destruct Z as (b & t & Z & B). rewrite Z.
      replace (w ++ nl :: b :: t) with ((w ++ [nl]) ++ b :: t) by (rewrite <- app_assoc; auto).
      rewrite rstrip_keep by auto. rewrite <- app_assoc. auto.
Qed.

Definition unlines (ls : list str) : str := List.concat (map (fun l => l ++ [nl]) ls).
Lemma unlines_cons : forall l ls, unlines (l :: ls) = l ++ nl :: unlines ls.
Proof. intros. unfold unlines. simpl. rewrite <- app_assoc. auto. Qed.
Lemma unlines_app : forall a b, unlines (a ++ b) = unlines a ++ unlines b.
Proof. intros. unfold unlines. rewrite map_app, concat_app. auto. Qed.
Lemma newlines_id : forall s, no_cr s -> newlines s = s.
Proof.
  induction s as [|a s IH]; intros N; auto.
  assert (E : a <> "013"%char) by (intros ->; apply N; left; auto).
  assert (Q : newlines s = s) by (apply IH; intro I; apply N; right; auto).
  destruct a as [[] [] [] [] [] [] [] []]; simpl; rewrite ?Q; auto. congruence.
Qed.
Lemma split_unlines : forall ls, Forall no_nl ls -> split_nl (unlines ls) = ls ++ [[]].
Proof.
  induction 1; auto. rewrite unlines_cons, split_nl_app by auto. rewrite IHForall. auto.
Qed.
Lemma file_lines_unlines : forall ls, Forall no_nl ls -> Forall no_cr ls -> file_lines (unlines ls) = ls.
Proof.
  intros ls H C. unfold file_lines. rewrite newlines_id.
  - rewrite split_unlines by auto. rewrite last_last. simpl.
    change (if eqb_str [] [] then removelast (ls ++ [[]]) else ls ++ [[]] = ls) || idtac.
    unfold eqb_str. destruct (list_eq_dec ascii_dec [] []); [|congruence]. apply removelast_last.
  - intro I. unfold unlines in I. apply in_concat in I. destruct I as (s & Hs & I). apply in_map_iff in Hs.
    destruct Hs as (l & <- & Hl). apply in_app_iff in I. destruct I as [I|[I|[]]]; [|discriminate].
    rewrite Forall_forall in C. apply (C l Hl); auto.
Qed.

(** ** Integers *)
Lemma digit_value_char : forall d, (0 <= d < 10)%Z -> digit_value (digit_char d) = Some d.
Proof.
  intros d H. assert (E : (d = 0 \/ d = 1 \/ d = 2 \/ d = 3 \/ d = 4 \/ d = 5 \/ d = 6 \/ d = 7 \/ d = 8 \/ d = 9)%Z) by lia.
  repeat destruct E as [->|E]; try reflexivity. subst; reflexivity.
Qed.
Lemma parse_digits_app : forall s t acc b v, parse_digits acc b s = Some v -> s <> [] \/ b = true -> 
  Forall (fun a => digit_value a <> None) s -> parse_digits acc b (s ++ t) = parse_digits v true t.
Proof.
  induction s as [|a s IH]; intros t acc b v H N D.
  - simpl in *. destruct N as [N| ->]; [congruence|]. injection H as ->. auto.
  - inversion D; subst. simpl in *. destruct (digit_value a) as [d|] eqn:E; [|congruence].
    apply IH; auto.
Qed.
Lemma digits_spec : forall fuel n, (0 <= n)%Z -> (n < 2 ^ Z.of_nat fuel)%Z -> fuel <> 0 ->
  parse_digits 0 false (digits fuel n) = Some n /\ digits fuel n <> [] /\ Forall (fun a => digit_value a <> None) (digits fuel n).
Proof.
  induction fuel as [|f IH]; intros n P B F; [congruence|]. cbn [digits]. destruct (n <? 10)%Z eqn:E.
  - apply Z.ltb_lt in E. split; [|split].
    + cbn [parse_digits]. rewrite digit_value_char by lia. f_equal; lia.
    + discriminate.
    + constructor; auto. rewrite digit_value_char by lia. discriminate.
  - apply Z.ltb_ge in E. pose proof (Z.div_mod n 10 ltac:(lia)) as DM. pose proof (Z.mod_pos_bound n 10 ltac:(lia)) as MB.
    rewrite Nat2Z.inj_succ, Z.pow_succ_r in B by lia.
    assert (F0 : f <> 0) by (intros ->; simpl in B; lia).
    destruct (IH (n / 10)%Z) as (A1 & A2 & A3); auto; try (apply Z.div_pos; lia).
    { apply Z.div_lt_upper_bound; lia. }
    split; [|split].
    + rewrite (parse_digits_app _ _ _ _ _ A1) by auto. cbn [parse_digits]. rewrite digit_value_char by lia. f_equal. lia.
    + destruct (digits f (n / 10)); discriminate.
    + apply Forall_app. split; auto. constructor; auto. rewrite digit_value_char by lia. discriminate.
Qed.
Lemma show_nat_spec : forall n, (0 <= n)%Z ->
  parse_digits 0 false (show_nat n) = Some n /\ show_nat n <> [] /\ Forall (fun a => digit_value a <> None) (show_nat n).
Proof.
  intros n P. unfold show_nat. apply digits_spec; auto.
  rewrite Nat2Z.inj_succ, Z2Nat.id by apply Z.log2_nonneg. destruct (Z.eq_dec n 0) as [E|N]; [subst; simpl; lia|].
  apply Z.log2_spec. lia.
Qed.
Lemma digit_not_ws : forall a, digit_value a <> None -> is_ws a = false.
Proof.
  intros a. unfold digit_value, is_ws. destruct (Nat.leb 48 (nat_of_ascii a)) eqn:E; simpl; [|congruence].
  intros _. apply Nat.leb_le in E. replace (Nat.leb (nat_of_ascii a) 13) with false by (symmetry; apply Nat.leb_gt; lia).
  replace (Nat.leb (nat_of_ascii a) 32) with false by (symmetry; apply Nat.leb_gt; lia).
  rewrite !andb_false_r. auto.
Qed.
Lemma show_int_word : forall n, word (show_int n).
Proof.
  intros n. unfold show_int. destruct (n <? 0)%Z eqn:E.
  - apply Z.ltb_lt in E. destruct (show_nat_spec (- n)) as (_ & _ & D); [lia|]. split; [discriminate|].
    constructor; auto. eapply Forall_impl; [|exact D]. apply digit_not_ws.
  - apply Z.ltb_ge in E. destruct (show_nat_spec n) as (_ & N & D); auto. split; auto.
    eapply Forall_impl; [|exact D]. apply digit_not_ws.
Qed.
Lemma parse_show_int : forall n, parse_int (show_int n) = Some n.
Proof.
  intros n. unfold parse_int. rewrite strip_word by apply show_int_word. unfold show_int. destruct (n <? 0)%Z eqn:E.
  - apply Z.ltb_lt in E. destruct (show_nat_spec (- n)) as (P & _ & D); [lia|]. rewrite P. simpl. f_equal. lia.
  - apply Z.ltb_ge in E. destruct (show_nat_spec n) as (P & N & D); auto.
    destruct (show_nat n) as [|a t] eqn:S; [congruence|]. inversion D; subst.
    assert (A1 : a <> "-"%char) by (intros ->; apply H1; reflexivity).
    assert (A2 : a <> "+"%char) by (intros ->; apply H1; reflexivity).
    destruct a as [[] [] [] [] [] [] [] []]; try congruence; auto.
Qed.

(** ** configparser steps *)
Lemma lookup_app : forall {A} k (l r : list (str * A)), lookup k l = None -> lookup k (l ++ r) = lookup k r.
Proof. induction l as [|[k' v] l IH]; simpl; intros; auto. destruct (list_eq_dec ascii_dec k k'); [discriminate|auto]. Qed.
Lemma lookup_last : forall {A} k (v : A) l, lookup k l = None -> lookup k (l ++ [(k, v)]) = Some v.
Proof. intros. rewrite lookup_app by auto. simpl. destruct (list_eq_dec ascii_dec k k); congruence. Qed.
Lemma replace_last : forall {A} k (v w : A) l, lookup k l = None -> replace_key k w (l ++ [(k, v)]) = l ++ [(k, w)].
Proof.
  induction l as [|[k' v'] l IH]; simpl; intros.
  - destruct (list_eq_dec ascii_dec k k); congruence.
  - destruct (list_eq_dec ascii_dec k k'); [discriminate|]. rewrite IH; auto.
Qed.
Lemma append_last : forall pre s sec o vs l, lookup s pre = None -> lookup o sec = None ->
  append_line s o l (pre ++ [(s, sec ++ [(o, vs)])]) = pre ++ [(s, sec ++ [(o, vs ++ [l])])].
Proof. intros. unfold append_line. rewrite lookup_last, lookup_last, replace_last, replace_last by auto. auto. Qed.
Lemma add_last : forall pre s sec o v, lookup s pre = None ->
  add_option s o v (pre ++ [(s, sec)]) = pre ++ [(s, sec ++ [(o, [v])])].
Proof. intros. unfold add_option. rewrite lookup_last, replace_last by auto. auto. Qed.

(** State inside section [s], after the lines of option [o]. *)
Definition at_option (pre : config) (s : str) (sec : section) (o : str) (vs : list str) : pstate :=
  Build_pstate (Some s) (Some o) 0 (pre ++ [(s, sec ++ [(o, vs)])]) false.
Definition at_section (pre : config) (s : str) (sec : section) : pstate :=
  Build_pstate (Some s) None 0 (pre ++ [(s, sec)]) false.

Lemma step_comment : forall st l, is_comment l = true -> read_line st l = Ok st.
Proof. intros. unfold read_line. rewrite H. auto. Qed.
Lemma step_blank : forall pre s sec o vs, lookup s pre = None -> lookup o sec = None -> o <> [] ->
  read_line (at_option pre s sec o vs) [] = Ok (at_option pre s sec o (vs ++ [[]])).
Proof.
  intros. unfold read_line, at_option. cbn [is_comment lstrip]. change (strip []) with (@nil ascii). cbn [p_sect p_opt p_indent p_conf p_bad].
  destruct o; [congruence|]. rewrite append_last by auto. auto.
Qed.
Lemma step_blank_section : forall pre s sec, read_line (at_section pre s sec) [] = Ok (at_section pre s sec).
Proof. intros. auto. Qed.
Definition value_word (w : str) : Prop :=
  word w /\ match w with a :: _ => (Ascii.eqb a "#" || Ascii.eqb a ";")%bool = false | [] => True end.
Lemma step_cont : forall pre s sec o vs n w, lookup s pre = None -> lookup o sec = None -> o <> [] -> value_word w ->
  read_line (at_option pre s sec o vs) (repeat " "%char (S n) ++ w) = Ok (at_option pre s sec o (vs ++ [w])).
Proof.
  intros pre s sec o vs n w S O N [W C]. unfold read_line.
  assert (LS : lstrip (repeat " "%char (Datatypes.S n) ++ w) = w).
  { rewrite lstrip_ws by apply spaces_ws. apply lstrip_word0; auto. }
  unfold is_comment, indentation. rewrite LS, strip_pad by auto. rewrite app_length, repeat_length.
  destruct w as [|a w]; [destruct W; congruence|]. rewrite C.
  unfold at_option. cbn [p_sect p_opt p_indent p_conf p_bad]. destruct o as [|b o]; [congruence|].
  replace (Nat.ltb 0 (Datatypes.S n + List.length (a :: w) - List.length (a :: w))) with true by (symmetry; apply Nat.ltb_lt; lia).
  rewrite append_last by auto. auto.
Qed.
Lemma step_conts : forall ws pre s sec o vs n, lookup s pre = None -> lookup o sec = None -> o <> [] -> Forall value_word ws ->
  read_lines (at_option pre s sec o vs) (map (fun w => repeat " "%char (S n) ++ w) ws) = Ok (at_option pre s sec o (vs ++ ws)).
Proof.
  induction ws as [|w ws IH]; intros pre s sec o vs n S O N W; cbn [map read_lines].
  - rewrite app_nil_r. auto.
  - inversion W; subst. rewrite step_cont by auto. cbn [bind]. rewrite IH by auto. rewrite <- app_assoc. auto.
Qed.
Lemma read_lines_app : forall a b st, read_lines st (a ++ b) = let* st' := read_lines st a in read_lines st' b.
Proof. induction a; simpl; intros; auto. destruct (read_line st a); simpl; auto. Qed.
Lemma step_option : forall st pre s sec k d n w name, p_sect st = Some s -> p_indent st = 0 -> p_conf st = pre ++ [(s, sec)] -> p_bad st = false ->
  lookup s pre = None -> lookup name sec = None -> word w ->
  is_delim d = true -> Forall (fun a => is_delim a = false) k ->
  match k with a :: _ => is_ws a = false /\ Ascii.eqb a "#" = false /\ Ascii.eqb a ";" = false /\ a <> "["%char | [] => False end ->
  lower (rstrip k) = name -> rstrip k <> [] -> 
  read_line st (k ++ d :: repeat " "%char n ++ w) = Ok (at_option pre s sec name [w]).
Proof.
  intros st pre s sec k d n w name S I C B LS LN W D K K0 <- N. destruct k as [|a k]; [contradiction|]. destruct K0 as (A1 & A2 & A3 & A4).
  unfold read_line, is_comment.
  assert (E : lstrip ((a :: k) ++ d :: repeat " "%char n ++ w) = (a :: k) ++ d :: repeat " "%char n ++ w) by (simpl; rewrite A1; auto).
  assert (E2 : strip ((a :: k) ++ d :: repeat " "%char n ++ w) = (a :: k) ++ d :: repeat " "%char n ++ w).
  { unfold strip. rewrite E. replace ((a :: k) ++ d :: repeat " "%char n ++ w) with (((a :: k) ++ d :: repeat " "%char n) ++ w)
      by (rewrite <- app_assoc; auto). apply rstrip_word; auto. }
  rewrite E, E2. unfold indentation. rewrite E, Nat.sub_diag. cbn [app]. rewrite A2, A3. cbn [orb].
  assert (R : read_header st 0 (a :: k ++ d :: repeat " "%char n ++ w) = Ok (at_option pre s sec (lower (rstrip (a :: k))) [w])).
  { unfold read_header. assert (H : header_of (a :: k ++ d :: repeat " "%char n ++ w) = None).
    { clear - A4. unfold header_of. destruct a as [[] [] [] [] [] [] [] []]; congruence. }
    rewrite H, S. assert (O : forall k', Forall (fun a => is_delim a = false) k' -> option_of (k' ++ d :: repeat " "%char n ++ w) = Some (k', repeat " "%char n ++ w)).
    { clear - D. induction 1; simpl; [rewrite D; auto|]. rewrite H, IHForall. auto. }
    change (a :: k ++ d :: repeat " "%char n ++ w) with ((a :: k) ++ d :: repeat " "%char n ++ w). rewrite O by auto.
    rewrite C, lookup_last, LN by auto. rewrite strip_pad, add_last, B by auto.
    destruct (rstrip (a :: k)) eqn:Q; [congruence|]. unfold at_option. auto. }
  rewrite S, I. destruct (p_opt st) as [[|b o]|]; auto.
Qed.
