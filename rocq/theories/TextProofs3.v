(** Proofs about the grammar of parameter files: lines. *)
From Coq Require Import String List ZArith Ascii Bool Arith Lia.
From Verif Require Import Base TextModel TextSpec TextProofs TextProofs2 ParamsModel ParamsSpec ParamsProofs3.
Import ListNotations.
Open Scope nat_scope.

Lemma neq_eqb : forall a b, a <> b -> Ascii.eqb a b = false.
Proof. intros. apply Ascii.eqb_neq. auto. Qed.
Lemma rstrip_first : forall a t, is_ws a = false -> exists u, rstrip (a :: t) = a :: u.
Proof.
  intros a t A. change (a :: t) with ([] ++ a :: t). rewrite rstrip_keep by auto. unfold rstrip. cbn [rev app].
  enough (H : forall w, exists u, rev (lstrip (w ++ [a])) = a :: u) by (apply H).
  induction w as [|b w IH]; cbn [app lstrip]; [rewrite A; exists []; auto|]. destruct (is_ws b); auto.
  cbn [rev]. rewrite rev_app_distr. cbn [rev app]. eauto.
Qed.
Lemma strip_first : forall a t, is_ws a = false -> strip (a :: t) = rstrip (a :: t).
Proof. intros a t A. unfold strip. cbn [lstrip]. rewrite A. auto. Qed.
Lemma column0 : forall st a t, is_ws a = false -> a <> "#"%char -> a <> ";"%char ->
  read_line st (a :: t) = read_header st 0 (rstrip (a :: t)).
Proof.
  intros st a t A H1 H2. unfold read_line, is_comment. cbn [lstrip]. rewrite A, !neq_eqb by auto. cbn [orb].
  rewrite strip_first by auto. unfold indentation. cbn [lstrip]. rewrite A, Nat.sub_diag.
  destruct (rstrip_first a t A) as (u & ->). destruct (p_sect st); auto. destruct (p_opt st) as [[|b o]|]; auto.
Qed.

(** *** What is kept by further lines *)
Lemma lookup_replace : forall {A} k k' (v : A) l, lookup k (replace_key k' v l) =
  if list_eq_dec ascii_dec k k' then match lookup k l with Some _ => Some v | None => None end else lookup k l.
Proof.
  intros A k k' v. induction l as [|[x w] l IH]; cbn [replace_key lookup]; [destruct (list_eq_dec ascii_dec k k'); auto|].
  destruct (list_eq_dec ascii_dec k' x) as [->|N]; cbn [lookup].
  - destruct (list_eq_dec ascii_dec k x); auto.
  - rewrite IH. destruct (list_eq_dec ascii_dec k x) as [->|M]; [destruct (list_eq_dec ascii_dec x k'); [congruence|auto]|auto].
Qed.
Lemma lookup_app_some : forall {A} k (l r : list (str * A)), lookup k l <> None -> lookup k (l ++ r) = lookup k l.
Proof. intros A k. induction l as [|[x w] l IH]; intros r H; [exfalso; apply H; reflexivity|]. cbn [app lookup] in *. destruct (list_eq_dec ascii_dec k x); auto. Qed.
(** Option [o] is present in section [s]. *)
Definition has (c : config) (s o : str) : Prop := exists x, lookup s c = Some x /\ lookup o x <> None.
Lemma append_keeps : forall s o l c h, lookup h (append_line s o l c) <> None <-> lookup h c <> None.
Proof.
  intros. unfold append_line. destruct (lookup s c) as [s0|] eqn:E; [|tauto]. destruct (lookup o s0); [|tauto].
  rewrite lookup_replace. destruct (list_eq_dec ascii_dec h s); [|tauto]. subst. rewrite E. split; discriminate.
Qed.
Lemma append_has : forall s o l c h k, has c h k -> has (append_line s o l c) h k.
Proof.
  intros s o l c h k (x & X & K). unfold append_line. destruct (lookup s c) as [s0|] eqn:E; [|exists x; auto]. destruct (lookup o s0) eqn:O; [|exists x; auto].
  unfold has. rewrite lookup_replace. destruct (list_eq_dec ascii_dec h s) as [->|N]; [|exists x; auto]. rewrite E. eexists. split; eauto.
  rewrite lookup_replace. destruct (list_eq_dec ascii_dec k o) as [->|M]; [rewrite O; discriminate|]. congruence.
Qed.
Lemma add_keeps : forall s o v c h, lookup h (add_option s o v c) <> None <-> lookup h c <> None.
Proof.
  intros. unfold add_option. destruct (lookup s c) as [s0|] eqn:E; [|tauto].
  rewrite lookup_replace. destruct (list_eq_dec ascii_dec h s); [|tauto]. subst. rewrite E. split; discriminate.
Qed.
Lemma add_has : forall s o v c h k, has c h k -> has (add_option s o v c) h k.
Proof.
  intros s o v c h k (x & X & K). unfold add_option. destruct (lookup s c) as [s0|] eqn:E; [|exists x; auto].
  unfold has. rewrite lookup_replace. destruct (list_eq_dec ascii_dec h s) as [->|N]; [|exists x; auto]. rewrite E. eexists. split; eauto.
  assert (s0 = x) by congruence. subst. rewrite lookup_app_some; auto.
Qed.
Lemma add_puts : forall s o v c, lookup s c <> None -> has (add_option s o v c) s o.
Proof.
  intros s o v c H. unfold add_option. destruct (lookup s c) as [x|] eqn:E; [|congruence]. unfold has. rewrite lookup_replace, E.
  destruct (list_eq_dec ascii_dec s s); [|congruence]. eexists. split; eauto.
  clear. induction x as [|[y w] x IH]; cbn [app lookup]; [destruct (list_eq_dec ascii_dec o o); congruence|].
  destruct (list_eq_dec ascii_dec o y); [discriminate|auto].
Qed.

(** The parser's current section is one it has entered in the result. *)
Definition good (st : pstate) : Prop := forall s, p_sect st = Some s -> lookup s (p_conf st) <> None.
Definition kept (st st' : pstate) : Prop :=
  (good st -> good st') /\ (forall h, lookup h (p_conf st) <> None -> lookup h (p_conf st') <> None) /\
  (forall h o, has (p_conf st) h o -> has (p_conf st') h o) /\ (p_bad st = true -> p_bad st' = true).
Lemma kept_refl : forall st, kept st st. Proof. intros. repeat split; auto. Qed.
Lemma kept_trans : forall a b c, kept a b -> kept b c -> kept a c.
Proof. intros a b c (A1 & A2 & A3 & A4) (B1 & B2 & B3 & B4). repeat split; auto. Qed.
Lemma kept_append : forall st s o l, kept st (Build_pstate (p_sect st) (p_opt st) (p_indent st) (append_line s o l (p_conf st)) (p_bad st)).
Proof.
  intros. split; [|split; [|split]]; cbn [p_conf p_bad]; auto.
  - intros G x X. cbn [p_sect p_conf] in *. apply append_keeps. auto.
  - intros. apply append_keeps. auto.
  - intros. apply append_has. auto.
Qed.
Lemma kept_header : forall st i v st', read_header st i v = Ok st' -> kept st st'.
Proof.
  intros st i v st' H. unfold read_header in H. destruct (header_of v) as [h|].
  - destruct (lookup h (p_conf st)) eqn:E.
    + destruct (eqb_str h default_section); [|discriminate]. injection H as <-. split; [|split; [|split]]; cbn [p_conf p_bad]; auto.
      intros G x X. cbn [p_sect p_conf] in *. congruence.
    + injection H as <-. assert (K : forall x, lookup x (p_conf st) <> None -> lookup x (p_conf st ++ [(h, [])]) <> None).
      { intros x X. rewrite lookup_app_some; auto. }
      split; [|split; [|split]]; cbn [p_conf p_bad]; auto.
      * intros G x X. cbn [p_sect p_conf] in *. injection X as <-. rewrite lookup_last; [discriminate|auto].
      * intros x o (y & Y & O). exists y. split; auto. rewrite lookup_app_some; congruence.
  - destruct (p_sect st) as [s|] eqn:PS; [|discriminate]. destruct (option_of v) as [[n w]|].
    + set (x := match lookup s (p_conf st) with Some s => s | None => [] end) in *. destruct (lookup (lower (rstrip n)) x); [discriminate|].
      injection H as <-. split; [|split; [|split]]; cbn [p_conf p_bad]; auto.
      * intros G y Y. cbn [p_sect p_conf] in *. apply add_keeps. apply G. congruence.
      * intros. apply add_keeps. auto.
      * intros. apply add_has. auto.
      * intros ->. auto.
    + injection H as <-. split; [|split; [|split]]; cbn [p_conf p_bad]; auto. intros G y Y. cbn [p_sect p_conf] in *. apply G. congruence.
Qed.
Lemma line_cases : forall st l st', read_line st l = Ok st' ->
  st' = st \/ (exists s o x, st' = Build_pstate (p_sect st) (p_opt st) (p_indent st) (append_line s o x (p_conf st)) (p_bad st)) \/
  (exists a t i, strip l = a :: t /\ read_header st i (strip l) = Ok st').
Proof.
  intros st l st' H. unfold read_line in H. destruct (is_comment l); [injection H as <-; auto|]. destruct (strip l) as [|a t] eqn:S.
  - destruct (p_sect st) as [s|] eqn:PS; [|injection H as <-; auto]. destruct (p_opt st) as [[|b o]|] eqn:PO; injection H as <-; auto.
    right. left. exists s, (b :: o), []. reflexivity.
  - assert (R : forall i, read_header st i (a :: t) = Ok st' -> exists a0 t0 i0, a :: t = a0 :: t0 /\ read_header st i0 (a :: t) = Ok st')
      by (intros i X; exists a, t, i; auto).
    destruct (p_sect st) as [s|] eqn:PS; [|right; right; eauto]. destruct (p_opt st) as [[|b o]|] eqn:PO; try (right; right; eauto; fail).
    destruct (Nat.ltb _ _); [|right; right; eauto]. injection H as <-. right; left. exists s, (b :: o), (a :: t). reflexivity.
Qed.
Lemma kept_line : forall st l st', read_line st l = Ok st' -> kept st st'.
Proof.
  intros st l st' H. apply line_cases in H. destruct H as [->|[(s & o & x & ->)|(a & t & i & _ & H)]].
  - apply kept_refl.
  - apply kept_append.
  - eapply kept_header; eauto.
Qed.
Lemma kept_lines : forall ls st st', read_lines st ls = Ok st' -> kept st st'.
Proof.
  induction ls as [|l ls IH]; intros st st' H; cbn [read_lines] in H; [injection H as <-; apply kept_refl|].
  destruct (read_line st l) as [st1|] eqn:E; cbn [bind] in H; [|discriminate]. eapply kept_trans; [eapply kept_line; eauto|auto].
Qed.

Section P.
Context {F : Type} (cd : codec F).
Definition start : pstate := Build_pstate None None 0 [] false.
Lemma good_start : good start. Proof. intros s H. discriminate. Qed.
Lemma load_refused : forall q ls, Forall one_line ls ->
  (forall st, read_lines start ls = Ok st -> p_bad st = true) -> load F cd q (text_of ls) = (q, Err ConfigError).
Proof.
  intros q ls N H. destruct (parse_config (text_of ls)) as [c|e] eqn:P; [|apply (load_unparsable F cd q (text_of ls) e P)].
  exfalso. unfold parse_config in P. change text_of with unlines in P.
  rewrite file_lines_unlines in P by (eapply Forall_impl; [|exact N]; intros a [A B]; auto).
  change (Build_pstate None None 0 [] false) with start in P.
  destruct (read_lines start ls) as [st|] eqn:R; cbn [bind] in P; [|discriminate]. rewrite (H st eq_refl) in P. discriminate.
Qed.
Lemma load_same : forall q a l1 l2 b, Forall one_line (a ++ b) -> one_line l1 -> one_line l2 ->
  (forall st, read_line st l1 = read_line st l2) -> load F cd q (text_of (a ++ l1 :: b)) = load F cd q (text_of (a ++ l2 :: b)).
Proof.
  intros q a l1 l2 b N N1 N2 H. unfold load, parse_config. change text_of with unlines. apply Forall_app in N. destruct N as [NA NB].
  assert (K : forall l, one_line l -> file_lines (unlines (a ++ l :: b)) = a ++ l :: b).
  { intros l [L1 L2]. apply file_lines_unlines; apply Forall_app; split; try constructor; auto;
    (eapply Forall_impl; [|eassumption]; intros ? [? ?]; auto). }
  rewrite !K by auto. rewrite !read_lines_app. destruct (read_lines _ a); auto. cbn [bind read_lines]. rewrite H. auto.
Qed.

(** *** Headers *)
Lemma before_last : forall h, before_last_bracket (h ++ ["]"%char]) = Some h.
Proof. induction h as [|a h IH]; cbn [app before_last_bracket]; [reflexivity|]. rewrite IH. auto. Qed.
Lemma header_value : forall h, h <> [] -> header_of (header_line h) = Some h.
Proof. intros h H. unfold header_of, header_line. rewrite before_last. destruct h; congruence. Qed.
Lemma read_header_line : forall st h, read_line st (header_line h) = read_header st 0 (header_line h).
Proof.
  intros st h. unfold header_line at 1. rewrite column0 by (auto; discriminate). f_equal. unfold header_line.
  change ("["%char :: h ++ ["]"%char]) with (("["%char :: h) ++ ["]"%char]). apply rstrip_word. split; [discriminate|repeat constructor].
Qed.
Lemma repeated_section : forall q a h b c, h <> [] -> h <> L "DEFAULT" -> Forall one_line (a ++ header_line h :: b ++ header_line h :: c) ->
  load F cd q (text_of (a ++ header_line h :: b ++ header_line h :: c)) = (q, Err ConfigError).
Proof.
  intros q a h b c N D O. apply load_refused; auto. intros st. rewrite read_lines_app. destruct (read_lines start a) as [s1|] eqn:E1; [|discriminate].
  cbn [bind read_lines]. rewrite read_header_line. destruct (read_header s1 0 (header_line h)) as [s2|] eqn:E2; [|discriminate]. cbn [bind].
  rewrite read_lines_app. destruct (read_lines s2 b) as [s3|] eqn:E3; [|discriminate]. cbn [bind read_lines]. rewrite read_header_line.
  assert (K : lookup h (p_conf s2) <> None).
  { unfold read_header in E2. rewrite header_value in E2 by auto. destruct (lookup h (p_conf s1)) eqn:Q.
    - rewrite eqb_str_neq in E2 by auto. discriminate.
    - injection E2 as <-. cbn [p_conf]. rewrite lookup_last; [discriminate|auto]. }
  destruct (kept_lines _ _ _ E3) as (_ & K2 & _ & _). apply K2 in K.
  unfold read_header. rewrite header_value by auto. destruct (lookup h (p_conf s3)); [|congruence]. rewrite eqb_str_neq by auto. discriminate.
Qed.

(** *** Option lines *)
Lemma not_in_delim : forall n, ~ In "="%char n -> ~ In ":"%char n -> Forall (fun a => is_delim a = false) n.
Proof.
  intros n A B. apply Forall_forall. intros a I. unfold is_delim. rewrite !neq_eqb; auto; intros ->; auto.
Qed.
Lemma option_of_delim : forall n d v, Forall (fun a => is_delim a = false) n -> is_delim d = true -> option_of (n ++ d :: v) = Some (n, v).
Proof. intros n d v H D. induction H; cbn [app option_of]; [rewrite D; auto|]. rewrite H, IHForall. auto. Qed.
Lemma rstrip_idem : forall s, rstrip (rstrip s) = rstrip s.
Proof.
  intros s. unfold rstrip. rewrite rev_involutive. f_equal. induction (rev s) as [|a t IH]; cbn [lstrip]; auto.
  destruct (is_ws a) eqn:A; auto. cbn [lstrip]. rewrite A. auto.
Qed.
Lemma rstrip_cons : forall d v, is_ws d = false -> rstrip (d :: v) = d :: rstrip v.
Proof.
  intros d v D. unfold rstrip. cbn [rev]. induction (rev v) as [|a t IH]; cbn [app lstrip rev]; [rewrite D; auto|].
  destruct (is_ws a); auto. rewrite app_comm_cons, rev_app_distr. auto.
Qed.
Lemma strip_rstrip : forall v, strip (rstrip v) = strip v.
Proof.
  intros v. destruct (lstrip_split v) as (l & E & W). destruct (lstrip v) as [|a t] eqn:Q.
  - rewrite app_nil_r in E. unfold strip. rewrite Q. subst l. change (rstrip v) with (rstrip ([] ++ v)). rewrite rstrip_ws by auto. reflexivity.
  - assert (A : is_ws a = false).
    { clear - Q. revert Q. induction v as [|b v IH]; cbn [lstrip]; [discriminate|]. destruct (is_ws b) eqn:B; auto. intros H. injection H as <- <-. auto. }
    unfold strip. rewrite Q. rewrite E. rewrite rstrip_keep by auto. rewrite lstrip_ws by auto. rewrite rstrip_cons by auto. cbn [lstrip]. rewrite A.
    rewrite rstrip_cons by auto. rewrite rstrip_idem. auto.
Qed.
Lemma option_step : forall st l n v, option_line l n v -> exists w, read_line st l =
  read_header st 0 (n ++ w) /\ option_of (n ++ w) = Some (n, rstrip v) /\ header_of (n ++ w) = None /\ rstrip n <> [].
Proof.
  intros st l n v (d & -> & D & N1 & N2 & a & t & -> & A & A1 & A2 & A3). apply not_blank in A.
  assert (DD : is_delim d = true /\ is_ws d = false) by (destruct D as [->| ->]; auto). destruct DD as [DD DW].
  exists (d :: rstrip v). split; [|split; [|split]].
  - cbn [app]. rewrite column0 by auto. f_equal. change (a :: t ++ d :: v) with ((a :: t) ++ d :: v). rewrite rstrip_keep by auto.
    rewrite rstrip_cons by auto. auto.
  - apply option_of_delim; auto. apply not_in_delim; auto.
  - cbn [app]. unfold header_of. destruct a as [[] [] [] [] [] [] [] []]; congruence.
  - destruct (rstrip_first a t A) as (u & ->). discriminate.
Qed.
Lemma lower_letter : forall a b, same_letter a b -> lower1 a = lower1 b /\ is_ws a = is_ws b.
Proof.
  intros a b [->|(i & I & C)]; auto.
  assert (H : lower1 (ascii_of_nat (65 + i)) = lower1 (ascii_of_nat (97 + i)) /\ is_ws (ascii_of_nat (65 + i)) = is_ws (ascii_of_nat (97 + i))).
  { clear C. do 26 (destruct i as [|i]; [split; reflexivity|]). lia. }
  destruct C as [[-> ->]|[-> ->]]; auto. destruct H; auto.
Qed.
Lemma lower_lstrip : forall s, lower (lstrip s) = lstrip (lower s).
Proof.
  assert (W : forall a, is_ws (lower1 a) = is_ws a) by (intros [[] [] [] [] [] [] [] []]; reflexivity).
  induction s as [|a s IH]; auto. cbn [lstrip lower map]. rewrite W. destruct (is_ws a); auto.
Qed.
Lemma lower_rstrip : forall s, lower (rstrip s) = rstrip (lower s).
Proof. intros s. unfold rstrip. unfold lower at 1. rewrite map_rev. f_equal. change (map lower1) with lower. rewrite lower_lstrip. f_equal. unfold lower. rewrite map_rev. auto. Qed.
Lemma white_lower : forall s, white s -> white (lower s).
Proof.
  assert (W : forall a, is_ws (lower1 a) = is_ws a) by (intros [[] [] [] [] [] [] [] []]; reflexivity).
  intros s H. unfold white, lower. apply Forall_map. eapply Forall_impl; [|exact H]. cbn beta. intros a A. apply blank_iff. rewrite W. auto.
Qed.
Lemma same_name_lower : forall n m, same_name n m -> lower (rstrip n) = lower (rstrip m).
Proof.
  intros n m (n' & m' & s & t & -> & -> & S & T & H). rewrite !rstrip_ws by auto. rewrite !lower_rstrip. f_equal.
  induction H; auto. cbn [lower map]. destruct (lower_letter x y H) as [-> _]. f_equal. auto.
Qed.
Lemma strip_around : forall l x r, white l -> white r -> strip (l ++ x ++ r) = strip x.
Proof.
  intros l x r L R. unfold strip. rewrite lstrip_ws by auto. destruct (lstrip_split x) as (p & E & P). destruct (lstrip x) as [|a u] eqn:Q.
  - rewrite app_nil_r in E. subst p. rewrite lstrip_ws by auto. rewrite <- (app_nil_r r). rewrite lstrip_ws by auto. reflexivity.
  - rewrite E at 1. rewrite <- app_assoc. rewrite lstrip_ws by auto.
    assert (A : is_ws a = false).
    { clear - Q. revert Q. induction x as [|b v IH]; cbn [lstrip]; [discriminate|]. destruct (is_ws b) eqn:B; auto. intros H. injection H as <- <-. auto. }
    cbn [app lstrip]. rewrite A. change (a :: u ++ r) with ((a :: u) ++ r). rewrite rstrip_ws by auto. auto.
Qed.
Lemma same_value_strip : forall v w, same_value v w -> strip v = strip w.
Proof. intros v w (x & l & r & l' & r' & -> & -> & A & B & C & D). rewrite !strip_around by auto. auto. Qed.
Lemma same_option : forall q a l1 l2 b n m v w, option_line l1 n v -> option_line l2 m w -> same_name n m -> same_value v w ->
  Forall one_line (a ++ b) -> one_line l1 -> one_line l2 ->
  load F cd q (text_of (a ++ l1 :: b)) = load F cd q (text_of (a ++ l2 :: b)).
Proof.
  intros q a l1 l2 b n m v w O1 O2 N V A L1 L2. apply load_same; auto. intros st.
  destruct (option_step st l1 n v O1) as (x & -> & X1 & X2 & X3). destruct (option_step st l2 m w O2) as (y & -> & Y1 & Y2 & Y3).
  unfold read_header. rewrite X2, Y2, X1, Y1, (same_name_lower n m N), !strip_rstrip, (same_value_strip v w V).
  destruct (rstrip n); [congruence|]. destruct (rstrip m); [congruence|]. auto.
Qed.

Lemma header_bracket : forall s x, header_of s = Some x -> exists t, s = "["%char :: t.
Proof. intros [|a t] x H; [discriminate|]. exists t. unfold header_of in H. destruct a as [[] [] [] [] [] [] [] []]; try discriminate. auto. Qed.
Lemma strip_bracket : forall l t, strip l = "["%char :: t -> bracket_line l.
Proof. intros l t H. destruct (strip_split l) as (a & r & E & A & R). rewrite H in E. cbn [app] in E. exists a, (t ++ r). auto. Qed.
Lemma no_header_line : forall st l st', read_line st l = Ok st' -> ~ bracket_line l -> p_sect st' = p_sect st.
Proof.
  intros st l st' H B. apply line_cases in H. destruct H as [->|[(s & o & x & ->)|(a & t & i & S & H)]]; auto.
  unfold read_header in H. destruct (header_of (strip l)) as [h|] eqn:E.
  - exfalso. destruct (header_bracket _ _ E) as (u & U). apply B. eapply strip_bracket; eauto.
  - destruct (p_sect st); [|discriminate]. destruct (option_of (strip l)) as [[n w]|]; [destruct (lookup (lower (rstrip n)) _); [discriminate|]|]; injection H as <-; auto.
Qed.
Lemma no_header_lines : forall ls st st', read_lines st ls = Ok st' -> Forall (fun l => ~ bracket_line l) ls -> p_sect st' = p_sect st.
Proof.
  induction ls as [|l ls IH]; intros st st' H B; cbn [read_lines] in H; [injection H as <-; auto|]. inversion B; subst.
  destruct (read_line st l) as [st1|] eqn:E; cbn [bind] in H; [|discriminate]. rewrite (IH _ _ H) by auto. eapply no_header_line; eauto.
Qed.
Lemma repeated_option : forall q a l1 b l2 c n m v w, option_line l1 n v -> option_line l2 m w -> same_name n m ->
  Forall (fun l => ~ bracket_line l) b -> Forall one_line (a ++ l1 :: b ++ l2 :: c) ->
  load F cd q (text_of (a ++ l1 :: b ++ l2 :: c)) = (q, Err ConfigError).
Proof.
  intros q a l1 b l2 c n m v w O1 O2 N B O. apply load_refused; auto. intros st. rewrite read_lines_app.
  destruct (read_lines start a) as [s1|] eqn:E1; [|discriminate]. cbn [bind read_lines].
  destruct (option_step s1 l1 n v O1) as (x & X0 & X1 & X2 & X3). rewrite X0.
  destruct (read_header s1 0 (n ++ x)) as [s2|] eqn:E2; [|discriminate]. cbn [bind].
  assert (K : exists s, p_sect s2 = Some s /\ has (p_conf s2) s (lower (rstrip n))).
  { destruct (kept_lines _ _ _ E1) as (G & _). specialize (G good_start). unfold read_header in E2. rewrite X2, X1 in E2.
    destruct (p_sect s1) as [s|] eqn:PS; [|discriminate]. exists s. destruct (lookup (lower (rstrip n)) _); [discriminate|].
    injection E2 as <-. split; auto. cbn [p_conf]. apply add_puts. apply G. auto. }
  destruct K as (s & K1 & K2). rewrite read_lines_app. destruct (read_lines s2 b) as [s3|] eqn:E3; [|discriminate]. cbn [bind read_lines].
  pose proof (no_header_lines _ _ _ E3 B) as K3. destruct (kept_lines _ _ _ E3) as (_ & _ & K4 & _). apply K4 in K2. rewrite K1 in K3.
  destruct (option_step s3 l2 m w O2) as (y & Y0 & Y1 & Y2 & Y3). rewrite Y0. unfold read_header. rewrite Y2, K3, Y1.
  rewrite <- (same_name_lower n m N). destruct K2 as (z & Z1 & Z2). rewrite Z1. destruct (lookup (lower (rstrip n)) z); [|congruence]. discriminate.
Qed.

(** *** Lines outside sections, lines without meaning *)
Lemma idle_lines : forall ls, Forall (fun l => white l \/ comment_line l) ls -> read_lines start ls = Ok start.
Proof.
  induction 1 as [|l ls H _ IH]; auto. cbn [read_lines]. replace (read_line start l) with (Ok start); auto. symmetry.
  destruct H as [H|[(sp & c & t & -> & SP & C) _]].
  - unfold read_line. assert (E : lstrip l = []) by (rewrite <- (app_nil_r l); rewrite lstrip_ws by auto; auto).
    unfold is_comment, strip. rewrite E. auto.
  - apply step_comment. unfold is_comment. rewrite lstrip_ws by auto. destruct C as [->| ->]; reflexivity.
Qed.
Lemma text_before_header : forall q a l b, Forall (fun l => white l \/ comment_line l) a -> ~ white l -> ~ comment_line l -> ~ bracket_line l ->
  Forall one_line (a ++ l :: b) -> load F cd q (text_of (a ++ l :: b)) = (q, Err ConfigError).
Proof.
  intros q a l b A W C B O. apply load_refused; auto. intros st. rewrite read_lines_app, idle_lines by auto. cbn [bind read_lines].
  assert (OL : one_line l) by (apply Forall_app in O; destruct O as [_ O]; inversion O; auto).
  unfold read_line. destruct (is_comment l) eqn:IC.
  - exfalso. apply C. unfold is_comment in IC. destruct (lstrip_split l) as (p & E & P). destruct (lstrip l) as [|x u]; [discriminate|].
    split; [|exact OL]. exists p, x, u. split; auto. split; auto. apply orb_true_iff in IC. destruct IC as [IC|IC]; apply Ascii.eqb_eq in IC; auto.
  - destruct (strip l) as [|x u] eqn:S.
    + exfalso. apply W. destruct (strip_split l) as (p & r & E & P & R). rewrite S in E. rewrite E. cbn [app]. apply Forall_app. auto.
    + cbn [start p_sect p_opt]. unfold read_header. destruct (header_of (x :: u)) eqn:H; [|discriminate].
      exfalso. destruct (header_bracket _ _ H) as (t & T). rewrite T in S. apply B. eapply strip_bracket; eauto.
Qed.
Lemma option_of_none : forall s, Forall (fun a => is_delim a = false) s -> option_of s = None.
Proof. induction 1; auto. cbn [option_of]. rewrite H, IHForall. auto. Qed.
Lemma rstrip_forall : forall (P : ascii -> Prop) s, Forall P s -> Forall P (rstrip s).
Proof.
  intros P s H. unfold rstrip. apply Forall_rev. apply Forall_rev in H. induction (rev s) as [|a t IH]; auto. cbn [lstrip]. inversion H; subst. destruct (is_ws a); auto.
Qed.
Lemma no_bracket : forall t, Forall (fun a => a <> "]"%char) t -> before_last_bracket t = None.
Proof. induction 1; auto. cbn [before_last_bracket]. rewrite IHForall, neq_eqb by auto. auto. Qed.
Lemma junk : forall q a l b, junk_line l -> Forall one_line (a ++ l :: b) -> load F cd q (text_of (a ++ l :: b)) = (q, Err ConfigError).
Proof.
  intros q a l b ((x & t & -> & X & X1 & X2 & C) & D1 & D2) O. apply load_refused; auto. intros st. rewrite read_lines_app.
  destruct (read_lines start a) as [s1|] eqn:E1; [|discriminate]. cbn [bind read_lines]. rewrite column0 by auto.
  assert (H : header_of (rstrip (x :: t)) = None).
  { rewrite rstrip_cons by auto. destruct (ascii_dec x "["%char) as [->|N].
    - destruct C as [C|[C| ->]]; [congruence| |reflexivity]. unfold header_of. rewrite no_bracket; auto. apply rstrip_forall. apply Forall_forall. intros y Y ->. auto.
    - unfold header_of. destruct x as [[] [] [] [] [] [] [] []]; congruence. }
  unfold read_header. rewrite H. destruct (p_sect s1) as [s|]; [|discriminate].
  rewrite option_of_none by (apply rstrip_forall; apply not_in_delim; auto). cbn [bind]. intros K. destruct (kept_lines _ _ _ K) as (_ & _ & _ & K4). apply K4. auto.
Qed.
End P.

Lemma integers_in_file : forall F (cd : codec F) q t p, load F cd q t = (p, Ok tt) -> exists c, parse_config t = Ok c /\ forall k,
  (exists s, get c (section_name k) (L "spline degree") = Ok s /\ integer_text s (at_key (degree F p) k)) /\
  (exists s, get c (section_name k) (L "spline npoints") = Ok s /\ integer_text s (at_key (npoints F p) k)) /\
  (exists s, get c (section_name k) (L "number of control points") = Ok s /\ integer_text s (at_key (nbasis F p) k)).
Proof.
  intros F cd q t p H. destruct (load_entries F cd q t p H) as (c & C & _ & K). exists c. split; auto. intros k.
  destruct (K k) as (_ & _ & A & B & D). clear - A B D.
  assert (G : forall o n, getint c (section_name k) o = Ok n -> exists s, get c (section_name k) o = Ok s /\ integer_text s n).
  { intros o n E. unfold getint in E. destruct (get c (section_name k) o) as [s|]; [|discriminate]. exists s. split; auto.
    cbn [bind] in E. apply parse_int_grammar. destruct (parse_int s); congruence. }
  repeat split; apply G; auto.
Qed.
