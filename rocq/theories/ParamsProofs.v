(** Writing a parameter file and reading it back. *)
From Coq Require Import List ZArith Ascii String Bool Arith Lia.
From Verif Require Import Base TextModel TextSpec TextProofs ParamsModel ParamsSpec.
Import ListNotations.
Open Scope nat_scope.

(** ** Words *)
Lemma no_words : forall l, count_words false l = 0 <-> Forall blank l.
Proof.
  induction l as [|a l IH]; cbn [count_words]; [split; auto|]. destruct (is_ws a) eqn:A; rewrite ?IH; split; intros H.
  - constructor; [apply blank_iff|]; auto.
  - inversion H; auto.
  - discriminate.
  - inversion H; subst. apply not_blank in A. contradiction.
Qed.
Lemma rest_of_word : forall l, count_words true l = 0 <-> exists w v, l = w ++ v /\ Forall (fun a => ~ blank a) w /\ Forall blank v.
Proof.
  induction l as [|a l IH]; cbn [count_words].
  - split; auto. intros _. exists [], []. auto.
  - destruct (is_ws a) eqn:A.
    + rewrite no_words. split.
      * intros H. exists [], (a :: l). split; [reflexivity|]. split; [constructor|]. constructor; [apply blank_iff; auto|auto].
      * intros ([|b w] & v & E & W & V); cbn in E; subst; [inversion V; auto|]. injection E as <- ->. inversion W; subst. apply blank_iff in A. contradiction.
    + rewrite IH. split.
      * intros (w & v & -> & W & V). exists (a :: w), v. split; [reflexivity|]. split; [constructor; [apply not_blank|]; auto|auto].
      * intros ([|b w] & v & E & W & V); cbn in E; subst; [inversion V; subst; apply not_blank in A; contradiction|].
        injection E as <- ->. inversion W; subst. eauto.
Qed.
Lemma one_word_iff : forall l, one_word l <-> count_words false l <= 1.
Proof.
  unfold one_word. induction l as [|a l IH]; cbn [count_words].
  - split; auto. intros _. exists [], [], []. auto.
  - destruct (is_ws a) eqn:A.
    + rewrite <- IH. split.
      * intros ([|b u] & w & v & E & U & W & V); cbn [app] in E.
        -- destruct w as [|b w]; cbn [app] in E; [subst; inversion V; subst; exists l, [], []; rewrite !app_nil_r; auto|].
           injection E as <- ->. inversion W; subst. apply blank_iff in A. contradiction.
        -- injection E as <- ->. inversion U; subst. exists u, w, v. auto.
      * intros (u & w & v & -> & U & W & V). exists (a :: u), w, v. split; [reflexivity|]. split; [constructor; [apply blank_iff|]; auto|auto].
    + transitivity (count_words true l = 0); [|lia]. rewrite rest_of_word. split.
      * intros ([|b u] & w & v & E & U & W & V); cbn [app] in E.
        -- destruct w as [|b w]; cbn [app] in E; [subst; inversion V; subst; apply not_blank in A; contradiction|].
           injection E as <- ->. inversion W; subst. eauto.
        -- injection E as <- ->. inversion U; subst. apply not_blank in A. contradiction.
      * intros (w & v & -> & W & V). exists [], (a :: w), v. split; [reflexivity|]. split; [constructor|]. split; [constructor; [apply not_blank|]; auto|auto].
Qed.

Section P.
Variable F : Type.
Variable cd : codec F.

Lemma printable_word : forall x, printable cd x -> value_word (c_show cd x).
Proof.
  intros x (A & B & C & D & _). apply word_ws in B. split; [split; auto|]. destruct (c_show cd x) as [|a w]; auto.
  simpl in C, D. destruct (Ascii.eqb_spec a "#"); [subst; congruence|]. destruct (Ascii.eqb_spec a ";"); [subst; congruence|]. auto.
Qed.
Lemma value_word_word : forall w, value_word w -> word w.
Proof. intros w [H _]; auto. Qed.

(** ** The text as lines *)
Definition entry (k : str) (d : ascii) (n rest : nat) (ws : list str) : list str :=
  match ws with
  | [] => []
  | w :: ws' => (k ++ d :: repeat " "%char n ++ w) :: map (fun w => repeat " "%char (S rest) ++ w) ws'
  end.
Lemma show_rest : forall xs rest, show_lines F cd (S rest) (S rest) xs = unlines (map (fun w => repeat " "%char (S rest) ++ w) (map (c_show cd) xs)).
Proof.
  induction xs as [|x xs IH]; intros rest; auto. cbn [show_lines map]. rewrite unlines_cons, IH.
  rewrite <- app_assoc. auto.
Qed.
Lemma show_entry : forall k d n rest xs, xs <> [] ->
  k ++ d :: " "%char :: show_lines F cd n (S rest) xs = unlines (entry k d (S n) rest (map (c_show cd) xs)).
Proof.
  intros k d n rest xs N. destruct xs as [|x xs]; [congruence|]. cbn [show_lines map entry].
  rewrite unlines_cons, show_rest. rewrite <- app_assoc. cbn [repeat app]. rewrite <- app_assoc. auto.
Qed.
Definition int_entry (k : str) (n : Z) : list str := entry k ":"%char 1 0 [show_int n].
Lemma show_int_entry : forall k n t, k ++ ":"%char :: " "%char :: show_int n ++ nl :: t = unlines (int_entry k n) ++ t.
Proof. intros. unfold int_entry, entry. rewrite unlines_cons. cbn [repeat app map unlines List.concat].
  rewrite <- !app_assoc. reflexivity. Qed.

Definition dist_key (k : key) : str := L "Radial distribution of " ++ key_name k ++ L " ".
Definition dist_lines (k : key) (v : list F) : list str :=
  [] :: entry (dist_key k) "="%char (S (gap k)) 31 (map (c_show cd) v).
Definition section_lines (k : key) (d n m : Z) (v : list F) : list str :=
  [] :: [] :: (L "[" ++ section_name k ++ L "]") ::
  (L "# This section describes the B-Spline construction of the RADII -- " ++ upper_name k ++ L " curve.") ::
  [] :: L "# degree of the B-Spline curve" ::
  int_entry (L "spline degree") d ++
  [] :: L "# number of points to be evaluated with the B-Spline interpolation" ::
  int_entry (L "spline npoints") n ++
  [] :: L "# number of the control points" ::
  int_entry (L "number of control points") m ++
  [] :: L "# Y-deformations of the control points." ::
  entry (L "control points Y-deformations ") "="%char 2 32 (map (c_show cd) v).
Lemma show_dist : forall k v, v <> [] -> show_distribution F cd k v = unlines (dist_lines k v).
Proof.
  intros k v N. unfold show_distribution, dist_lines. rewrite unlines_cons. cbn [app]. f_equal.
  rewrite <- show_entry by auto. unfold dist_key. rewrite <- !app_assoc. reflexivity.
Qed.
Lemma show_sec : forall k d n m v, v <> [] -> (Z.of_nat (List.length v) = m)%Z -> show_section F cd k d n m v = unlines (section_lines k d n m v).
Proof.
  intros k d n m v N <-. unfold show_section, section_lines. rewrite Nat2Z.id, firstn_all. 
  rewrite !unlines_cons, !unlines_app, !unlines_cons, !unlines_app, !unlines_cons, !unlines_app, !unlines_cons. rewrite <- show_entry by auto.
  rewrite <- !show_int_entry. cbn [app]. rewrite <- !app_assoc. reflexivity.
Qed.

Definition text_lines (p : params F) : list str :=
  [] :: L "[Original parameters]" ::
  L "# This section describes the radial distributions of the parameters:" ::
  L "# ""chord lengths"", ""pitch"", ""rake"", ""skew angles"", and ""camber""" ::
  L "# at given radial sections." ::
  [] :: entry (L "Radial sections ") "="%char 2 18 (map (c_show cd) (or_empty F (radii F p))) ++
  flat_map (fun k => dist_lines k (or_empty F (at_key (parameters F p) k))) keys ++
  flat_map (fun k => section_lines k (at_key (degree F p) k) (at_key (npoints F p) k) (at_key (nbasis F p) k)
                          (at_key (deformations F p) k)) keys.

Definition full (p : params F) : Prop :=
  or_empty F (radii F p) <> [] /\ forall k, or_empty F (at_key (parameters F p) k) <> [] /\ at_key (deformations F p) k <> [] /\
    (Z.of_nat (List.length (at_key (deformations F p) k)) = at_key (nbasis F p) k)%Z.
Lemma show_text : forall p, full p -> show_params F cd p = unlines (text_lines p).
Proof.
  intros p [R K]. unfold show_params, text_lines. rewrite !unlines_cons, !unlines_app. rewrite <- show_entry by auto.
  cbn [map List.concat flat_map keys]. rewrite !unlines_app.
  rewrite !show_dist, !show_sec by (apply K). cbn [unlines map List.concat]. rewrite !app_nil_r.
  rewrite <- !app_assoc. reflexivity.
Qed.

(** ** Reading the lines *)
Lemma read_entry : forall st pre s sec k d n rest ws name, p_sect st = Some s -> p_indent st = 0 -> p_conf st = pre ++ [(s, sec)] -> p_bad st = false ->
  lookup s pre = None -> lookup name sec = None -> Forall value_word ws -> ws <> [] ->
  is_delim d = true -> Forall (fun a => is_delim a = false) k ->
  match k with a :: _ => is_ws a = false /\ Ascii.eqb a "#" = false /\ Ascii.eqb a ";" = false /\ a <> "["%char | [] => False end ->
  lower (rstrip k) = name -> rstrip k <> [] ->
  read_lines st (entry k d n rest ws) = Ok (at_option pre s sec name ws).
Proof.
  intros st pre s sec k d n rest ws name S I C B LS LN W WN D K K0 E N. destruct ws as [|w ws]; [congruence|].
  inversion W; subst. cbn [entry read_lines].
  rewrite (step_option st pre s sec k d n w (lower (rstrip k))) by (auto using value_word_word). cbn [bind].
  rewrite step_conts; auto. destruct (rstrip k); [congruence|]. discriminate.
Qed.

(** Lines of an entry following an earlier option of the same section. *)
Definition sec_next (pre : config) (s : str) (sec : section) (o : str) (vs : list str) : section := sec ++ [(o, vs ++ [[]])].
Lemma read_next_dist : forall k (pre : config) s (sec : section) o (vs : list str) v, lookup s pre = None -> lookup o sec = None -> o <> [] ->
  lookup (lower (rstrip (dist_key k))) (sec ++ [(o, vs ++ [[]])]) = None -> v <> [] -> Forall (printable cd) v ->
  read_lines (at_option pre s sec o vs) (dist_lines k v) =
  Ok (at_option pre s (sec ++ [(o, vs ++ [[]])]) (lower (rstrip (dist_key k))) (map (c_show cd) v)).
Proof.
  intros k pre s sec o vs v S O N LN V W. unfold dist_lines. cbn [read_lines]. rewrite step_blank by auto. cbn [bind].
  apply read_entry; auto.
  - apply Forall_map. eapply Forall_impl; [|exact W]. apply printable_word.
  - destruct v; [congruence|discriminate].
  - destruct k; repeat constructor.
  - destruct k; simpl; repeat split; discriminate.
  - destruct k; discriminate.
Qed.
Lemma int_value_word : forall n, value_word (show_int n).
Proof.
  intros n. split; [apply show_int_word|]. unfold show_int. destruct (n <? 0)%Z eqn:E; auto.
  apply Z.ltb_ge in E. destruct (show_nat_spec n E) as (_ & _ & D). destruct (show_nat n) as [|a t]; auto.
  inversion D; subst. destruct (Ascii.eqb_spec a "#"); [subst; exfalso; apply H1; auto|].
  destruct (Ascii.eqb_spec a ";"); [subst; exfalso; apply H1; auto|]. auto.
Qed.
Definition section_entries (d n m : Z) (v : list F) : section :=
  [(L "spline degree", [show_int d; []]); (L "spline npoints", [show_int n; []]);
   (L "number of control points", [show_int m; []])].
Definition deform_name : str := L "control points y-deformations".
Lemma read_section_lines : forall k (pre : config) s (sec : section) o (vs : list str) d n m v, lookup s pre = None -> lookup o sec = None -> o <> [] ->
  lookup (section_name k) (pre ++ [(s, sec ++ [(o, vs ++ [[]] ++ [[]])])]) = None -> v <> [] -> Forall (printable cd) v ->
  read_lines (at_option pre s sec o vs) (section_lines k d n m v) =
  Ok (at_option (pre ++ [(s, sec ++ [(o, vs ++ [[]] ++ [[]])])]) (section_name k) (section_entries d n m v) deform_name (map (c_show cd) v)).
Proof.
  intros k pre s sec o vs d n m v S O N LS V W. unfold section_lines. cbn [read_lines].
  rewrite step_blank by auto. cbn [bind]. rewrite step_blank by auto. cbn [bind]. rewrite <- app_assoc.
  set (pre' := pre ++ [(s, sec ++ [(o, vs ++ [[]] ++ [[]])])] : config) in *. change (lookup (section_name k) pre' = None) in LS.
  assert (H : read_line (at_option pre s sec o (vs ++ [[]] ++ [[]])) (L "[" ++ section_name k ++ L "]") =
    Ok (at_section pre' (section_name k) [])).
  { unfold at_option. fold pre'. clearbody pre'. unfold read_line.
    assert (A1 : is_comment (L "[" ++ section_name k ++ L "]") = false) by (destruct k; reflexivity).
    assert (A2 : strip (L "[" ++ section_name k ++ L "]") = L "[" ++ section_name k ++ L "]") by (destruct k; reflexivity).
    assert (A3 : indentation (L "[" ++ section_name k ++ L "]") = 0) by (destruct k; reflexivity).
    assert (A4 : header_of (L "[" ++ section_name k ++ L "]") = Some (section_name k)) by (destruct k; reflexivity).
    rewrite A1, A2, A3. cbn [p_sect p_opt p_indent p_conf p_bad].
    assert (R : read_header (Build_pstate (Some s) (Some o) 0 pre' false) 0 (L "[" ++ section_name k ++ L "]") =
      Ok (at_section pre' (section_name k) [])).
    { unfold read_header. rewrite A4. cbn [p_sect p_opt p_indent p_conf p_bad]. rewrite LS. auto. }
    rewrite R. destruct o; [congruence|]. auto. }
  rewrite H. cbn [bind]. rewrite step_comment by (destruct k; reflexivity). cbn [bind].
  rewrite step_blank_section. cbn [bind]. rewrite step_comment by reflexivity. cbn [bind].
  rewrite read_lines_app. unfold int_entry at 1.
  rewrite (read_entry _ pre' (section_name k) [] _ _ _ _ _ (L "spline degree"));
    try reflexivity; auto; try (constructor; [apply int_value_word|constructor]); try (repeat constructor; fail); try discriminate.
  2:{ simpl. repeat split; discriminate. }
  cbn [bind read_lines]. rewrite step_blank; auto; try discriminate. cbn [bind]. rewrite step_comment by reflexivity. cbn [bind].
  rewrite read_lines_app. unfold int_entry at 1.
  rewrite (read_entry _ pre' (section_name k) ([] ++ [(L "spline degree", [show_int d] ++ [[]])]) _ _ _ _ _ (L "spline npoints"));
    try reflexivity; auto; try (constructor; [apply int_value_word|constructor]); try (repeat constructor; fail); try discriminate.
  2:{ simpl. repeat split; discriminate. }
  cbn [bind read_lines]. rewrite step_blank; auto; try discriminate. cbn [bind]. rewrite step_comment by reflexivity. cbn [bind].
  rewrite read_lines_app. unfold int_entry at 1.
  rewrite (read_entry _ pre' (section_name k) (([] ++ [(L "spline degree", [show_int d] ++ [[]])]) ++ [(L "spline npoints", [show_int n] ++ [[]])])
     _ _ _ _ _ (L "number of control points"));
    try reflexivity; auto; try (constructor; [apply int_value_word|constructor]); try (repeat constructor; fail); try discriminate.
  2:{ simpl. repeat split; discriminate. }
  cbn [bind read_lines]. rewrite step_blank; auto; try discriminate. cbn [bind]. rewrite step_comment by reflexivity. cbn [bind].
  apply read_entry; try reflexivity; auto; try (repeat constructor; fail); try discriminate.
  - apply Forall_map. eapply Forall_impl; [|exact W]. apply printable_word.
  - destruct v; [congruence|discriminate].
  - simpl. repeat split; discriminate.
Qed.

(** ** The configuration read from a written file *)
Definition words_of (v : list F) : list str := map (c_show cd) v.
Definition dist_name (k : key) : str := lower (rstrip (dist_key k)).
Definition dist_entry (p : params F) (n : nat) (k : key) : str * list str :=
  (dist_name k, words_of (or_empty F (at_key (parameters F p) k)) ++ repeat [] n).
Definition sec_entry (p : params F) (n : nat) (k : key) : str * section :=
  (section_name k, section_entries (at_key (degree F p) k) (at_key (npoints F p) k) (at_key (nbasis F p) k) (at_key (deformations F p) k) ++
    [(deform_name, words_of (at_key (deformations F p) k) ++ repeat [] n)]).
Definition conf_of (p : params F) : config :=
  [(L "Original parameters", (L "radial sections", words_of (or_empty F (radii F p)) ++ [[]]) ::
     [dist_entry p 1 Chord; dist_entry p 1 Pitch; dist_entry p 1 Rake; dist_entry p 1 Skew; dist_entry p 2 Camber]);
   sec_entry p 2 Chord; sec_entry p 2 Pitch; sec_entry p 2 Rake; sec_entry p 2 Skew; sec_entry p 0 Camber].

Lemma read_text : forall p, full p -> all_printable cd p ->
  exists st, read_lines (Build_pstate None None 0 [] false) (text_lines p) = Ok st /\ p_bad st = false /\ p_conf st = conf_of p.
Proof.
  intros p [R K] [PR PK]. unfold text_lines.
  change (read_lines (Build_pstate None None 0 [] false)) with (read_lines (Build_pstate None None 0 [] false)).
  eexists. split.
  { cbn [read_lines].
    change (read_line (Build_pstate None None 0 [] false) []) with (@Ok pstate (Build_pstate None None 0 [] false)). cbn [bind].
    change (read_line (Build_pstate None None 0 [] false) (L "[Original parameters]")) with (Ok (at_section [] (L "Original parameters") [])).
    cbn [bind]. do 3 (rewrite step_comment by reflexivity; cbn [bind]). rewrite step_blank_section. cbn [bind].
    rewrite read_lines_app.
    rewrite (read_entry _ [] (L "Original parameters") [] _ _ _ _ _ (L "radial sections"));
      try reflexivity; try (repeat constructor; fail); try discriminate.
    4:{ simpl. repeat split; discriminate. }
    3:{ destruct (or_empty F (radii F p)); [congruence|discriminate]. }
    2:{ apply Forall_map. eapply Forall_impl; [|exact PR]. apply printable_word. }
    cbn [bind]. rewrite read_lines_app. cbn [flat_map keys].
    do 4 (rewrite read_lines_app; rewrite read_next_dist; try reflexivity; try discriminate; try (apply K); try (apply PK); cbn [bind]).
    rewrite app_nil_r. rewrite read_next_dist; try reflexivity; try discriminate; try (apply K); try (apply PK). cbn [bind].
    do 4 (rewrite read_lines_app; rewrite read_section_lines; try reflexivity; try discriminate; try (apply K); try (apply PK); cbn [bind]).
    rewrite app_nil_r. rewrite read_section_lines; try reflexivity; try discriminate; try (apply K); try (apply PK). }
  split; [reflexivity|]. unfold at_option. cbn [p_conf]. unfold conf_of, sec_entry, dist_entry. cbn [repeat]. rewrite (app_nil_r (words_of (at_key (deformations F p) Camber))). reflexivity.
Qed.

Lemma text_clean : forall p, all_printable cd p -> Forall no_nl (text_lines p) /\ Forall no_cr (text_lines p).
Proof.
  intros p [PR PK].
  assert (C : forall s : str, forallb (fun a => negb (is_ws a) || Ascii.eqb a " ")%bool s = true -> no_nl s /\ no_cr s).
  { intros s H. rewrite forallb_forall in H. split; intro I; specialize (H _ I); discriminate. }
  assert (A : forall s t, no_nl s /\ no_cr s -> no_nl t /\ no_cr t -> no_nl (s ++ t) /\ no_cr (s ++ t)).
  { intros s t [A1 A2] [B1 B2]. split; intro I; apply in_app_iff in I; destruct I; [apply A1|apply B1|apply A2|apply B2]; auto. }
  assert (SP : forall n, no_nl (repeat " "%char n) /\ no_cr (repeat " "%char n)).
  { intros n. split; intro I; apply repeat_spec in I; discriminate. }
  assert (E : forall k d n rest ws, no_nl k /\ no_cr k -> no_nl [d] /\ no_cr [d] -> Forall word ws -> Forall (fun l => no_nl l /\ no_cr l) (entry k d n rest ws)).
  { intros k d n rest ws Hk Hd Hw. destruct ws as [|w ws]; constructor; inversion Hw; subst.
    - apply A; auto. apply (A [d]); auto. apply A; auto. split; [apply word_no_nl|apply word_no_cr]; auto.
    - apply Forall_map. eapply Forall_impl; [|exact H2]. intros a Ha. apply A; auto. split; [apply word_no_nl|apply word_no_cr]; auto. }
  assert (W : forall v, Forall (printable cd) v -> Forall word (map (c_show cd) v)).
  { intros v H. apply Forall_map. eapply Forall_impl; [|exact H]. intros; apply value_word_word, printable_word; auto. }
  assert (I : forall k n, no_nl k /\ no_cr k -> Forall (fun l => no_nl l /\ no_cr l) (int_entry k n)).
  { intros. apply E; auto. repeat constructor; apply show_int_word. }
  assert (Q : Forall (fun l => no_nl l /\ no_cr l) (text_lines p)).
  { unfold text_lines. repeat (constructor; [apply C; reflexivity|]). apply Forall_app. split; [|apply Forall_app; split].
    - apply E; try (apply C; reflexivity). auto.
    - apply Forall_flat_map, Forall_forall. intros k _. constructor; [apply C; reflexivity|].
      apply E; try (apply C; destruct k; reflexivity). apply W, PK.
    - apply Forall_flat_map, Forall_forall. intros k _. unfold section_lines.
      repeat (constructor; [apply C; destruct k; reflexivity|]).
      do 3 (apply Forall_app; split; [apply I, C; reflexivity|]; repeat (constructor; [apply C; destruct k; reflexivity|])).
      apply E; try (apply C; reflexivity). apply W, PK. }
  split; eapply Forall_impl; try exact Q; simpl; intros a H; apply H.
Qed.

Lemma parse_written : forall p, full p -> all_printable cd p -> parse_config (show_params F cd p) = Ok (conf_of p).
Proof.
  intros p FU PR. unfold parse_config. rewrite show_text by auto. destruct (text_clean p PR) as [A B].
  rewrite file_lines_unlines by auto. destruct (read_text p FU PR) as (st & E & B1 & B2). rewrite E. cbn [bind]. rewrite B1, B2. auto.
Qed.

Lemma read_words : forall v, Forall (printable cd) v -> read_array F cd (words_of v) = (v, Ok tt).
Proof.
  induction 1; auto. cbn [words_of map read_array]. pose proof (printable_word _ H) as W.
  rewrite count_word by (apply value_word_word; auto). destruct H as (_ & _ & _ & _ & R). rewrite R.
  unfold words_of in IHForall. cbn [Nat.ltb Nat.leb]. rewrite IHForall. auto.
Qed.
Lemma get_words : forall v n, Forall (printable cd) v -> rstrip (join_nl (words_of v ++ repeat [] n)) = join_nl (words_of v).
Proof.
  intros. apply join_pad. apply Forall_map. eapply Forall_impl; [|exact H]. intros; apply value_word_word, printable_word; auto.
Qed.
Lemma split_words : forall v, v <> [] -> Forall (printable cd) v -> split_nl (join_nl (words_of v)) = words_of v.
Proof.
  intros v N H. apply split_join; [destruct v; [congruence|discriminate]|]. apply Forall_map. eapply Forall_impl; [|exact H].
  intros; apply word_no_nl, value_word_word, printable_word; auto.
Qed.
Lemma get_int_line : forall n, parse_int (rstrip (join_nl [show_int n; []])) = Some n.
Proof.
  intros n. change [show_int n; []] with ([show_int n] ++ repeat [] 1). rewrite join_pad by (repeat constructor; apply show_int_word).
  apply parse_show_int.
Qed.
End P.
