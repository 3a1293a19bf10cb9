(** Reading back an exported PPG file. *)
From Coq Require Import Reals List ZArith Ascii String Lra Lia.
From Verif Require Import Base TextModel TextProofs FormatModel FormatSpec FormatProofs ProfileModel ProfileProofs
  RbfProofs BladeModel BladeSpec BladeProofs BladeProofs2 PpgModel PpgSpec.
From Verif Require ParamsModel.
Import ListNotations.
Open Scope R_scope.

(** ** Words of a line *)
Lemma words_from_word : forall w acc t, Forall (fun a => is_ws a = false) w -> words_from acc (w ++ t) = words_from (rev w ++ acc) t.
Proof.
  induction w as [|a w IH]; intros acc t F; [reflexivity|]. inversion F; subst. cbn [app words_from rev]. rewrite H1.
  rewrite IH by auto. rewrite <- app_assoc. reflexivity.
Qed.
Lemma words_blank : forall a t, is_ws a = true -> words (a :: t) = words t.
Proof. intros. unfold words. cbn. rewrite H. reflexivity. Qed.
Lemma words_cons : forall w a t, word w -> is_ws a = true -> words (w ++ a :: t) = w :: words t.
Proof.
  intros w a t [N F] W. unfold words. rewrite words_from_word, app_nil_r by auto. cbn [words_from]. rewrite W.
  destruct (rev w) eqn:E; [apply (f_equal (@rev _)) in E; rewrite rev_involutive in E; cbn in E; congruence|].
  rewrite <- E, rev_involutive. reflexivity.
Qed.
Lemma words_one : forall w, word w -> words w = [w].
Proof.
  intros w [N F]. unfold words. rewrite <- (app_nil_r w) at 1. rewrite words_from_word, app_nil_r by auto. cbn [words_from].
  destruct (rev w) eqn:E; [apply (f_equal (@rev _)) in E; rewrite rev_involutive in E; cbn in E; congruence|].
  rewrite <- E, rev_involutive. reflexivity.
Qed.
(** Words, each after a space. *)
Definition spaced (l : list str) : str := List.concat (map (fun w => " "%char :: w) l).
Lemma words_spaced : forall l t, Forall word l -> (t = [] \/ t = [" "%char]) -> words (spaced l ++ t) = l.
Proof.
  induction l as [|w l IH]; intros t F T.
  - destruct T as [-> | ->]; reflexivity.
  - inversion F; subst. cbn [spaced map List.concat app]. change (List.concat (map (fun w0 => " "%char :: w0) l)) with (spaced l).
    rewrite words_blank by reflexivity. rewrite <- app_assoc.
    specialize (IH t H2 T). destruct l as [|v l].
    + cbn [spaced map List.concat app] in *. destruct T as [-> | ->].
      * rewrite app_nil_r. apply words_one; auto.
      * rewrite words_cons by auto. reflexivity.
    + cbn [spaced map List.concat app] in *. rewrite words_cons by auto. f_equal. rewrite words_blank in IH by reflexivity. exact IH.
Qed.

Lemma all_some_read : forall l, exists vs, all_some (map read_number (map sci l)) = Some vs /\ Forall2 nine_digits l vs.
Proof.
  induction l as [|x l (vs & E & F)]; [exists []; split; [reflexivity|constructor]|].
  destruct (sci_read x) as (v & R & N). exists (v :: vs). cbn [map all_some]. rewrite R, E. split; [reflexivity|constructor; auto].
Qed.
Lemma sci_words : forall l, Forall word (map sci l).
Proof. induction l; constructor; auto using sci_word. Qed.
Lemma numbers_spaced : forall l t, (t = [] \/ t = [" "%char]) ->
  exists vs, numbers (spaced (map sci l) ++ t) = Some vs /\ Forall2 nine_digits l vs.
Proof.
  intros l t T. unfold numbers. rewrite words_spaced by auto using sci_words. apply all_some_read.
Qed.
Lemma numbers_pair : forall a b, exists vs, numbers (sci a ++ " "%char :: sci b) = Some vs /\ Forall2 nine_digits [a; b] vs.
Proof.
  intros a b. unfold numbers. rewrite words_cons by (auto using sci_word). rewrite words_one by apply sci_word.
  apply (all_some_read [a; b]).
Qed.
Lemma number_count : forall r n, exists v, number_and_count (sci r ++ L "  " ++ show_int n) = Some (v, n) /\ nine_digits r v.
Proof.
  intros r n. destruct (sci_read r) as (v & R & N). exists v. split; auto. unfold number_and_count.
  cbn [L list_ascii_of_string app]. rewrite words_cons by (auto using sci_word). rewrite words_blank by reflexivity.
  rewrite words_one by apply show_int_word. rewrite R, parse_show_int. reflexivity.
Qed.

Lemma after_app : forall p s, after p (p ++ s) = Some s.
Proof. induction p as [|a p IH]; intros s; cbn; auto. destruct (ascii_dec a a); [apply IH|congruence]. Qed.
Lemma count_after_ok : forall key n, count_after key (key ++ show_int n) = Some n.
Proof. intros. unfold count_after. rewrite after_app, parse_show_int. reflexivity. Qed.

(** ** No line ends inside lines *)
Lemma no_nl_app : forall a b, no_nl a -> no_nl b -> no_nl (a ++ b).
Proof. intros a b A B I. apply in_app_iff in I. destruct I; auto. Qed.
Lemma no_nl_cons : forall a b, a <> nl -> no_nl b -> no_nl (a :: b).
Proof. intros a b A B [I|I]; auto. Qed.
Lemma no_nl_L : forall s, forallb (fun a => negb (Ascii.eqb a nl)) (L s) = true -> no_nl (L s).
Proof.
  intros s H I. rewrite forallb_forall in H. specialize (H _ I). rewrite Ascii.eqb_refl in H. discriminate.
Qed.
Lemma no_nl_spaced : forall l, Forall word l -> no_nl (spaced l).
Proof.
  induction l as [|w l IH]; intros F; [intros []|]. inversion F; subst. cbn [spaced map List.concat].
  change (List.concat (map (fun w0 => " "%char :: w0) l)) with (spaced l). apply no_nl_app; auto.
  apply no_nl_cons; [discriminate|]. apply word_no_nl; auto.
Qed.
Lemma join_unlines : forall a b, b <> [] -> join_nl (a ++ b) = unlines a ++ join_nl b.
Proof.
  induction a as [|l a IH]; intros b N; [reflexivity|]. rewrite unlines_cons, <- app_assoc. cbn [app]. rewrite <- IH by auto.
  destruct (a ++ b) eqn:E; [apply app_eq_nil in E; destruct E; congruence|]. reflexivity.
Qed.

(** ** The lines of the file *)
Definition values_line (l : list R) : str := spaced (map sci l) ++ [" "%char].
Definition profile_lines (rp : R * profile) : list str :=
  let '(r, p) := rp in
  [sci r ++ L "  " ++ show_int (Z.of_nat (List.length (xup p))); values_line (xup p); values_line (yup p); values_line (ydown p)].
Definition offset_line (o : R * R) : str := sci (fst o) ++ " "%char :: sci (snd o).

Lemma ppg_values_line : forall l, ppg_values l = values_line l ++ [nl].
Proof.
  intros l. unfold ppg_values, values_line. rewrite <- app_assoc. cbn [app]. f_equal.
  unfold spaced. rewrite map_map. reflexivity.
Qed.
Lemma ppg_offsets_lines : forall l, ppg_offsets l = join_nl (map offset_line l).
Proof.
  induction l as [|o l IH]; [reflexivity|]. cbn [ppg_offsets map]. destruct l as [|o' l]; [reflexivity|].
  rewrite IH.
  change (join_nl (offset_line o :: map offset_line (o' :: l))) with (offset_line o ++ nl :: join_nl (map offset_line (o' :: l))).
  unfold offset_line at 2. rewrite <- app_assoc. reflexivity.
Qed.
Lemma ppg_row_line : forall b tf i s, ppg_row b tf i = Ok s -> exists r c k p sk m,
  nth_error (radii b) i = Some r /\ nth_error (chords b) i = Some c /\ nth_error (skew b) i = Some sk /\
  nth_error (rake b) i = Some k /\ nth_error (pitch b) i = Some p /\ nth_error tf i = Some m /\
  s = spaced (map sci [r; c; sk; k; p; fst m; snd m]) ++ [nl].
Proof.
  intros b tf i s H. unfold ppg_row, item in H.
  destruct (nth_error (radii b) i) as [r|]; [|discriminate]. destruct (nth_error (chords b) i) as [c|]; [|discriminate].
  destruct (nth_error (skew b) i) as [sk|]; [|discriminate]. destruct (nth_error (rake b) i) as [k|]; [|discriminate].
  destruct (nth_error (pitch b) i) as [p|]; [|discriminate]. destruct (nth_error tf i) as [m|]; [|discriminate].
  injection H as <-. exists r, c, k, p, sk, m. repeat (split; [reflexivity|]).
  unfold spaced. cbn [map List.concat app]. repeat rewrite <- app_assoc. cbn [app]. repeat (rewrite <- app_assoc; cbn [app]). reflexivity.
Qed.
Lemma ppg_profile_lines : forall st b i s, ppg_profile st b i = Ok s -> exists r k,
  nth_error (radii b) i = Some r /\ nth_error (sections b) i = Some k /\ s = unlines (profile_lines (r, st k)).
Proof.
  intros st b i s H. unfold ppg_profile, item in H.
  destruct (nth_error (radii b) i) as [r|]; [|discriminate]. destruct (nth_error (sections b) i) as [k|]; [|discriminate].
  injection H as <-. exists r, k. repeat (split; [reflexivity|]). unfold profile_lines, unlines. cbn [map List.concat].
  rewrite !ppg_values_line. repeat rewrite <- app_assoc. cbn [app]. repeat rewrite <- app_assoc; cbn [app]; repeat rewrite <- app_assoc; cbn [app]; try rewrite app_nil_r; reflexivity.
Qed.

Lemma mapM_forall2 : forall {A B} (f : A -> res B) l l', mapM f l = Ok l' -> Forall2 (fun a b => f a = Ok b) l l'.
Proof.
  intros A B f. induction l as [|a l IH]; intros l' H; cbn in H.
  - injection H as <-. constructor.
  - destruct (f a) as [b|] eqn:E; [|discriminate]. cbn in H. destruct (mapM f l) as [r|] eqn:E'; [|discriminate].
    injection H as <-. constructor; auto.
Qed.
Lemma forall2_length : forall {A B} (P : A -> B -> Prop) l l', Forall2 P l l' -> List.length l = List.length l'.
Proof. induction 1; cbn; auto. Qed.
Lemma forall2_choice : forall {A B C} (P : A -> C -> Prop) (Q : A -> B -> Prop) (g : C -> B),
  (forall a b, Q a b -> exists c, P a c /\ b = g c) -> forall l l', Forall2 Q l l' ->
  exists cs, Forall2 P l cs /\ l' = map g cs.
Proof.
  intros A B C P Q g H l l' F. induction F as [|a b l l' Hab F (cs & F' & E)].
  - exists []. split; [constructor|reflexivity].
  - destruct (H a b Hab) as (c & Hc & ->). exists (c :: cs). split; [constructor; auto|cbn; f_equal; auto].
Qed.

(** What a row, and a profile, of the file contain. *)
Definition row_ok (b : blade) (tf : list (R * R)) (i : nat) (l : list R) : Prop := exists r c k p sk m,
  nth_error (radii b) i = Some r /\ nth_error (chords b) i = Some c /\ nth_error (skew b) i = Some sk /\
  nth_error (rake b) i = Some k /\ nth_error (pitch b) i = Some p /\ nth_error tf i = Some m /\
  l = [r; c; sk; k; p; fst m; snd m].
Definition prof_ok (st : store) (b : blade) (i : nat) (rp : R * profile) : Prop := exists k,
  nth_error (radii b) i = Some (fst rp) /\ nth_error (sections b) i = Some k /\ snd rp = st k.

Lemma firstn_map_app : forall {A B} (f : A -> B) l t, firstn (List.length l) (map f l ++ t) = map f l.
Proof. induction l; intros; cbn; [reflexivity|f_equal; auto]. Qed.
Lemma skipn_map_app : forall {A B} (f : A -> B) l t, skipn (List.length l) (map f l ++ t) = t.
Proof. induction l; intros; cbn; auto. Qed.

Section Text.
Variable float_str : R -> str.
Hypothesis float_str_line : forall x, no_nl (float_str x).

Lemma num_str_line : forall x, no_nl (num_str float_str x).
Proof. intros [z|x]; cbn; [apply word_no_nl, show_int_word|apply float_str_line]. Qed.

Definition header_lines (D_prop D_hub n_blades : pynum) (n : nat) : list str :=
  let count := show_int (Z.of_nat n) in
  [L "propeller id       = SVA"; L "propeller diameter = " ++ num_str float_str D_prop; L "hub diameter       = " ++ num_str float_str D_hub;
   L "number of blades   = " ++ num_str float_str n_blades; L "'Elica PPTC workshop'"; L "number of radial sections         = " ++ count;
   L "number of radial sections         = " ++ count; L "number of sectional profiles      = " ++ count;
   L "description of sectional profiles = BNF";
   L "            r/R            c/D      skew[deg]         rake/D            P/D            t/C            f/C"].
Definition hub_line : str := L "number of Hub offsets = " ++ show_int (Z.of_nat (List.length hub_offsets)).

Lemma ppg_header_lines : forall D H nb n, ppg_header float_str D H nb n = unlines (header_lines D H nb n).
Proof.
  intros. unfold ppg_header, header_lines. cbv zeta. rewrite !unlines_cons. change (unlines []) with (@nil ascii).
  repeat rewrite <- app_assoc. reflexivity.
Qed.

Definition all_lines D H nb (rows : list (list R)) (profs : list (R * profile)) : list str :=
  header_lines D H nb (List.length rows) ++ map (fun l => spaced (map sci l)) rows ++ List.concat (map profile_lines profs) ++ [hub_line] ++ map offset_line hub_offsets.

Lemma unlines_concat : forall l, unlines (List.concat (map profile_lines l)) = List.concat (map (fun rp => unlines (profile_lines rp)) l).
Proof. induction l; [reflexivity|]. cbn [map List.concat]. rewrite unlines_app, IHl. reflexivity. Qed.

Lemma ppg_text_lines : forall D H nb st b tf text, ppg_text float_str D H nb st b tf = Ok text ->
  exists rows profs, Forall2 (row_ok b tf) (seq 0 (List.length (sections b))) rows /\
    Forall2 (prof_ok st b) (seq 0 (List.length (sections b))) profs /\ text = join_nl (all_lines D H nb rows profs).
Proof.
  intros D H nb st b tf text T. unfold ppg_text in T.
  destruct (mapM (ppg_row b tf) _) as [rs|] eqn:ER; [|discriminate]. cbn [bind] in T.
  destruct (mapM (ppg_profile st b) _) as [ps|] eqn:EP; [|discriminate]. cbn [bind] in T.
  apply (f_equal (fun r => match r with Ok t => t | Err _ => [] end)) in T. cbv beta iota in T. subst text.
  apply mapM_forall2 in ER. apply mapM_forall2 in EP.
  destruct (forall2_choice (row_ok b tf) (fun a s => ppg_row b tf a = Ok s) (fun l => spaced (map sci l) ++ [nl])) with (l := seq 0 (List.length (sections b))) (l' := rs) as (rows & FR & ->); auto.
  { intros i s E. destruct (ppg_row_line b tf i s E) as (r & c & k & p & sk & m & h1 & h2 & h3 & h4 & h5 & h6 & h7).
    exists [r; c; sk; k; p; fst m; snd m]. split; auto. exists r, c, k, p, sk, m. auto 10. }
  destruct (forall2_choice (prof_ok st b) (fun a s => ppg_profile st b a = Ok s) (fun rp => unlines (profile_lines rp))) with (l := seq 0 (List.length (sections b))) (l' := ps) as (profs & FP & ->); auto.
  { intros i s E. destruct (ppg_profile_lines st b i s E) as (r & k & h1 & h2 & h3). exists (r, st k). split; auto. exists k. auto. }
  exists rows, profs. split; auto. split; auto. unfold all_lines.
  replace (List.length rows) with (List.length (sections b)).
  2: { apply forall2_length in FR. rewrite seq_length in FR. auto. }
  rewrite !app_assoc, join_unlines by discriminate. rewrite !unlines_app, unlines_concat, <- !app_assoc, ppg_header_lines. apply (f_equal2 (@app ascii)); [reflexivity|].
  apply (f_equal2 (@app ascii)); [unfold unlines; rewrite map_map; reflexivity|]. apply (f_equal2 (@app ascii)); [reflexivity|].
  unfold ppg_hub. rewrite ppg_offsets_lines. unfold unlines, hub_line. cbn [map List.concat]. rewrite app_nil_r, <- !app_assoc. reflexivity.
Qed.

Lemma values_line_no_nl : forall l, no_nl (values_line l).
Proof. intros. apply no_nl_app; [apply no_nl_spaced, sci_words|]. intros [I|[]]; discriminate. Qed.
Lemma all_lines_no_nl : forall D H nb rows profs, Forall no_nl (all_lines D H nb rows profs).
Proof.
  intros. unfold all_lines, header_lines, hub_line. pose proof num_str_line as N.
  assert (S : forall n, no_nl (show_int n)) by (intros; apply word_no_nl, show_int_word).
  apply Forall_app. split.
  { cbv zeta. repeat (apply Forall_cons; [first [apply no_nl_app; [apply no_nl_L; reflexivity|auto]|apply no_nl_L; reflexivity]|]). apply Forall_nil. }
  apply Forall_app. split.
  { apply Forall_forall. intros s I. apply in_map_iff in I. destruct I as (l & <- & _). apply no_nl_spaced, sci_words. }
  apply Forall_app. split.
  { apply Forall_forall. intros s I. apply in_concat in I. destruct I as (ls & I & J). apply in_map_iff in I. destruct I as ([r p] & <- & _).
    destruct J as [<-|[<-|[<-|[<-|[]]]]]; try apply values_line_no_nl.
    apply no_nl_app; [apply word_no_nl, sci_word|]. apply no_nl_app; [apply no_nl_L; reflexivity|auto]. }
  apply Forall_app. split.
  { apply Forall_cons; [apply no_nl_app; [apply no_nl_L; reflexivity|auto]|apply Forall_nil]. }
  apply Forall_forall. intros s I. apply in_map_iff in I. destruct I as (o & <- & _). unfold offset_line.
  apply no_nl_app; [apply word_no_nl, sci_word|]. apply no_nl_cons; [discriminate|apply word_no_nl, sci_word].
Qed.

Definition section_read (rp : R * profile) (q : ppg_section) : Prop :=
  nine_digits (fst rp) (p_radius q) /\ p_count q = Z.of_nat (List.length (xup (snd rp))) /\
  Forall2 nine_digits (xup (snd rp)) (p_x q) /\ Forall2 nine_digits (yup (snd rp)) (p_up q) /\ Forall2 nine_digits (ydown (snd rp)) (p_down q).

Lemma read_profiles_ok : forall profs rest, exists qs,
  read_profiles (List.length profs) (List.concat (map profile_lines profs) ++ rest) = Some (qs, rest) /\ Forall2 section_read profs qs.
Proof.
  induction profs as [|[r p] profs IH]; intros rest.
  - exists []. split; [reflexivity|constructor].
  - destruct (IH rest) as (qs & E & F). cbn [List.length read_profiles map List.concat profile_lines app].
    destruct (number_count r (Z.of_nat (List.length (xup p)))) as (v & E1 & N1).
    destruct (numbers_spaced (xup p) [" "%char]) as (vx & E2 & N2); auto.
    destruct (numbers_spaced (yup p) [" "%char]) as (vu & E3 & N3); auto.
    destruct (numbers_spaced (ydown p) [" "%char]) as (vd & E4 & N4); auto.
    exists (mkSection v (Z.of_nat (List.length (xup p))) vx vu vd :: qs).
    fold (values_line (xup p)) in E2. fold (values_line (yup p)) in E3. fold (values_line (ydown p)) in E4.
    rewrite E1, E2, E3, E4, E. split; [reflexivity|]. constructor; auto. unfold section_read. cbn. auto.
Qed.
Lemma all_some_map : forall {A B} (f : A -> option B) (P : A -> B -> Prop) l,
  (forall a, exists b, f a = Some b /\ P a b) -> exists bs, all_some (map f l) = Some bs /\ Forall2 P l bs.
Proof.
  intros A B f P l H. induction l as [|a l (bs & E & F)]; [exists []; split; [reflexivity|constructor]|].
  destruct (H a) as (b & Eb & Pb). exists (b :: bs). cbn. rewrite Eb, E. auto.
Qed.

Lemma read_lines_ok : forall D H nb rows profs, List.length profs = List.length rows ->
  exists doc, read_ppg (join_nl (all_lines D H nb rows profs)) = Some doc /\
    Forall2 (Forall2 nine_digits) rows (d_rows doc) /\ Forall2 section_read profs (d_profiles doc) /\
    Forall2 (fun o l => Forall2 nine_digits [fst o; snd o] l) hub_offsets (d_hub doc).
Proof.
  intros D H nb rows profs EL. unfold read_ppg.
  rewrite split_join; [|discriminate|apply all_lines_no_nl]. unfold all_lines.
  cbn [header_lines app nth_error skipn]. rewrite count_after_ok, Nat2Z.id.
  rewrite firstn_map_app, skipn_map_app, map_map.
  destruct (all_some_map (fun x => numbers (spaced (map sci x))) (Forall2 nine_digits) rows) as (vr & E1 & F1).
  { intros l. destruct (numbers_spaced l []) as (vs & E & F); auto. rewrite app_nil_r in E. exists vs; auto. }
  rewrite E1. rewrite <- EL.
  destruct (read_profiles_ok profs (hub_line :: map offset_line hub_offsets)) as (qs & E2 & F2). rewrite E2.
  unfold hub_line. rewrite count_after_ok, map_map.
  destruct (all_some_map (fun x => numbers (offset_line x)) (fun o l => Forall2 nine_digits [fst o; snd o] l) hub_offsets) as (vh & E3 & F3).
  { intros o. apply numbers_pair. }
  rewrite E3, map_length, Z.eqb_refl. exists (mkDocument vr qs vh). auto.
Qed.
End Text.
