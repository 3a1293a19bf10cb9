From Coq Require Import Reals List ZArith Ascii String Bool Lia Arith.
From Verif Require Import Base TextModel ParamsModel PpgModel ReverseModel ParamsProofs ReverseProofs2 CsvModel CsvSpec.
Import ListNotations.
Open Scope nat_scope.

Lemma put_same : forall fs name text, put fs name text name = Some text.
Proof. intros. unfold put, eqb_str. destruct (list_eq_dec ascii_dec name name); congruence. Qed.

Lemma special_false : forall a, special a = false -> Ascii.eqb a ","%char = false /\ Ascii.eqb a "034"%char = false /\
  Ascii.eqb a "013"%char = false /\ Ascii.eqb a "010"%char = false.
Proof. intros a H. unfold special in H. cbn [existsb] in H. repeat (apply orb_false_iff in H; destruct H as [? H]). auto. Qed.

Lemma read_quoted : forall s fld row rest,
  reader Quoted fld row (double_quotes s ++ dq :: rest) = reader QuoteSeen (rev s ++ fld) row rest.
Proof.
  induction s as [|a s IH]; intros; [reflexivity|].
  unfold double_quotes. cbn [flat_map]. fold (double_quotes s). destruct (Ascii.eqb a dq) eqn:E.
  - apply Ascii.eqb_eq in E as ->. cbn [app]. cbn -[double_quotes]. rewrite IH. cbn [rev]. rewrite <- app_assoc. reflexivity.
  - cbn [app reader]. change "034"%char with dq. rewrite E. rewrite IH. cbn [rev]. rewrite <- app_assoc. reflexivity.
Qed.

Lemma read_plain : forall s fld row rest, existsb special s = false ->
  reader Plain fld row (s ++ rest) = reader Plain (rev s ++ fld) row rest.
Proof.
  induction s as [|a s IH]; intros fld row rest H; [reflexivity|].
  cbn [existsb] in H. apply orb_false_iff in H as [A H]. apply special_false in A as (A1 & A2 & A3 & A4).
  cbn [app reader]. rewrite A1, A3, A4, IH by auto. cbn [rev]. rewrite <- app_assoc. reflexivity.
Qed.

Lemma field_comma : forall p f row rest, p = RowStart /\ row = [] \/ p = FieldStart ->
  reader p [] row (field_text f ++ comma :: rest) = reader FieldStart [] (f :: row) rest.
Proof.
  intros p f row rest P. unfold field_text. destruct (existsb special f) eqn:S.
  - unfold quoted. rewrite <- app_comm_cons, <- app_assoc. cbn [app].
    transitivity (reader Quoted [] row (double_quotes f ++ dq :: comma :: rest)).
    { destruct P as [[-> ->]| ->]; reflexivity. }
    rewrite read_quoted, app_nil_r. cbn. rewrite rev_involutive. reflexivity.
  - destruct f as [|a f]; [destruct P as [[-> ->]| ->]; reflexivity|].
    cbn [existsb] in S. apply orb_false_iff in S as [A S]. apply special_false in A as (A1 & A2 & A3 & A4).
    transitivity (reader Plain [a] row (f ++ comma :: rest)).
    { cbn [app]. destruct P as [[-> ->]| ->]; cbn [reader]; rewrite A1, A2, A3, A4; reflexivity. }
    rewrite read_plain by auto. cbn. rewrite rev_app_distr, rev_involutive. reflexivity.
Qed.

Lemma field_last : forall p f row rest, p = RowStart /\ row = [] /\ f <> [] \/ p = FieldStart ->
  reader p [] row (field_text f ++ cr :: nl :: rest) = rev (f :: row) :: reader RowStart [] [] rest.
Proof.
  intros p f row rest P. unfold field_text. destruct (existsb special f) eqn:S.
  - unfold quoted. rewrite <- app_comm_cons, <- app_assoc. cbn [app].
    transitivity (reader Quoted [] row (double_quotes f ++ dq :: cr :: nl :: rest)).
    { destruct P as [(-> & -> & _)| ->]; reflexivity. }
    rewrite read_quoted, app_nil_r. cbn -[rev]. cbn [rev]. rewrite rev_involutive. reflexivity.
  - destruct f as [|a f]; [destruct P as [(_ & _ & F)| ->]; [congruence|reflexivity]|].
    cbn [existsb] in S. apply orb_false_iff in S as [A S]. apply special_false in A as (A1 & A2 & A3 & A4).
    transitivity (reader Plain [a] row (f ++ cr :: nl :: rest)).
    { cbn [app]. destruct P as [(-> & -> & _)| ->]; cbn [reader]; rewrite A1, A2, A3, A4; reflexivity. }
    rewrite read_plain by auto. cbn -[rev]. cbn [rev]. rewrite rev_app_distr, rev_involutive. reflexivity.
Qed.

Lemma read_fields : forall l p row rest, l <> [] -> p = RowStart /\ row = [] /\ l <> [[]] \/ p = FieldStart ->
  reader p [] row (join_fields l ++ cr :: nl :: rest) = (rev row ++ l) :: reader RowStart [] [] rest.
Proof.
  induction l as [|f l IH]; intros p row rest NE P; [congruence|]. destruct l as [|g l].
  - cbn [join_fields]. rewrite field_last.
    + reflexivity.
    + destruct P as [(-> & -> & H)| ->]; [left|right]; auto. repeat split; auto. congruence.
  - cbn [join_fields]. rewrite <- app_assoc, <- app_comm_cons. rewrite field_comma.
    + change (match l with [] => field_text g | _ :: _ => field_text g ++ comma :: join_fields l end) with (join_fields (g :: l)).
      rewrite IH; [|discriminate|right; auto]. cbn [rev]. rewrite <- app_assoc. reflexivity.
    + destruct P as [(-> & -> & H)| ->]; auto.
Qed.

Lemma read_row : forall r rest, r <> [] -> reader RowStart [] [] (row_text r ++ rest) = r :: reader RowStart [] [] rest.
Proof.
  intros r rest NE. assert (D : r = [[]] \/ r <> [[]]) by (destruct r as [|[|] [|]]; auto; right; discriminate).
  unfold row_text. destruct D as [-> | D]; [reflexivity|]. rewrite <- app_assoc. cbn [app].
  replace (match r with [[]] => quoted [] | _ => join_fields r end) with (join_fields r) by (destruct r as [|[|] [|]]; auto; congruence).
  rewrite read_fields; auto.
Qed.

Lemma csv_round_trip : forall rows, Forall (fun r => r <> []) rows -> read_csv (rows_text rows) = rows.
Proof.
  intros rows. unfold read_csv, rows_text. induction rows as [|r rows IH]; intros H; [reflexivity|].
  inversion H; subst. cbn [map List.concat]. rewrite read_row, IH; auto.
Qed.

Section Csv.
Variable list_str : list R -> str.
Variable array_full : list R -> str.
Variable array_short : list R -> list R -> str.
Notation all_rows := (all_rows list_str array_full array_short).
Notation section_rows := (section_rows array_full array_short).
Notation section_row := (section_row array_full array_short).
Notation array_str := (array_str array_full array_short).
Notation save := (save_global_parameters list_str array_full array_short).

Definition text_row (v : reversed) (axis side : string) (arr : list (list R)) (j : nat) : list str :=
  [L axis ++ L " section" ++ show_nat (Z.of_nat j) ++ L " " ++ L side ++ L " coordinates: "; array_str (nth j arr [])].
Definition four_rows (v : reversed) (j : nat) : list (list str) :=
  [text_row v "x" "upper" (r_xup v) j; text_row v "x" "lower" (r_xdown v) j;
   text_row v "y" "upper" (r_yup v) j; text_row v "y" "lower" (r_ydown v) j].
Definition rows_of (v : reversed) (n : nat) : list (list str) :=
  list_rows list_str v ++ flat_map (four_rows v) (seq 0 n).

Lemma section_row_ok : forall v axis side arr j, j < List.length arr -> section_row axis side arr j = Ok (text_row v axis side arr j).
Proof. intros v axis side arr j H. unfold CsvModel.section_row, text_row. rewrite (nth_error_nth' _ [] H). reflexivity. Qed.

Lemma section_rows_ok : forall v j, complete v -> j < List.length (radii_list v) -> section_rows v j = map Ok (four_rows v j).
Proof.
  intros v j (A & B & C & D) H. unfold CsvModel.section_rows. rewrite !(section_row_ok v) by lia. reflexivity.
Qed.

Lemma until_ok : forall l, until_error (map Ok l) = (l, Ok tt).
Proof. induction l as [|r l IH]; cbn; [reflexivity|]. rewrite IH. reflexivity. Qed.
Lemma until_app : forall l m, until_error (map Ok l ++ m) = (l ++ fst (until_error m), snd (until_error m)).
Proof.
  induction l as [|r l IH]; intros m; cbn [map app until_error]; [destruct (until_error m); reflexivity|].
  rewrite IH. reflexivity.
Qed.

Lemma flat_rows_ok : forall v l, complete v -> (forall j, In j l -> j < List.length (radii_list v)) ->
  flat_map (section_rows v) l = map Ok (flat_map (four_rows v) l).
Proof.
  intros v l C. induction l as [|j l IH]; intros H; [reflexivity|]. cbn [flat_map]. rewrite map_app, <- IH by (intros; apply H; right; auto).
  rewrite section_rows_ok; auto. apply H. left; auto.
Qed.

Lemma all_rows_ok : forall v, complete v -> all_rows v = map Ok (rows_of v (List.length (radii_list v))).
Proof.
  intros v C. unfold CsvModel.all_rows, rows_of. rewrite map_app. f_equal. apply flat_rows_ok; auto. intros j H. apply in_seq in H. lia.
Qed.

Lemma rows_not_empty : forall v n, Forall (fun r => r <> []) (rows_of v n).
Proof.
  intros v n. unfold rows_of. apply Forall_app. split; [repeat constructor; discriminate|].
  apply Forall_forall. intros r H. apply in_flat_map in H as (j & _ & H). cbn in H.
  repeat (destruct H as [<- | H]; [discriminate|]). contradiction.
Qed.

Lemma rows_at : forall (A : Type) (f : nat -> list A) n s j k, (forall i, List.length (f i) = 4) -> j < n -> k < 4 ->
  nth_error (flat_map f (seq s n)) (4 * j + k) = nth_error (f (s + j)) k.
Proof.
  induction n as [|n IH]; intros s j k F J K; [lia|]. cbn [seq flat_map]. destruct j as [|j].
  - rewrite nth_error_app1 by (rewrite F; lia). rewrite Nat.add_0_r. reflexivity.
  - rewrite nth_error_app2 by (rewrite F; lia). rewrite F. replace (4 * S j + k - 4) with (4 * j + k) by lia.
    rewrite IH by (auto; lia). replace (S s + j) with (s + S j) by lia. reflexivity.
Qed.
Lemma rows_length : forall (A : Type) (f : nat -> list A) n s, (forall i, List.length (f i) = 4) -> List.length (flat_map f (seq s n)) = 4 * n.
Proof. induction n as [|n IH]; intros s F; [reflexivity|]. cbn [seq flat_map]. rewrite app_length, F, IH; auto. lia. Qed.

Lemma rows_of_length : forall v n, List.length (rows_of v n) = 6 + 4 * n.
Proof. intros v n. unfold rows_of. rewrite app_length, rows_length; auto. Qed.
Lemma rows_of_section : forall v n j k, j < n -> k < 4 -> nth_error (rows_of v n) (6 + 4 * j + k) = nth_error (four_rows v j) k.
Proof.
  intros v n j k J K. unfold rows_of. rewrite nth_error_app2 by (cbn; lia).
  replace (6 + 4 * j + k - List.length (list_rows list_str v)) with (4 * j + k) by (cbn [list_rows List.length]; lia).
  rewrite rows_at by auto. reflexivity.
Qed.

Lemma label_text : forall axis side j,
  L axis ++ L " section" ++ show_nat (Z.of_nat j) ++ L " " ++ L side ++ L " coordinates: " =
  labelled (axis ++ " section") j (" " ++ side ++ " coordinates: ").
Proof.
  intros. unfold labelled, L. assert (A : forall a b, list_ascii_of_string (a ++ b)%string = list_ascii_of_string a ++ list_ascii_of_string b).
  { induction a; intros b; cbn; [reflexivity|]. rewrite IHa. reflexivity. }
  rewrite !A. rewrite <- !app_assoc. reflexivity.
Qed.

Definition said (v : reversed) (text : str) : Prop :=
  let rows := read_csv text in
  List.length rows = 6 + 4 * List.length (radii_list v) /\
  firstn 6 rows = [ [L "Radii list: "; list_str (radii_list v)];
    [L "Pitch angles list: "; list_str (pitch_angles_list v)];
    [L "Pitch list: "; list_str (pitch_list v)];
    [L "Skew angles list: "; list_str (skew_angles_list v)];
    [L "Rake list: "; list_str (rake_list v)];
    [L "Chord length list: "; list_str (chord_length_list v)] ] /\
  forall j, j < List.length (radii_list v) -> exists xu xd yu yd,
    nth_error (r_xup v) j = Some xu /\ nth_error (r_xdown v) j = Some xd /\
    nth_error (r_yup v) j = Some yu /\ nth_error (r_ydown v) j = Some yd /\
    nth_error rows (6 + 4 * j) = Some [labelled "x section" j " upper coordinates: "; array_str xu] /\
    nth_error rows (7 + 4 * j) = Some [labelled "x section" j " lower coordinates: "; array_str xd] /\
    nth_error rows (8 + 4 * j) = Some [labelled "y section" j " upper coordinates: "; array_str yu] /\
    nth_error rows (9 + 4 * j) = Some [labelled "y section" j " lower coordinates: "; array_str yd].

Lemma said_rows : forall v, complete v -> said v (rows_text (rows_of v (List.length (radii_list v)))).
Proof.
  intros v C. unfold said. cbv zeta. rewrite csv_round_trip by apply rows_not_empty. split; [apply rows_of_length|]. split; [reflexivity|].
  intros j J. destruct C as (C1 & C2 & C3 & C4). exists (nth j (r_xup v) []), (nth j (r_xdown v) []), (nth j (r_yup v) []), (nth j (r_ydown v) []).
  repeat (split; [apply nth_error_nth'; lia|]).
  replace (6 + 4 * j) with (6 + 4 * j + 0) by lia. replace (7 + 4 * j) with (6 + 4 * j + 1) by lia.
  replace (8 + 4 * j) with (6 + 4 * j + 2) by lia. replace (9 + 4 * j) with (6 + 4 * j + 3) by lia.
  rewrite !rows_of_section by lia. cbn [four_rows nth_error]. unfold text_row. rewrite !label_text. auto.
Qed.

Lemma save_ok : forall fs name v, complete v ->
  save Writable fs name v = (put fs name (rows_text (rows_of v (List.length (radii_list v)))), Ok tt).
Proof. intros fs name v C. unfold save_global_parameters. rewrite all_rows_ok, until_ok by auto. reflexivity. Qed.

Lemma saved_file : forall fs name v, complete v -> exists fs' text, save Writable fs name v = (fs', Ok tt) /\
  fs' name = Some text /\ said v text /\ forall other, other <> name -> fs' other = fs other.
Proof.
  intros fs name v C. rewrite save_ok by auto. eexists. eexists. split; [reflexivity|]. split; [apply put_same|].
  split; [apply said_rows; auto|]. intros other H. unfold put, eqb_str. destruct (list_eq_dec ascii_dec other name); congruence.
Qed.

(** An array without a row for some radius. *)
Lemma until_bad : forall l r, In (Err r) l -> exists e, snd (until_error l) = Err e /\ In (Err e) l.
Proof.
  induction l as [|x l IH]; intros r H; [contradiction|]. destruct x as [x|e]; cbn [until_error].
  - destruct H as [H|H]; [discriminate|]. destruct (IH r H) as (e & E & I). exists e. destruct (until_error l). cbn in *. auto.
  - exists e. cbn. auto.
Qed.
Lemma section_error : forall v j e, In (Err e) (section_rows v j) -> e = IndexError.
Proof.
  intros v j e H. cbn in H. unfold CsvModel.section_row in H.
  repeat (destruct H as [H|H]; [destruct (nth_error _ j); congruence|]). contradiction.
Qed.
Lemma all_errors : forall v e, In (Err e) (all_rows v) -> e = IndexError.
Proof.
  intros v e H. unfold CsvModel.all_rows in H. apply in_app_or in H as [H|H]; [apply in_map_iff in H as (x & H & _); discriminate|].
  apply in_flat_map in H as (j & _ & H). eapply section_error; eauto.
Qed.
Lemma incomplete_error : forall v, ~ complete v -> In (Err IndexError) (all_rows v).
Proof.
  intros v NC. unfold CsvModel.all_rows. apply in_or_app. right. apply in_flat_map.
  assert (K : forall axis side arr, List.length arr < List.length (radii_list v) -> section_row axis side arr (List.length arr) = Err IndexError).
  { intros. unfold CsvModel.section_row. destruct (nth_error arr (List.length arr)) eqn:E; auto. assert (nth_error arr (List.length arr) <> None) by congruence.
    apply nth_error_Some in H0. lia. }
  unfold complete in NC.
  destruct (lt_dec (List.length (r_xup v)) (List.length (radii_list v))); [exists (List.length (r_xup v)); split; [apply in_seq; lia|left; apply K; auto]|].
  destruct (lt_dec (List.length (r_xdown v)) (List.length (radii_list v))); [exists (List.length (r_xdown v)); split; [apply in_seq; lia|right; left; apply K; auto]|].
  destruct (lt_dec (List.length (r_yup v)) (List.length (radii_list v))); [exists (List.length (r_yup v)); split; [apply in_seq; lia|right; right; left; apply K; auto]|].
  destruct (lt_dec (List.length (r_ydown v)) (List.length (radii_list v))); [exists (List.length (r_ydown v)); split; [apply in_seq; lia|right; right; right; left; apply K; auto]|].
  exfalso. apply NC. lia.
Qed.
Lemma until_prefix : forall l, exists m, l = map Ok (fst (until_error l)) ++ m /\ (m = [] \/ exists e t, m = Err e :: t).
Proof.
  induction l as [|[x|e] l IH]; [exists []; auto| |].
  - destruct IH as (m & E & D). exists m. cbn [until_error]. destruct (until_error l) as [rows o]. cbn in *. rewrite <- E. auto.
  - exists (Err e :: l). split; auto. right. eauto.
Qed.

Lemma saved_incomplete : forall fs name v, ~ complete v -> exists fs' text, save Writable fs name v = (fs', Err IndexError) /\
  fs' name = Some text /\ 6 <= List.length (read_csv text) < 6 + 4 * List.length (radii_list v).
Proof.
  intros fs name v NC. unfold save_global_parameters. pose proof (incomplete_error v NC) as I.
  destruct (until_bad _ _ I) as (e & E & IE). apply all_errors in IE as ->.
  destruct (until_prefix (all_rows v)) as (m & P & Dm). destruct (until_error (all_rows v)) as [rows o] eqn:U. cbn [fst snd] in *. subst o.
  eexists. eexists. split; [reflexivity|]. split; [apply put_same|].
  assert (Len : List.length (all_rows v) = 6 + 4 * List.length (radii_list v)).
  { unfold CsvModel.all_rows. rewrite app_length, map_length, rows_length; auto. }
  assert (NE : m <> []).
  { intros ->. rewrite app_nil_r in P. rewrite P in I. apply in_map_iff in I as (x & X & _). discriminate. }
  assert (L6 : 6 <= List.length rows).
  { unfold CsvModel.all_rows in U. rewrite until_app in U. apply (f_equal fst) in U. cbn [fst] in U. rewrite <- U, app_length. cbn [list_rows List.length]. lia. }
  assert (Forall (fun r => r <> []) rows).
  { apply Forall_forall. intros r Hr. assert (H : In (Ok r) (all_rows v)) by (rewrite P; apply in_or_app; left; apply in_map; auto).
    unfold CsvModel.all_rows in H. apply in_app_or in H as [H|H].
    - apply in_map_iff in H as (x & H & Hx). injection H as ->. cbn in Hx. repeat (destruct Hx as [<- | Hx]; [discriminate|]). contradiction.
    - apply in_flat_map in H as (j & _ & H). cbn in H. unfold CsvModel.section_row in H.
      repeat (destruct H as [H|H]; [destruct (nth_error _ j); [injection H as <-; discriminate|discriminate]|]). contradiction. }
  rewrite csv_round_trip by auto. split; auto. rewrite P, app_length, map_length in Len. destruct m; [congruence|]. cbn in Len. lia.
Qed.

(** The file determines exactly the texts. *)
Lemma file_determines : forall fs fs1 fs2 name v w, complete v -> complete w ->
  save Writable fs name v = (fs1, Ok tt) -> save Writable fs name w = (fs2, Ok tt) -> fs1 name = fs2 name ->
  List.length (radii_list v) = List.length (radii_list w) /\
  list_str (radii_list v) = list_str (radii_list w) /\ list_str (pitch_angles_list v) = list_str (pitch_angles_list w) /\
  list_str (pitch_list v) = list_str (pitch_list w) /\ list_str (skew_angles_list v) = list_str (skew_angles_list w) /\
  list_str (rake_list v) = list_str (rake_list w) /\ list_str (chord_length_list v) = list_str (chord_length_list w) /\
  forall j a b, j < List.length (radii_list v) ->
    (nth_error (r_xup v) j = Some a -> nth_error (r_xup w) j = Some b -> array_str a = array_str b) /\
    (nth_error (r_xdown v) j = Some a -> nth_error (r_xdown w) j = Some b -> array_str a = array_str b) /\
    (nth_error (r_yup v) j = Some a -> nth_error (r_yup w) j = Some b -> array_str a = array_str b) /\
    (nth_error (r_ydown v) j = Some a -> nth_error (r_ydown w) j = Some b -> array_str a = array_str b).
Proof.
  intros fs fs1 fs2 name v w Cv Cw Ev Ew F. rewrite save_ok in Ev, Ew by auto. apply (f_equal fst) in Ev. apply (f_equal fst) in Ew. cbn [fst] in Ev, Ew. subst fs1 fs2.
  rewrite !put_same in F. apply (f_equal (fun o => match o with Some t => t | None => [] end)) in F. cbv beta iota in F.
  destruct (said_rows v Cv) as (Lv & Hv & Sv). destruct (said_rows w Cw) as (Lw & Hw & Sw). rewrite <- F in Lw, Hw, Sw.
  assert (N : List.length (radii_list v) = List.length (radii_list w)) by lia. split; auto.
  rewrite Hv in Hw. injection Hw as H1 H2 H3 H4 H5 H6. repeat (split; [assumption|]).
  intros j a b J. destruct (Sv j J) as (xu & xd & yu & yd & A1 & A2 & A3 & A4 & R1 & R2 & R3 & R4).
  destruct (Sw j ltac:(lia)) as (xu' & xd' & yu' & yd' & B1 & B2 & B3 & B4 & S1 & S2 & S3 & S4).
  rewrite S1 in R1. rewrite S2 in R2. rewrite S3 in R3. rewrite S4 in R4.
  assert (T : forall (l : str) (x y : str), Some [l; x] = Some [l; y] -> x = y) by (intros l x y E; injection E; auto).
  apply T in R1. apply T in R2. apply T in R3. apply T in R4.
  repeat split; intros X Y; congruence.
Qed.

(** Long arrays are summarised. *)
Definition with_xup (v : reversed) (a : list (list R)) : reversed :=
  mkReversed (radii_list v) (pitch_angles_list v) (pitch_list v) (skew_angles_list v) (skew_list v) (rake_list v)
    (chord_length_list v) a (r_xdown v) (r_yup v) (r_ydown v).

Lemma nth_error_middle : forall (A : Type) (l1 l2 : list A) x y j,
  nth_error (l1 ++ x :: l2) j = nth_error (l1 ++ y :: l2) j \/ j = List.length l1.
Proof. induction l1; intros l2 x y [|j]; cbn; auto. destruct (IHl1 l2 x y j); auto. Qed.

Lemma skipn_twice : forall (A : Type) (l : list A) a b, skipn a (skipn b l) = skipn (b + a) l.
Proof. induction l as [|x l IH]; intros a [|b]; cbn [skipn Nat.add]; auto; destruct a; auto. Qed.

Lemma summary_same : forall l i y, 1000 < List.length l -> 3 <= i < List.length l - 3 ->
  array_str (firstn i l ++ y :: skipn (S i) l) = array_str l.
Proof.
  intros l i y Hl Hi. unfold CsvModel.array_str. assert (E : List.length (firstn i l ++ y :: skipn (S i) l) = List.length l).
  { rewrite app_length, firstn_length. cbn [List.length]. rewrite skipn_length. lia. }
  rewrite E. destruct (Nat.ltb_spec 1000 (List.length l)); [|lia]. f_equal.
  - rewrite firstn_app, firstn_firstn, firstn_length. replace (3 - Nat.min i (List.length l)) with 0 by lia. rewrite (Nat.min_l 3 i) by lia. cbn [firstn]. rewrite app_nil_r. reflexivity.
  - unfold last3. rewrite E. rewrite skipn_app, firstn_length. rewrite (skipn_all2 (firstn i l)) by (rewrite firstn_length; lia). cbn [app].
    replace (List.length l - 3 - Nat.min i (List.length l)) with (S (List.length l - 4 - i)) by lia. change (skipn (S (List.length l - 4 - i)) (y :: skipn (S i) l)) with (skipn (List.length l - 4 - i) (skipn (S i) l)). rewrite skipn_twice. f_equal. lia.
Qed.

Lemma section_row_same : forall axis side l1 l2 a b j, array_str a = array_str b ->
  section_row axis side (l1 ++ a :: l2) j = section_row axis side (l1 ++ b :: l2) j.
Proof.
  intros axis side l1 l2 a b j E. unfold CsvModel.section_row. destruct (nth_error_middle _ l1 l2 a b j) as [-> | ->]; [reflexivity|].
  rewrite !nth_error_app2, !Nat.sub_diag by lia. cbn [nth_error]. rewrite E. reflexivity.
Qed.

Lemma long_section_lost : forall d fs name v before l after i y, r_xup v = before ++ l :: after ->
  1000 < List.length l -> 3 <= i < List.length l - 3 ->
  save d fs name (with_xup v (before ++ (firstn i l ++ y :: skipn (S i) l) :: after)) = save d fs name v.
Proof.
  intros d fs name v before l after i y X Hl Hi. unfold save_global_parameters.
  assert (E : all_rows (with_xup v (before ++ (firstn i l ++ y :: skipn (S i) l) :: after)) = all_rows v).
  { unfold CsvModel.all_rows. f_equal. cbn [with_xup radii_list]. apply flat_map_ext. intros j. unfold CsvModel.section_rows. cbn [with_xup r_xup r_xdown r_yup r_ydown].
    f_equal. rewrite X. apply section_row_same. apply summary_same; auto. }
  rewrite E. reflexivity.
Qed.

Lemma skew_list_not_saved : forall d fs name v s,
  save d fs name (mkReversed (radii_list v) (pitch_angles_list v) (pitch_list v) (skew_angles_list v) s (rake_list v)
    (chord_length_list v) (r_xup v) (r_xdown v) (r_yup v) (r_ydown v)) = save d fs name v.
Proof. reflexivity. Qed.

Lemma save_failures : forall fs name v,
  save CannotOpen fs name v = (fs, Err IOError) /\
  exists fs1 r1 text, save Writable fs name v = (fs1, r1) /\ fs1 name = Some text /\
    forall n, (List.length text <= n -> save (FullAfter n) fs name v = (fs1, r1)) /\
      (n < List.length text -> exists fs2, save (FullAfter n) fs name v = (fs2, Err IOError) /\ fs2 name = Some (firstn n text) /\
         forall other, other <> name -> fs2 other = fs other).
Proof.
  intros fs name v. unfold save_global_parameters. destruct (until_error (all_rows v)) as [rows o]. split; auto.
  exists (put fs name (rows_text rows)), o, (rows_text rows). split; auto.
  assert (S : forall t, put fs name t name = Some t) by (intros t; unfold put, eqb_str; destruct (list_eq_dec ascii_dec name name); [auto|congruence]).
  split; [apply S|]. intros n. destruct (Nat.ltb_spec n (List.length (rows_text rows))) as [C|C].
  - split; [lia|]. intros _. eexists. split; [reflexivity|]. split; [apply S|]. intros other N. unfold put, eqb_str. destruct (list_eq_dec ascii_dec name other); [congruence|].
    destruct (list_eq_dec ascii_dec other name); [congruence|auto].
  - split; [auto|lia].
Qed.
End Csv.

Lemma collect_complete : forall radii l, List.length l = List.length radii -> complete (collect radii l).
Proof. intros radii l H. unfold complete, collect. cbn. rewrite !map_length. lia. Qed.

Lemma reversed_complete : forall cubic slice radii n v, reverse_bladex cubic slice radii n = Ok v -> complete v.
Proof.
  intros cubic slice radii n v H. unfold reverse_bladex in H. destruct (mapM _ radii) as [l|e] eqn:E; [|discriminate].
  cbn [bind] in H. injection H as <-. apply collect_complete. eapply mapM_len; eauto.
Qed.
Lemma reversed_complete_voronoi : forall cubic sample around voronoi camber_line radii n v,
  reverse_voronoi cubic sample around voronoi camber_line radii n = Ok v -> complete v.
Proof.
  intros cubic sample around voronoi camber_line radii n v H. unfold reverse_voronoi in H.
  destruct (mapM _ radii) as [l|e] eqn:E; [|discriminate].
  cbn [bind] in H. injection H as <-. apply collect_complete. eapply mapM_len; eauto.
Qed.
