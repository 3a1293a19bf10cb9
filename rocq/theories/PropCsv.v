(** Property C84: the file written by save_global_parameters. *)
From Coq Require Import Reals List ZArith Ascii String Bool Lia Arith.
From Verif Require Import Base TextModel ParamsModel PpgModel ReverseModel CsvModel CsvSpec CsvProofs.
Import ListNotations.
Open Scope nat_scope.

Theorem C84_fields_are_recovered : forall rows, Forall (fun r => r <> []) rows -> read_csv (rows_text rows) = rows.
Proof. exact csv_round_trip. Qed.
Print Assumptions C84_fields_are_recovered.

Theorem C84_saved_file : forall list_str array_full array_short fs name v, complete v ->
  let shown l := if Nat.ltb 1000 (List.length l) then array_short (firstn 3 l) (skipn (List.length l - 3) l) else array_full l in
  exists fs' text, save_global_parameters list_str array_full array_short Writable fs name v = (fs', Ok tt) /\
  fs' name = Some text /\ (forall other, other <> name -> fs' other = fs other) /\
  let rows := read_csv text in
  List.length rows = 6 + 4 * List.length (radii_list v) /\
  firstn 6 rows = [ [L "Radii list: "; list_str (radii_list v)];
    [L "Pitch angles list: "; list_str (pitch_angles_list v)];
    [L "Pitch list: "; list_str (pitch_list v)];
    [L "Skew angles list: "; list_str (skew_angles_list v)];
    [L "Rake list: "; list_str (rake_list v)];
    [L "Chord length list: "; list_str (chord_length_list v)] ] /\
  forall j, j < List.length (radii_list v) -> exists xu xd yu yd,
    nth_error (r_xup v) j = Some xu /\ nth_error (r_xdown v) j = Some xd /\
    nth_error (r_yup v) j = Some yu /\ nth_error (r_ydown v) j = Some yd /\
    nth_error rows (6 + 4 * j) = Some [labelled "x section" j " upper coordinates: "; shown xu] /\
    nth_error rows (7 + 4 * j) = Some [labelled "x section" j " lower coordinates: "; shown xd] /\
    nth_error rows (8 + 4 * j) = Some [labelled "y section" j " upper coordinates: "; shown yu] /\
    nth_error rows (9 + 4 * j) = Some [labelled "y section" j " lower coordinates: "; shown yd].
Proof.
  intros list_str array_full array_short fs name v C shown.
  destruct (saved_file list_str array_full array_short fs name v C) as (fs' & text & A & B & S & O).
  exists fs', text. exact (conj A (conj B (conj O S))).
Qed.
Print Assumptions C84_saved_file.

(** What a reverse propeller computes can be saved. *)
Theorem C84_reversed_can_be_saved : forall cubic slice radii n v, reverse_bladex cubic slice radii n = Ok v -> complete v.
Proof. exact reversed_complete. Qed.
Print Assumptions C84_reversed_can_be_saved.

Theorem C84_reversed_can_be_saved_voronoi : forall cubic sample around voronoi camber_line radii n v,
  reverse_voronoi cubic sample around voronoi camber_line radii n = Ok v -> complete v.
Proof. exact reversed_complete_voronoi. Qed.
Print Assumptions C84_reversed_can_be_saved_voronoi.

Theorem C84_missing_rows : forall list_str array_full array_short fs name v, ~ complete v ->
  exists fs' text, save_global_parameters list_str array_full array_short Writable fs name v = (fs', Err IndexError) /\
  fs' name = Some text /\ 6 <= List.length (read_csv text) < 6 + 4 * List.length (radii_list v).
Proof. exact saved_incomplete. Qed.
Print Assumptions C84_missing_rows.

Theorem C84_file_errors : forall list_str array_full array_short fs name v,
  let save d := save_global_parameters list_str array_full array_short d fs name v in
  save CannotOpen = (fs, Err IOError) /\
  exists fs1 r1 text, save Writable = (fs1, r1) /\ fs1 name = Some text /\
    forall n, (List.length text <= n -> save (FullAfter n) = (fs1, r1)) /\
      (n < List.length text -> exists fs2, save (FullAfter n) = (fs2, Err IOError) /\ fs2 name = Some (firstn n text) /\
         forall other, other <> name -> fs2 other = fs other).
Proof. exact save_failures. Qed.
Print Assumptions C84_file_errors.

Theorem C84_file_determines_texts : forall list_str array_full array_short fs fs1 fs2 name v w, complete v -> complete w ->
  save_global_parameters list_str array_full array_short Writable fs name v = (fs1, Ok tt) ->
  save_global_parameters list_str array_full array_short Writable fs name w = (fs2, Ok tt) -> fs1 name = fs2 name ->
  List.length (radii_list v) = List.length (radii_list w) /\
  list_str (radii_list v) = list_str (radii_list w) /\ list_str (pitch_angles_list v) = list_str (pitch_angles_list w) /\
  list_str (pitch_list v) = list_str (pitch_list w) /\ list_str (skew_angles_list v) = list_str (skew_angles_list w) /\
  list_str (rake_list v) = list_str (rake_list w) /\ list_str (chord_length_list v) = list_str (chord_length_list w) /\
  forall j a b, j < List.length (radii_list v) ->
    (nth_error (r_xup v) j = Some a -> nth_error (r_xup w) j = Some b -> array_str array_full array_short a = array_str array_full array_short b) /\
    (nth_error (r_xdown v) j = Some a -> nth_error (r_xdown w) j = Some b -> array_str array_full array_short a = array_str array_full array_short b) /\
    (nth_error (r_yup v) j = Some a -> nth_error (r_yup w) j = Some b -> array_str array_full array_short a = array_str array_full array_short b) /\
    (nth_error (r_ydown v) j = Some a -> nth_error (r_ydown w) j = Some b -> array_str array_full array_short a = array_str array_full array_short b).
Proof. exact file_determines. Qed.
Print Assumptions C84_file_determines_texts.

(** Any inner coordinate of a section of more than 1000 points can be changed
    without changing the file. *)
Theorem C84_long_sections_are_lost : forall list_str array_full array_short d fs name v before l after i y,
  r_xup v = before ++ l :: after -> 1000 < List.length l -> 3 <= i < List.length l - 3 ->
  save_global_parameters list_str array_full array_short d fs name
    (mkReversed (radii_list v) (pitch_angles_list v) (pitch_list v) (skew_angles_list v) (skew_list v) (rake_list v)
      (chord_length_list v) (before ++ (firstn i l ++ y :: skipn (S i) l) :: after) (r_xdown v) (r_yup v) (r_ydown v)) =
  save_global_parameters list_str array_full array_short d fs name v.
Proof. exact long_section_lost. Qed.
Print Assumptions C84_long_sections_are_lost.

(** "writes all blade properties": the skew list is not written. *)
Theorem C84_all_properties_refuted : exists v w, skew_list v <> skew_list w /\ complete v /\ complete w /\
  forall list_str array_full array_short d fs name,
    save_global_parameters list_str array_full array_short d fs name v = save_global_parameters list_str array_full array_short d fs name w.
Proof.
  exists (mkReversed [1%R] [0%R] [1%R] [0%R] [0%R] [0%R] [1%R] [[0%R]] [[0%R]] [[0%R]] [[0%R]]), (mkReversed [1%R] [0%R] [1%R] [0%R] [1%R] [0%R] [1%R] [[0%R]] [[0%R]] [[0%R]] [[0%R]]).
  split; [cbn; intros H; injection H as H; apply R1_neq_R0; auto|]. split; [unfold complete; cbn; lia|]. split; [unfold complete; cbn; lia|].
  intros. reflexivity.
Qed.
Print Assumptions C84_all_properties_refuted.

Example C84_example :
  read_csv (rows_text [[L "a,b"; L "[1. 2.]"]; [L "say ""hi"""; []]; [[]]]) = [[L "a,b"; L "[1. 2.]"]; [L "say ""hi"""; []]; [[]]] /\
  row_text [L "Radii list: "; L "[1, 2]"] = L "Radii list: ," ++ [dq] ++ L "[1, 2]" ++ [dq; cr; nl] /\
  complete (mkReversed [1%R] [0%R] [1%R] [0%R] [0%R] [0%R] [1%R] [[0%R]] [[0%R]] [[0%R]] [[0%R]]) /\
  ~ complete (mkReversed [1%R] [0%R] [1%R] [0%R] [0%R] [0%R] [1%R] [] [[0%R]] [[0%R]] [[0%R]]) /\
  1000 < List.length (repeat 0%R 1001) /\ 3 <= 500 < List.length (repeat 0%R 1001) - 3.
Proof.
  split; [reflexivity|]. split; [reflexivity|]. split; [unfold complete; cbn; lia|]. split; [unfold complete; cbn; lia|].
  rewrite repeat_length. lia.
Qed.
