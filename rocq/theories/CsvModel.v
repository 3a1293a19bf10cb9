(** [save_global_parameters] (bladex/reversepropeller/basereversepropeller.py
    282-308) and the part of Python's csv.writer it uses.  The texts
    [str(list)] and [str(array)] are parameters; what is modelled of them is
    that numpy shows only the first and last three entries of an array of more
    than 1000 entries (the default print threshold). *)
From Coq Require Import Reals List ZArith Ascii String Bool.
From Verif Require Import Base TextModel ParamsModel PpgModel ReverseModel.
Import ListNotations.
Open Scope nat_scope.

(** csv.writer, default dialect "excel" (basereversepropeller.py 291): comma,
    double quote, rows ended by carriage return and line feed.  The file is
    opened in text mode (290); on a system whose line end is the line feed the
    characters are written as they are. *)
Definition comma : ascii := ","%char.
Definition dq : ascii := "034"%char.
Definition cr : ascii := "013"%char.
Definition special (a : ascii) : bool := existsb (Ascii.eqb a) [comma; dq; cr; nl].
Definition double_quotes (s : str) : str := flat_map (fun a => if Ascii.eqb a dq then [dq; dq] else [a]) s.
(** A field is quoted when it contains a special character. *)
Definition quoted (s : str) : str := dq :: double_quotes s ++ [dq].
Definition field_text (s : str) : str := if existsb special s then quoted s else s.
(** Fields separated by commas; a row consisting of one empty field is written
    as two quotes. *)
Fixpoint join_fields (l : list str) : str :=
  match l with
  | [] => []
  | [f] => field_text f
  | f :: l' => field_text f ++ comma :: join_fields l'
  end.
Definition row_text (row : list str) : str :=
  (match row with [[]] => quoted [] | _ => join_fields row end) ++ [cr; nl].
Definition rows_text (rows : list (list str)) : str := List.concat (map row_text rows).

Section Csv.
(** [str] of a list of numbers, of a short array, and of a long array given
    its first and last three entries. *)
Variable list_str : list R -> str.
Variable array_full : list R -> str.
Variable array_short : list R -> list R -> str.
Definition last3 (l : list R) : list R := skipn (List.length l - 3) l.
Definition array_str (l : list R) : str :=
  if Nat.ltb 1000 (List.length l) then array_short (firstn 3 l) (last3 l) else array_full l.

(** basereversepropeller.py 293-298 *)
Definition list_rows (v : reversed) : list (list str) :=
  [ [L "Radii list: "; list_str (radii_list v)];
    [L "Pitch angles list: "; list_str (pitch_angles_list v)];
    [L "Pitch list: "; list_str (pitch_list v)];
    [L "Skew angles list: "; list_str (skew_angles_list v)];
    [L "Rake list: "; list_str (rake_list v)];
    [L "Chord length list: "; list_str (chord_length_list v)] ].
(** basereversepropeller.py 300-307: one row, [self.xup[j, :]] etc. *)
Definition section_row (axis : string) (side : string) (arr : list (list R)) (j : nat) : res (list str) :=
  match nth_error arr j with
  | Some l => Ok [L axis ++ L " section" ++ show_nat (Z.of_nat j) ++ L " " ++ L side ++ L " coordinates: "; array_str l]
  | None => Err IndexError
  end.
Definition section_rows (v : reversed) (j : nat) : list (res (list str)) :=
  [ section_row "x" "upper" (r_xup v) j; section_row "x" "lower" (r_xdown v) j;
    section_row "y" "upper" (r_yup v) j; section_row "y" "lower" (r_ydown v) j ].
(** basereversepropeller.py 293-307: all rows in the order written *)
Definition all_rows (v : reversed) : list (res (list str)) :=
  map Ok (list_rows v) ++ flat_map (section_rows v) (seq 0 (List.length (radii_list v))).

(** The rows written until the first exception, and the exception. *)
Fixpoint until_error (l : list (res (list str))) : list (list str) * res unit :=
  match l with
  | [] => ([], Ok tt)
  | Ok r :: l' => let '(rows, o) := until_error l' in (r :: rows, o)
  | Err e :: _ => ([], Err e)
  end.

(** basereversepropeller.py 282-307.  [open] truncates the file; the [with]
    statement closes it and so keeps the rows written before an exception.  A
    full disk is reported when the file is closed at the latest. *)
Definition save_global_parameters (d : disk) (fs : files) (filename : str) (v : reversed) : files * res unit :=
  let '(rows, o) := until_error (all_rows v) in
  match d with
  | CannotOpen => (fs, Err IOError)
  | FullAfter n =>
      if Nat.ltb n (List.length (rows_text rows)) then (put fs filename (firstn n (rows_text rows)), Err IOError)
      else (put fs filename (rows_text rows), o)
  | Writable => (put fs filename (rows_text rows), o)
  end.
End Csv.
