(** An independent reader of comma separated values (RFC 4180 with the
    tolerance of Python's csv.reader), used to state what
    [save_global_parameters] writes. *)
From Coq Require Import Reals List ZArith Ascii String Bool.
From Verif Require Import Base TextModel ReverseModel.
Import ListNotations.
Open Scope nat_scope.

Inductive place := RowStart | AfterReturn | FieldStart | Plain | Quoted | QuoteSeen.

(** [fld] and [row] are what was read of the current field and row, reversed. *)
Fixpoint reader (p : place) (fld : str) (row : list str) (s : str) : list (list str) :=
  match s with
  | [] => match p with RowStart | AfterReturn => [] | _ => [rev (rev fld :: row)] end
  | c :: s' =>
      let plain :=
        if Ascii.eqb c ","%char then reader FieldStart [] (rev fld :: row) s'
        else if Ascii.eqb c "013"%char then rev (rev fld :: row) :: reader AfterReturn [] [] s'
        else if Ascii.eqb c "010"%char then rev (rev fld :: row) :: reader RowStart [] [] s'
        else reader Plain (c :: fld) row s' in
      match p with
      | Quoted => if Ascii.eqb c "034"%char then reader QuoteSeen fld row s' else reader Quoted (c :: fld) row s'
      | QuoteSeen => if Ascii.eqb c "034"%char then reader Quoted (c :: fld) row s' else plain
      | Plain => plain
      | FieldStart => if Ascii.eqb c "034"%char then reader Quoted [] row s' else plain
      | RowStart =>
          if Ascii.eqb c "034"%char then reader Quoted [] row s'
          else if Ascii.eqb c "013"%char then [] :: reader AfterReturn [] [] s'
          else if Ascii.eqb c "010"%char then [] :: reader RowStart [] [] s'
          else plain
      | AfterReturn =>
          if Ascii.eqb c "010"%char then reader RowStart [] [] s'
          else if Ascii.eqb c "034"%char then reader Quoted [] row s'
          else if Ascii.eqb c "013"%char then [] :: reader AfterReturn [] [] s'
          else plain
      end
  end.
Definition read_csv (s : str) : list (list str) := reader RowStart [] [] s.

(** What the file of a reversed propeller is expected to say. *)
Definition labelled (t : string) (n : nat) (u : string) : str :=
  list_ascii_of_string t ++ show_nat (Z.of_nat n) ++ list_ascii_of_string u.

(** All four coordinate arrays have a row for each radius. *)
Definition complete (v : reversed) : Prop :=
  List.length (radii_list v) <= List.length (r_xup v) /\ List.length (radii_list v) <= List.length (r_xdown v) /\
  List.length (radii_list v) <= List.length (r_yup v) /\ List.length (radii_list v) <= List.length (r_ydown v).
