(** Vocabulary for text forms; nothing here occurs in the model. *)
From Coq Require Import ZArith Ascii String.
From Coq Require Import List.
From Verif Require Import Base TextModel ParamsModel.
Import ListNotations.

(** The lines of the text of a parameter file. *)
Definition key_lines {F} (show : list F -> str) (p : params F) (k : key) : list str :=
  [ []; key_name k ++ L " = " ++ match at_key (parameters _ p) k with Some l => show l | None => L "None" end;
    key_name k ++ L " degree = " ++ show_int (at_key (degree _ p) k);
    key_name k ++ L " npoints = " ++ show_int (at_key (npoints _ p) k);
    key_name k ++ L " nbasis = " ++ show_int (at_key (nbasis _ p) k);
    key_name k ++ L " control points deformations = " ++ show (at_key (deformations _ p) k) ].
Definition params_lines {F} (show : list F -> str) (p : params F) : list str :=
  (L "radii = " ++ match ParamsModel.radii _ p with Some l => show l | None => L "None" end) :: flat_map (key_lines show p) keys.

