(** Model of the text forms of blades and parameter files (blade.py 1069-1089,
    params.py 273-290) and of Blade.display (blade.py 1091-1101). *)
From Coq Require Import Reals List ZArith Ascii String Bool.
From Coq Require Import List.
From Verif Require Import Base TextModel ParamsModel BladeModel.
Import ListNotations.

(** format of an array, which numpy may spread over several lines; of None
    ("None"); nothing is assumed about them in the model. *)
Section Text.
Variables (F : Type) (show_array : list F -> str).
(** '{}'.format(v) for an attribute that may be None (params.py 279, 282). *)
Definition show_optional (v : option (list F)) : str :=
  match v with Some l => show_array l | None => L "None" end.
(** One round of the loop (params.py 281-289). *)
Definition show_key (p : params F) (k : key) : str :=
  nl :: nl :: key_name k ++ L " = " ++ show_optional (at_key (parameters _ p) k) ++
  nl :: key_name k ++ L " degree = " ++ show_int (at_key (degree _ p) k) ++
  nl :: key_name k ++ L " npoints = " ++ show_int (at_key (npoints _ p) k) ++
  nl :: key_name k ++ L " nbasis = " ++ show_int (at_key (nbasis _ p) k) ++
  nl :: key_name k ++ L " control points deformations = " ++ show_array (at_key (deformations _ p) k).
(** params.py 273-290. *)
Definition params_text (p : params F) : str :=
  L "radii = " ++ show_optional (ParamsModel.radii _ p) ++ List.concat (map (show_key p) keys).
End Text.

(** blade.py 1069-1089. *)
Definition blade_text (show_array : list R -> str) (b : blade) : res str :=
  let* a := pitch_angles b in
  let* i := induced_rake b in
  Ok (L "Blade number of sections = " ++ show_int (Z.of_nat (List.length (sections b))) ++
      nl :: L "Blade radii sections = " ++ show_array (BladeModel.radii b) ++
      nl :: L "Chord lengths of the sectional profiles = " ++ show_array (chords b) ++
      nl :: L "Radial distribution of the pitch (in unit lengths) = " ++ show_array (pitch b) ++
      nl :: L "Radial distribution of the rake (in unit length) = " ++ show_array (rake b) ++
      nl :: L "Radial distribution of the skew angles (in degrees) = " ++ show_array (skew b) ++
      nl :: L "Pitch angles (in radians) for the sections = " ++ show_array a ++
      nl :: L "Induced rake from skew (in unit length) for the sections = " ++ show_array i).

(** DisplayShape, one after the other (blade.py 1097-1101): the faces shown, and
    whether the window is started; a face that was not generated is None, which
    the viewer refuses with [refused]. *)
Fixpoint show_faces (refused : exn) (l : list (option face)) : list face * res unit :=
  match l with
  | [] => ([], Ok tt)
  | None :: _ => ([], Err refused)
  | Some f :: l' => let (shown, r) := show_faces refused l' in (f :: shown, r)
  end.
(** blade.py 1091-1101. *)
Definition display_blade (refused : exn) (b : blade) : list face * res unit :=
  show_faces refused [upper_face b; lower_face b; root_face b; tip_face b].
