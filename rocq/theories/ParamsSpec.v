(** Vocabulary of the parameter file statements. *)
From Coq Require Import String List ZArith Ascii Bool.
From Verif Require Import Base TextModel TextSpec ParamsModel.
Import ListNotations.

(** A number whose text form is one word, does not look like a comment and is
    read back as the same number.  It holds for every binary64 number
    (ReprProofs3.v). *)
Definition printable {F} (cd : codec F) (x : F) : Prop :=
  c_show cd x <> [] /\ Forall (fun a => ~ blank a) (c_show cd x) /\
  hd_error (c_show cd x) <> Some "#"%char /\ hd_error (c_show cd x) <> Some ";"%char /\
  c_read cd (c_show cd x) = Some x.
Definition all_printable {F} (cd : codec F) (p : params F) : Prop :=
  Forall (printable cd) (or_empty F (radii F p)) /\
  forall k, Forall (printable cd) (or_empty F (at_key (parameters F p) k)) /\ Forall (printable cd) (at_key (deformations F p) k).

(** Every distribution has one entry per radius, every deformation one per
    control point. *)
Definition consistent {F} (p : params F) : Prop :=
  exists r, radii F p = Some r /\ forall k,
    (exists v, at_key (parameters F p) k = Some v /\ List.length v = List.length r) /\
    at_key (nbasis F p) k = Z.of_nat (List.length (at_key (deformations F p) k)).
(** Parameter [k] of an object to be written with [n] radii is not given or has
    [n] entries, and has as many deformations as control points. *)
Definition fits_key {F} (n : nat) (p : params F) (k : key) : Prop :=
  (forall v, at_key (parameters F p) k = Some v -> List.length v = n) /\
  at_key (nbasis F p) k = Z.of_nat (List.length (at_key (deformations F p) k)).
(** At most one word between white space. *)
Definition one_word (l : list ascii) : Prop :=
  exists u w v, l = u ++ w ++ v /\ Forall blank u /\ Forall (fun a => ~ blank a) w /\ Forall blank v.
(** Line [l] holds the single number [x]. *)
Definition number_line {F} (cd : codec F) (l : list ascii) (x : F) : Prop :=
  one_word l /\ c_read cd l = Some x.
(** At least one radius and one control point per parameter. *)
Definition populated {F} (p : params F) : Prop :=
  or_empty F (radii F p) <> [] /\ forall k, at_key (deformations F p) k <> [].
(** [p] with zeros for the distributions not given. *)
Definition zero_filled {F} (cd : codec F) (p : params F) : params F :=
  let n := List.length (or_empty F (radii F p)) in
  let fill (v : option (list F)) := Some (match v with Some l => l | None => repeat (c_zero cd) n end) in
  let d := parameters F p in
  Build_params F (radii F p)
    (Build_dict (fill (d_chord d)) (fill (d_pitch d)) (fill (d_rake d)) (fill (d_skew d)) (fill (d_camber d)))
    (nbasis F p) (degree F p) (npoints F p) (deformations F p).

(** An instance: integer entries. *)
Definition int_codec : codec Z :=
  Build_codec Z show_int parse_int 0%Z [3; 4; 5; 6; 7; 8; 9; 10]%Z.

(** The same text with Windows line ends. *)
Definition crlf (s : list ascii) : list ascii :=
  flat_map (fun a => if Ascii.eqb a nl then ["013"%char; nl] else [a]) s.
(** A text from its lines, each ended by a line end. *)
Definition text_of (ls : list (list ascii)) : list ascii := List.concat (map (fun l => l ++ [nl]) ls).
(** A comment line: "#" or ";" after optional white space, no line end. *)
Definition comment_line (l : list ascii) : Prop :=
  (exists sp c t, l = sp ++ c :: t /\ white sp /\ (c = "#"%char \/ c = ";"%char)) /\
  ~ In nl l /\ ~ In "013"%char l.

(** ** The lines of a parameter file *)
Definition pad (n : nat) (s : list ascii) : list ascii := s ++ repeat " "%char (n - List.length s).
(** All values in the same column, the first one beside the name. *)
Definition aligned (column : nat) (name : list ascii) (values : list (list ascii)) : list (list ascii) :=
  match values with
  | [] => [name]
  | v :: vs => (pad column name ++ v) :: map (fun w => pad column [] ++ w) vs
  end.
Definition distribution_lines {F} (cd : codec F) (p : params F) (kn : key * list ascii) : list (list ascii) :=
  [] :: aligned 32 (L "Radial distribution of " ++ snd kn ++ L " = ") (map (c_show cd) (or_empty F (at_key (parameters F p) (fst kn)))).
Definition spline_lines {F} (cd : codec F) (p : params F) (kn : key * (list ascii * list ascii)) : list (list ascii) :=
  let k := fst kn in
  [[]; []; L "[" ++ fst (snd kn) ++ L " B-Spline]";
   L "# This section describes the B-Spline construction of the RADII -- " ++ snd (snd kn) ++ L " curve."; [];
   L "# degree of the B-Spline curve"; L "spline degree: " ++ show_int (at_key (degree F p) k); [];
   L "# number of points to be evaluated with the B-Spline interpolation"; L "spline npoints: " ++ show_int (at_key (npoints F p) k); [];
   L "# number of the control points"; L "number of control points: " ++ show_int (at_key (nbasis F p) k); [];
   L "# Y-deformations of the control points."] ++
  aligned 33 (L "control points Y-deformations = ") (map (c_show cd) (at_key (deformations F p) k)).
Definition parameter_lines {F} (cd : codec F) (p : params F) : list (list ascii) :=
  [[]; L "[Original parameters]"; L "# This section describes the radial distributions of the parameters:";
   L "# ""chord lengths"", ""pitch"", ""rake"", ""skew angles"", and ""camber"""; L "# at given radial sections."; []] ++
  aligned 19 (L "Radial sections = ") (map (c_show cd) (or_empty F (radii F p))) ++
  flat_map (distribution_lines cd p) [(Chord, L "chord"); (Pitch, L "pitch"); (Rake, L "rake"); (Skew, L "skew"); (Camber, L "camber")] ++
  flat_map (spline_lines cd p) [(Chord, (L "Chord", L "CHORD")); (Pitch, (L "Pitch", L "PITCH")); (Rake, (L "Rake", L "RAKE"));
    (Skew, (L "Skew", L "SKEW")); (Camber, (L "Camber", L "CAMBER"))].
