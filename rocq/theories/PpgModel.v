(** Model of Blade.export_ppg (blade.py 942-1067). *)
From Coq Require Import Reals List ZArith Ascii String.
From Verif Require Import Base TextModel FormatModel ProfileModel BladeModel.
From Verif Require ParamsModel.
Import ListNotations.
Open Scope R_scope.

(** The four arrays changed by the normalisation. *)
Definition set_lengths (rs cs ps ks : list R) (b : blade) : blade :=
  mkBlade (sections b) rs cs ps ks (skew b) (thickness b) (camber b) (coordinates b)
          (upper_face b) (lower_face b) (tip_face b) (root_face b).

(** blade.py 942-951.  For D_prop = 0 numpy gives inf or nan. *)
Definition abs_to_norm (D : R) (b : blade) : res blade :=
  let* rs := mapM (fun r => fdiv (r * 2) D) (radii b) in
  let* cs := mapM (fun c => fdiv c D) (chords b) in
  let* ps := mapM (fun p => fdiv p D) (pitch b) in
  let* ks := mapM (fun k => fdiv k D) (rake b) in
  Ok (set_lengths rs cs ps ks b).

(** blade.py 953-963. *)
Definition norm_to_abs (D : R) (b : blade) : blade :=
  set_lengths (map (fun r => r * D / 2) (radii b)) (vscale D (chords b))
              (vscale D (pitch b)) (vscale D (rake b)) b.

(** Numeric value of an int or float argument. *)
Definition num_value (x : pynum) : R :=
  match x with PyInt z => IZR z | PyFloat r => r end.

(** blade.py 989-999: thickness and camber of every section. *)
Definition measure (st : store) (b : blade) : res (list (R * R)) :=
  mapM (fun s => let* t := max_thickness None (st s) in
                 let* f := max_camber (Some 500%Z) (st s) in Ok (t, f)) (sections b).

(** blade.py 1044-1048. *)
Definition hub_offsets : list (R * R) :=
  [(-3, 305/1000); (-57/100, 305/1000); (-49/100, 305/1000); (-41/100, 305/1000);
   (-33/100, 305/1000); (-25/100, 305/1000); (-17/100, 305/1000); (23/100, 305/1000);
   (31/100, 285/1000); (39/100, 2656/10000); (47/100, 2432/10000); (55/100, 2124/10000);
   (63/100, 1684/10000); (71/100, 108/1000); (79/100, 0)].

Section Ppg.
(** [str(x)] of a float (blade.py 1008-1010). *)
Variable float_str : R -> str.
Definition num_str (x : pynum) : str :=
  match x with PyInt z => show_int z | PyFloat r => float_str r end.

(** blade.py 1006-1021. *)
Definition ppg_header (D_prop D_hub n_blades : pynum) (n : nat) : str :=
  let count := show_int (Z.of_nat n) in
  L "propeller id       = SVA" ++ nl ::
  L "propeller diameter = " ++ num_str D_prop ++ nl ::
  L "hub diameter       = " ++ num_str D_hub ++ nl ::
  L "number of blades   = " ++ num_str n_blades ++ nl ::
  L "'Elica PPTC workshop'" ++ nl ::
  L "number of radial sections         = " ++ count ++ nl ::
  L "number of radial sections         = " ++ count ++ nl ::
  L "number of sectional profiles      = " ++ count ++ nl ::
  L "description of sectional profiles = BNF" ++ nl ::
  L "            r/R            c/D      skew[deg]         rake/D            P/D            t/C            f/C" ++ nl :: [].

(** blade.py 1022-1028: one row of the radial table. *)
Definition ppg_row (b : blade) (tf : list (R * R)) (i : nat) : res str :=
  let* r := item (radii b) i in let* c := item (chords b) i in
  let* s := item (skew b) i in let* k := item (rake b) i in
  let* p := item (pitch b) i in let* m := item tf i in
  Ok (" "%char :: sci r ++ " "%char :: sci c ++ " "%char :: sci s ++ " "%char :: sci k ++
      " "%char :: sci p ++ " "%char :: sci (fst m) ++ " "%char :: sci (snd m) ++ nl :: []).

(** blade.py 1034-1042: one line of coordinates. *)
Definition ppg_values (l : list R) : str :=
  List.concat (map (fun v => " "%char :: sci v) l) ++ " "%char :: nl :: [].

(** blade.py 1030-1042: one profile; xdown_coordinates is not written. *)
Definition ppg_profile (st : store) (b : blade) (i : nat) : res str :=
  let* r := item (radii b) i in
  let* s := item (sections b) i in
  let p := st s in
  Ok (sci r ++ L "  " ++ show_int (Z.of_nat (List.length (xup p))) ++ nl ::
      ppg_values (xup p) ++ ppg_values (yup p) ++ ppg_values (ydown p)).

(** blade.py 1050-1060: no line end after the last offset. *)
Fixpoint ppg_offsets (l : list (R * R)) : str :=
  match l with
  | [] => []
  | [o] => sci (fst o) ++ " "%char :: sci (snd o)
  | o :: l' => sci (fst o) ++ " "%char :: sci (snd o) ++ nl :: ppg_offsets l'
  end.
Definition ppg_hub : str :=
  L "number of Hub offsets = " ++ show_int (Z.of_nat (List.length hub_offsets)) ++ nl :: ppg_offsets hub_offsets.

(** blade.py 1006-1060: [output_string]. *)
Definition ppg_text (D_prop D_hub n_blades : pynum) (st : store) (b : blade) (tf : list (R * R)) : res str :=
  let n := List.length (sections b) in
  let* rows := mapM (ppg_row b tf) (seq 0 n) in
  let* profs := mapM (ppg_profile st b) (seq 0 n) in
  Ok (ppg_header D_prop D_hub n_blades n ++ List.concat rows ++ List.concat profs ++ ppg_hub).

(** What the file system does with [open(filename, 'w')] and [f.write(text)]
    (blade.py 1062-1063): both succeed; open fails; or writing fails after
    some characters. *)
Inductive disk : Type := Writable | CannotOpen | FullAfter (n : nat).

(** blade.py 965-1067.  [normalized] is the truth of [params_normalized is not
    False]. *)
Definition export_ppg (d : disk) (fs : ParamsModel.files) (filename : str)
    (D_prop D_hub n_blades : pynum) (normalized : bool) (st : store) (b : blade)
    : ParamsModel.files * blade * res unit :=
  match measure st b with
  | Err e => (fs, b, Err e)
  | Ok tf =>
  match (if normalized then Ok b else abs_to_norm (num_value D_prop) b) with
  | Err e => (fs, b, Err e)
  | Ok b1 =>
  match ppg_text D_prop D_hub n_blades st b1 tf with
  | Err e => (fs, b1, Err e)
  | Ok text =>
  match d with
  | CannotOpen => (fs, b1, Err IOError)
  | FullAfter n => (ParamsModel.put fs filename (firstn n text), b1, Err IOError)
  | Writable =>
      (ParamsModel.put fs filename text,
       if normalized then b1 else norm_to_abs (num_value D_prop) b1, Ok tt)
  end end end end.
End Ppg.
