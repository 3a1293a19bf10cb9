(** Model of params.py: the parameter file object, its text form and the file
    system it is written to. *)
From Coq Require Import List ZArith Ascii String Bool Arith.
From Verif Require Import Base TextModel.
Import ListNotations.
Open Scope nat_scope.

(** params.py 40-78: the five dictionary keys, in the order of line 100. *)
Inductive key : Set := Chord | Pitch | Rake | Skew | Camber.
Definition keys : list key := [Chord; Pitch; Rake; Skew; Camber].
Definition key_name (k : key) : str :=
  match k with
  | Chord => L "chord" | Pitch => L "pitch" | Rake => L "rake" | Skew => L "skew" | Camber => L "camber"
  end.
(** A dictionary with these keys. *)
Record dict (A : Type) := { d_chord : A; d_pitch : A; d_rake : A; d_skew : A; d_camber : A }.
Arguments Build_dict {A}. Arguments d_chord {A}. Arguments d_pitch {A}. Arguments d_rake {A}.
Arguments d_skew {A}. Arguments d_camber {A}.
Definition at_key {A} (d : dict A) (k : key) : A :=
  match k with
  | Chord => d_chord d | Pitch => d_pitch d | Rake => d_rake d | Skew => d_skew d | Camber => d_camber d
  end.
Definition set_key {A} (k : key) (v : A) (d : dict A) : dict A :=
  match k with
  | Chord => Build_dict v (d_pitch d) (d_rake d) (d_skew d) (d_camber d)
  | Pitch => Build_dict (d_chord d) v (d_rake d) (d_skew d) (d_camber d)
  | Rake => Build_dict (d_chord d) (d_pitch d) v (d_skew d) (d_camber d)
  | Skew => Build_dict (d_chord d) (d_pitch d) (d_rake d) v (d_camber d)
  | Camber => Build_dict (d_chord d) (d_pitch d) (d_rake d) (d_skew d) v
  end.
Definition same_for_all {A} (v : A) : dict A := Build_dict v v v v v.

(** Array entries: their type, [str(x)], [float(s)] (None: ValueError), 0.0 and
    [np.arange(0.3, 1.1, 0.1)].  For floats str/float are Python's; nothing is
    assumed about them in the model. *)
Record codec (F : Type) := { c_show : F -> str; c_read : str -> option F; c_zero : F; c_arange : list F }.
Arguments c_show {F}. Arguments c_read {F}. Arguments c_zero {F}. Arguments c_arange {F}.

Section Params.
Variable F : Type.
Variable cd : codec F.

(** params.py 40-78: the attributes.  Arrays are one-dimensional; nbasis,
    degree, npoints are integers. *)
Record params := {
  radii : option (list F);
  parameters : dict (option (list F));
  nbasis : dict Z;
  degree : dict Z;
  npoints : dict Z;
  deformations : dict (list F)
}.

(** params.py 40-78. *)
Definition new_params : params :=
  Build_params None (same_for_all None) (same_for_all 10%Z) (same_for_all 3%Z) (same_for_all 500%Z)
    (same_for_all (repeat (c_zero cd) 10)).

Definition set_radii (p : params) (v : option (list F)) : params :=
  Build_params v (parameters p) (nbasis p) (degree p) (npoints p) (deformations p).
Definition set_parameter (p : params) (k : key) (v : list F) : params :=
  Build_params (radii p) (set_key k (Some v) (parameters p)) (nbasis p) (degree p) (npoints p) (deformations p).
Definition set_nbasis (p : params) (k : key) (v : Z) : params :=
  Build_params (radii p) (parameters p) (set_key k v (nbasis p)) (degree p) (npoints p) (deformations p).
Definition set_degree (p : params) (k : key) (v : Z) : params :=
  Build_params (radii p) (parameters p) (nbasis p) (set_key k v (degree p)) (npoints p) (deformations p).
Definition set_npoints (p : params) (k : key) (v : Z) : params :=
  Build_params (radii p) (parameters p) (nbasis p) (degree p) (set_key k v (npoints p)) (deformations p).
Definition set_deformations (p : params) (k : key) (v : list F) : params :=
  Build_params (radii p) (parameters p) (nbasis p) (degree p) (npoints p) (set_key k v (deformations p)).

(** A method: the object is updated also when an exception is raised. *)
Definition meth (A : Type) : Type := (params * res A)%type.
Definition andthen {A B} (m : meth A) (k : params -> A -> meth B) : meth B :=
  match m with
  | (p, Ok a) => k p a
  | (p, Err e) => (p, Err e)
  end.
(** [for k in ks: body]. *)
Fixpoint for_each {K} (body : params -> K -> meth unit) (ks : list K) (p : params) : meth unit :=
  match ks with
  | [] => (p, Ok tt)
  | k :: ks' => andthen (body p k) (fun p' _ => for_each body ks' p')
  end.

(** params.py 96-118, the checks of one parameter. *)
Definition check_param (n : nat) (p : params) (k : key) : meth unit :=
  let p1 := match at_key (parameters p) k with
            | None => set_parameter p k (repeat (c_zero cd) n)
            | Some _ => p
            end in
  match at_key (parameters p1) k with
  | None => (p1, Err ValueError)
  | Some v =>
      if negb (Nat.eqb (List.length v) n) then (p1, Err ValueError)
      else if negb (Z.eqb (at_key (nbasis p1) k) (Z.of_nat (List.length (at_key (deformations p1) k)))) then (p1, Err ValueError)
      else (p1, Ok tt)
  end.
(** params.py 80-120. *)
Definition check_params (p : params) : meth unit :=
  match radii p with
  | None => (p, Err ValueError)
  | Some r => for_each (check_param (List.length r)) keys p
  end.

(** params.py 226-230, 235-239, 261-265: one value per line, the first after
    [first] spaces, the others after [rest] spaces. *)
Fixpoint show_lines (first rest : nat) (l : list F) : str :=
  match l with
  | [] => []
  | x :: l' => repeat " "%char first ++ c_show cd x ++ nl :: show_lines rest rest l'
  end.
(** params.py 232-233. *)
Definition gap (k : key) : nat := match k with Chord | Pitch => 1 | Rake | Skew => 2 | Camber => 0 end.
(** params.py 235-239. *)
Definition show_distribution (k : key) (v : list F) : str :=
  nl :: L "Radial distribution of " ++ key_name k ++ L " = " ++ show_lines (gap k) 32 v.
(** params.py 241-244, 171-174: section names, and [param.upper()]. *)
Definition section_name (k : key) : str :=
  match k with
  | Chord => L "Chord B-Spline" | Pitch => L "Pitch B-Spline" | Rake => L "Rake B-Spline"
  | Skew => L "Skew B-Spline" | Camber => L "Camber B-Spline"
  end.
Definition upper_name (k : key) : str :=
  match k with
  | Chord => L "CHORD" | Pitch => L "PITCH" | Rake => L "RAKE" | Skew => L "SKEW" | Camber => L "CAMBER"
  end.
(** params.py 246-265. *)
Definition show_section (k : key) (d n m : Z) (v : list F) : str :=
  nl :: nl :: L "[" ++ section_name k ++ L "]" ++ nl ::
  L "# This section describes the B-Spline construction of the RADII -- " ++ upper_name k ++ L " curve." ++ nl ::
  nl :: L "# degree of the B-Spline curve" ++ nl ::
  L "spline degree: " ++ show_int d ++ nl ::
  nl :: L "# number of points to be evaluated with the B-Spline interpolation" ++ nl ::
  L "spline npoints: " ++ show_int n ++ nl ::
  nl :: L "# number of the control points" ++ nl ::
  L "number of control points: " ++ show_int m ++ nl ::
  nl :: L "# Y-deformations of the control points." ++ nl ::
  L "control points Y-deformations = " ++ show_lines 1 33 (firstn (Z.to_nat m) v).

Definition or_empty (v : option (list F)) : list F := match v with Some l => l | None => [] end.
(** params.py 216-265: the text of a checked object. *)
Definition show_params (p : params) : str :=
  nl :: L "[Original parameters]" ++ nl ::
  L "# This section describes the radial distributions of the parameters:" ++ nl ::
  L "# ""chord lengths"", ""pitch"", ""rake"", ""skew angles"", and ""camber""" ++ nl ::
  L "# at given radial sections." ++ nl ::
  nl :: L "Radial sections = " ++ show_lines 1 19 (or_empty (radii p)) ++
  List.concat (map (fun k => show_distribution k (or_empty (at_key (parameters p) k))) keys) ++
  List.concat (map (fun k => show_section k (at_key (degree p) k) (at_key (npoints p) k) (at_key (nbasis p) k)
                          (at_key (deformations p) k)) keys).

(** File contents by name; [None]: no such file.  Writing always succeeds. *)
Definition files : Type := str -> option str.
Definition put (fs : files) (name text : str) : files :=
  fun n => if eqb_str n name then Some text else fs n.
(** An argument that should be a string (params.py 128, 212). *)
Inductive arg : Type := AStr (s : str) | AOther.

(** params.py 203-268. *)
Definition write_parameters (fs : files) (p : params) (a : arg) : files * meth unit :=
  match a with
  | AOther => (fs, (p, Err TypeError))
  | AStr name =>
      match check_params p with
      | (p', Err e) => (fs, (p', Err e))
      | (p', Ok _) => (put fs name (show_params p'), (p', Ok tt))
      end
  end.

(** params.py 143-149, 156-166, 189-197: the array that is being filled and
    whether all lines were numbers; unread entries are 0. *)
Fixpoint read_array (lines : list str) : list F * res unit :=
  match lines with
  | [] => ([], Ok tt)
  | l :: ls =>
      let rest := map (fun _ => c_zero cd) ls in
      if Nat.ltb 1 (count_words false l) then (c_zero cd :: rest, Err ValueError) else
      match c_read cd l with
      | None => (c_zero cd :: rest, Err ValueError)
      | Some x => let (xs, r) := read_array ls in (x :: xs, r)
      end
  end.

(** params.py 141-149. *)
Definition read_radii (c : config) (p : params) : meth unit :=
  match get c (L "Original parameters") (L "Radial sections") with
  | Err e => (p, Err e)
  | Ok s => let (xs, r) := read_array (split_nl s) in (set_radii p (Some xs), r)
  end.
(** params.py 151-166. *)
Definition read_distribution (c : config) (p : params) (k : key) : meth unit :=
  match get c (L "Original parameters") (L "Radial distribution of " ++ key_name k) with
  | Err e => (p, Err e)
  | Ok s => let (xs, r) := read_array (split_nl s) in (set_parameter p k xs, r)
  end.
(** params.py 168-176; a missing array cannot occur here. *)
Definition lengths_agree (p : params) : bool :=
  let n := List.length (or_empty (radii p)) in
  forallb (fun k => Nat.eqb (List.length (or_empty (at_key (parameters p) k))) n) keys.
(** params.py 183-200. *)
Definition read_section (c : config) (p : params) (k : key) : meth unit :=
  let s := section_name k in
  match getint c s (L "spline degree") with
  | Err e => (p, Err e)
  | Ok d =>
  let p1 := set_degree p k d in
  match getint c s (L "spline npoints") with
  | Err e => (p1, Err e)
  | Ok n =>
  let p2 := set_npoints p1 k n in
  match getint c s (L "number of control points") with
  | Err e => (p2, Err e)
  | Ok m =>
  let p3 := set_nbasis p2 k m in
  match get c s (L "control points Y-deformations") with
  | Err e => (p3, Err e)
  | Ok [] => (p3, Err ValueError)
  | Ok v =>
      let (xs, r) := read_array (split_nl v) in
      let p4 := set_deformations p3 k xs in
      match r with
      | Err e => (p4, Err e)
      | Ok _ => if Z.eqb (Z.of_nat (List.length xs)) m then (p4, Ok tt) else (p4, Err ValueError)
      end
  end end end end.
(** params.py 138-200, from the text of the file on. *)
Definition load (p : params) (text : str) : meth unit :=
  match parse_config text with
  | Err e => (p, Err e)
  | Ok c =>
      andthen (read_radii c p) (fun p1 _ =>
      andthen (for_each (read_distribution c) keys p1) (fun p2 _ =>
      if negb (lengths_agree p2) then (p2, Err ValueError) else
      for_each (read_section c) keys p2))
  end.
(** params.py 122-200.  After line 136 the file exists. *)
Definition read_parameters (fs : files) (p : params) (a : arg) : files * meth unit :=
  match a with
  | AOther => (fs, (p, Err TypeError))
  | AStr name =>
      match fs name with
      | Some text => (fs, load p text)
      | None =>
          match write_parameters fs (set_radii p (Some (c_arange cd))) a with
          | (fs', (p', Err e)) => (fs', (p', Err e))
          | (fs', (p', Ok _)) =>
              match fs' name with
              | Some text => (fs', load p' text)
              | None => (fs', (p', Err ConfigError))
              end
          end
      end
  end.
End Params.
