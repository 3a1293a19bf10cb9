(** Second model of the profile methods, with array identity: numpy arrays are
    objects on a heap, [+=] and [*=] change the array a profile refers to, the
    other methods bind new arrays.  Numerical results are those of
    ProfileModel.v. *)
From Coq Require Import Reals String List ZArith.
From Verif Require Import Base ProfileModel CustomModel PpgModel.
Import ListNotations.
Open Scope R_scope.

(** Element types of the arrays a caller can supply (customprofile.py 228-238
    converts only what is not an ndarray).  Simplification: other element types
    and integer overflow are not modelled. *)
Inductive dtype : Type := Int64 | Float64.
Record array : Type := mkArray { kind : dtype; data : list R }.

(** All array objects created so far; an address is a position.  Simplification:
    arrays are one-dimensional and own their data; the two rows of the matrices
    of baseprofile.py 695-712 do not overlap and count as separate arrays. *)
Definition heap : Type := list array.

(** baseprofile.py 21-30: what the four attributes refer to. *)
Record object : Type := mkObject { axu : nat; axd : nat; ayu : nat; ayd : nat }.
Definition state : Type := (heap * object)%type.

(** Assigning to the contents of an array. *)
Fixpoint store_at (h : heap) (a : nat) (v : array) : heap :=
  match h, a with
  | [], _ => []
  | _ :: h', O => v :: h'
  | x :: h', S a' => x :: store_at h' a' v
  end.

(** The values of the four attributes; a dangling address does not exist in
    Python. *)
Definition contents (h : heap) (a : nat) : res (list R) :=
  match nth_error h a with Some v => Ok (data v) | None => Err Unmodelled end.
Definition read (s : state) : res profile :=
  let* xu := contents (fst s) (axu (snd s)) in let* xd := contents (fst s) (axd (snd s)) in
  let* yu := contents (fst s) (ayu (snd s)) in let* yd := contents (fst s) (ayd (snd s)) in
  Ok (mkProfile xu xd yu yd).

(** [self.field += v] and [self.field *= v] (baseprofile.py 456-457, 720-723,
    730-733, 750-759): the array itself is changed; an integer array cannot hold
    a float result, numpy raises a TypeError (UFuncTypeError). *)
Definition inplace (f : R -> R -> R) (v : pynum) (field : object -> nat) (s : state)
  : state * res unit :=
  match nth_error (fst s) (field (snd s)) with
  | None => (s, Err Unmodelled)
  | Some a =>
      match kind a, v with
      | Int64, PyFloat _ => (s, Err TypeError)
      | k, _ =>
          ((store_at (fst s) (field (snd s)) (mkArray k (map (fun x => f x (num_value v)) (data a))),
            snd s), Ok tt)
      end
  end.

(** Statement sequence; an exception skips the rest. *)
Definition then_ (m k : state -> state * res unit) (s : state) : state * res unit :=
  match m s with (s', Ok _) => k s' | (s', Err e) => (s', Err e) end.
Notation "m ;; k" := (then_ m k) (at level 62, right associativity).

(** baseprofile.py 714-723. *)
Definition h_translate (v : pynum * pynum) : state -> state * res unit :=
  inplace Rplus (fst v) axu ;; inplace Rplus (fst v) axd ;;
  inplace Rplus (snd v) ayu ;; inplace Rplus (snd v) ayd.

(** baseprofile.py 750-753, 756-759. *)
Definition h_scale_coords (k : pynum) : state -> state * res unit :=
  inplace Rmult k axu ;; inplace Rmult k axd ;; inplace Rmult k ayu ;; inplace Rmult k ayd.

(** baseprofile.py 725-733. *)
Definition h_reflect : state -> state * res unit := h_scale_coords (PyInt (-1)).

(** baseprofile.py 735-759; the reference point is a new float array. *)
Definition h_scale (factor : pynum) (translate_ : bool) (s : state) : state * res unit :=
  if translate_ then
    match (let* p := read s in reference_point p) with
    | Err e => (s, Err e)
    | Ok ref =>
        (h_translate (PyFloat (- fst ref), PyFloat (- snd ref)) ;;
         h_scale_coords factor ;;
         h_translate (PyFloat (fst ref), PyFloat (snd ref))) s
    end
  else h_scale_coords factor s.

(** Creating float arrays and binding attributes to them. *)
Definition alloc4 (p : profile) (h : heap) : heap * object :=
  let n := List.length h in
  (h ++ [mkArray Float64 (xup p); mkArray Float64 (xdown p);
         mkArray Float64 (yup p); mkArray Float64 (ydown p)],
   mkObject n (n + 1) (n + 2) (n + 3)).
Definition alloc_y (p : profile) (s : state) : state :=
  let n := List.length (fst s) in
  (fst s ++ [mkArray Float64 (yup p); mkArray Float64 (ydown p)],
   mkObject (axu (snd s)) (axd (snd s)) n (n + 1)).

(** baseprofile.py 640-712. *)
Definition h_rotate (rad deg : option R) (s : state) : state * res unit :=
  match (let* p := read s in rotate rad deg p) with
  | Err e => (s, Err e)
  | Ok p' => (alloc4 p' (fst s), Ok tt)
  end.

(** baseprofile.py 394-407: whether the coordinates are replaced by interpolated
    ones. *)
Definition interpolates (n : option Z) (p : profile) : bool :=
  match resolve_n n p with
  | Ok n' => match truthy n' with Some _ => true | None => false end
  | Err _ => false
  end.

(** baseprofile.py 358-413: the ordinates are always bound to new arrays, the
    abscissae only if interpolated.  All raises happen before the first
    assignment. *)
Definition h_deform_camber_line (percent : R) (n : option Z) (s : state) : state * res unit :=
  match read s with
  | Err e => (s, Err e)
  | Ok p =>
      match deform_camber_line percent n p with
      | Err e => (s, Err e)
      | Ok p' => (if interpolates n p then alloc4 p' (fst s) else alloc_y p' s, Ok tt)
      end
  end.

(** baseprofile.py 415-444. *)
Definition h_set_camber_line_max (camber_max : R) (s : state) : state * res unit :=
  match (let* p := read s in
         let* old := max_camber (Some 500%Z) p in
         fdiv (100 * (camber_max - old)) old) with
  | Err e => (s, Err e)
  | Ok percent => h_deform_camber_line percent None s
  end.

(** baseprofile.py 447-457; the ratio is a float. *)
Definition h_set_thickness_max (thickness_max : R) (s : state) : state * res unit :=
  match (let* p := read s in max_thickness None p) with
  | Err e => (s, Err e)
  | Ok old =>
      let ratio := if Req_EM_T old 0 then 0 else thickness_max / old in
      (inplace Rmult (PyFloat ratio) ayu ;; inplace Rmult (PyFloat ratio) ayd) s
  end.

(** A call of one of the methods that change coordinates. *)
Inductive call : Type :=
| Translate (v : pynum * pynum)
| Reflect
| Scale (factor : pynum) (translate_ : bool)
| Rotate (rad deg : option R)
| DeformCamberLine (percent : R) (n : option Z)
| SetCamberLineMax (camber_max : R)
| SetThicknessMax (thickness_max : R).

(** baseprofile.py: dispatch on the method. *)
Definition perform (c : call) : state -> state * res unit :=
  match c with
  | Translate v => h_translate v
  | Reflect => h_reflect
  | Scale k t => h_scale k t
  | Rotate rad deg => h_rotate rad deg
  | DeformCamberLine pc n => h_deform_camber_line pc n
  | SetCamberLineMax m => h_set_camber_line_max m
  | SetThicknessMax t => h_set_thickness_max t
  end.

(** A coordinate argument of CustomProfile: an existing array or a list. *)
Inductive source : Type := ByRef (a : nat) | ByList (l : list R).

(** customprofile.py 228-238: [np.asarray(l, dtype=float)] makes a new array
    of a list; an array is used as it is. *)
Definition as_array (src : source) (h : heap) : heap * nat :=
  match src with
  | ByRef a => (h, a)
  | ByList l => (h ++ [mkArray Float64 l], List.length h)
  end.

(** customprofile.py 50-57: a profile from coordinates.  [american] is not used
    by the British convention. *)
Definition h_custom_coordinates (american : profile -> R -> list R -> R -> list R -> res (list R))
  (sxu sxd syu syd : source) (h : heap) : heap * res object :=
  let (h1, xu) := as_array sxu h in
  let (h2, xd) := as_array sxd h1 in
  let (h3, yu) := as_array syu h2 in
  let (h4, yd) := as_array syd h3 in
  let o := mkObject xu xd yu yd in
  (h4, let* p := read (h4, o) in
       let* _ := check_coordinates p in
       let* _ := generate_parameters american "british" p in
       Ok o).

(** customprofile.py 62-72, 89-99: a profile from parameters; line 95 copies
    the abscissae. *)
Definition h_custom_parameters (q : params) (h : heap) : heap * res object :=
  match (let* _ := check_parameters q in coordinates_british q) with
  | Err e => (h, Err e)
  | Ok p => let (h', o) := alloc4 p h in (h', Ok o)
  end.

(** A program that calls methods of several profiles, catching exceptions. *)
Definition world : Type := (heap * list object)%type.
Fixpoint replace_at (l : list object) (i : nat) (o : object) : list object :=
  match l, i with
  | [], _ => []
  | _ :: l', O => o :: l'
  | x :: l', S i' => x :: replace_at l' i' o
  end.
Definition call_on (w : world) (i : nat) (c : call) : world * res unit :=
  match nth_error (snd w) i with
  | None => (w, Err Unmodelled)
  | Some o =>
      let '((h', o'), r) := perform c (fst w, o) in
      ((h', replace_at (snd w) i o'), r)
  end.
Fixpoint execute (w : world) (calls : list (nat * call)) : world :=
  match calls with
  | [] => w
  | (i, c) :: rest => execute (fst (call_on w i c)) rest
  end.
