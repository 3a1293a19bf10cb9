(** Model of the OBJ part of Propeller (propeller.py 143-303): triangle meshes
    read back from STL files are merged, equal vertices are shared, and the
    triangles are grouped into regions.  Coordinates are real numbers (no nan,
    no signed zero). *)
From Coq Require Import String Reals List ZArith Bool.
From Verif Require Import Base.
Import ListNotations.
Open Scope R_scope.

(** What STLHandler.read returns (propeller.py 166, 168, 265): points and
    triangles ("cells") as indices into the points. *)
Definition tri : Type := (nat * nat * nat)%type.
Record mesh : Type := mkMesh { points : list pt3; cells : list tri }.

(** The WavefrontOBJ object (propeller.py 170, 267). *)
Record obj : Type := mkObj {
  vertices : list pt3; polygons : list tri;
  regions : list string; changes : list (nat * nat) }.

(** Rows are compared lexicographically by np.unique (propeller.py 178, 272). *)
Definition lt3 (a b : pt3) : Prop :=
  let '(x, y, z) := a in let '(u, v, w) := b in x < u \/ x = u /\ (y < v \/ y = v /\ z < w).
Definition lt3_dec (a b : pt3) : {lt3 a b} + {~ lt3 a b}.
Proof.
  destruct a as [[x y] z], b as [[u v] w]. unfold lt3.
  destruct (Rlt_dec x u); [left; auto|]. destruct (Req_EM_T x u); [|right; tauto].
  destruct (Rlt_dec y v); [left; auto|]. destruct (Req_EM_T y v); [|right; tauto].
  destruct (Rlt_dec z w); [left; auto|right; tauto].
Defined.
(** Insertion into the sorted list of distinct rows. *)
Fixpoint insert3 (a : pt3) (l : list pt3) : list pt3 :=
  match l with
  | [] => [a]
  | b :: l' => if lt3_dec a b then a :: l else if lt3_dec b a then b :: insert3 a l' else l
  end.
(** np.unique(., axis=0): the distinct rows in increasing order. *)
Definition unique3 (l : list pt3) : list pt3 := fold_right insert3 [] l.
(** The position of a row; return_inverse=True gives it for every row. *)
Fixpoint position (a : pt3) (l : list pt3) : nat :=
  match l with
  | [] => 0%nat
  | b :: l' => if lt3_dec a b then 0%nat else if lt3_dec b a then S (position a l') else 0%nat
  end.
Definition inverse3 (l : list pt3) : list nat := map (fun a => position a (unique3 l)) l.

(** cells_to_np (propeller.py 183-185, 277-279). *)
Definition renumber (mapping : list nat) (t : tri) : res tri :=
  let '(i, j, k) := t in
  let* a := item mapping i in let* b := item mapping j in let* c := item mapping k in Ok (a, b, c).

(** append_cells (propeller.py 189-204, 282-297).  [len(polygons) == 0] only
    distinguishes the initial empty list. *)
Definition append_cells (mapping : list nat) (cs : list tri) (name : string) (o : obj) : res obj :=
  let* new := mapM (renumber mapping) cs in
  Ok (mkObj (vertices o) (polygons o ++ new) (regions o ++ [name])
            (changes o ++ [(List.length (polygons o), List.length (regions o))])).

(** [{**defaultKwargs, **kwargs}\[key\]] (propeller.py 211-212, 217-218). *)
Fixpoint named (key default : string) (kw : list (string * string)) : string :=
  match kw with
  | [] => default
  | (k, v) :: kw' => if String.eqb k key then v else named key default kw'
  end.

(** Shifting indices by [k] (propeller.py 208, 252, 301). *)
Definition shift (k : nat) (t : tri) : tri := let '(a, b, c) := t in ((a + k)%nat, (b + k)%nat, (c + k)%nat).
Definition x_of (p : pt3) : R := let '(x, _, _) := p in x.
(** np.count_nonzero of a comparison. *)
Definition count (f : R -> bool) (l : list R) : nat := List.length (filter f l).
Definition lt_bool (a b : R) : bool := if Rlt_dec a b then true else false.
Definition le_bool (a b : R) : bool := if Rle_dec a b then true else false.

(** propeller.py 223-227: which shaft points lie on the head side. *)
Definition head_point (sh bl : mesh) : res (list bool) :=
  let* minx := vmin (map x_of (points bl)) in
  let* maxx := vmax (map x_of (points bl)) in
  let xs := map x_of (points sh) in
  if Nat.leb (count (fun x => lt_bool x maxx) xs) (count (fun x => lt_bool maxx x) xs)
  then Ok (map (fun x => le_bool x maxx) xs)
  else Ok (map (fun x => le_bool minx x) xs).
(** propeller.py 229-234: all three corners on the head side. *)
Definition all_three (flags : list bool) (t : tri) : res bool :=
  let '(i, j, k) := t in
  let* a := item flags i in let* b := item flags j in let* c := item flags k in Ok (a && b && c)%bool.
(** Boolean mask indexing (propeller.py 237, 241). *)
Fixpoint select (keep : list bool) (cs : list tri) : list tri :=
  match keep, cs with
  | k :: keep', c :: cs' => if k then c :: select keep' cs' else select keep' cs'
  | _, _ => []
  end.

(** propeller.py 170-252: the object written by generate_obj, from the two
    meshes.  A mesh without triangles is outside the model (the shape of the
    empty array depends on the STL reader). *)
Definition merge_meshes (sh bl : mesh) (selector : string) (kw : list (string * string)) : res obj :=
  match cells sh, cells bl with
  | [], _ | _, [] => Err Unmodelled
  | _, _ =>
  let all := points sh ++ points bl in
  let mapping := inverse3 all in
  let o := mkObj (unique3 all) [] [] [] in
  let blades := map (shift (List.length (points sh))) (cells bl) in
  let* o' :=
    if String.eqb selector "blades_and_stem" then
      let* o1 := append_cells mapping blades (named "blades_name" "blades" kw) o in
      append_cells mapping (cells sh) (named "shaft_name" "shaft" kw) o1
    else if String.eqb selector "by_coords" then
      let* flags := head_point sh bl in
      let* heads := mapM (all_three flags) (cells sh) in
      let* o1 := append_cells mapping (select heads (cells sh)) (named "shafthead_name" "shaftHead" kw) o in
      let* o2 := append_cells mapping (select (map negb heads) (cells sh)) (named "shafttail_name" "shaftTail" kw) o1 in
      append_cells mapping blades (named "blades_name" "blades" kw) o2
    else Err ValueError in
  Ok (mkObj (vertices o') (map (shift 1) (polygons o')) (regions o') (changes o'))
  end.

(** propeller.py 267-301: the object written by generate_obj_blades. *)
Definition blades_object (bl : mesh) : res obj :=
  match cells bl with
  | [] => Err Unmodelled
  | _ =>
  let* o := append_cells (inverse3 (points bl)) (cells bl) "blades" (mkObj (unique3 (points bl)) [] [] []) in
  Ok (mkObj (vertices o) (map (shift 1) (polygons o)) (regions o) (changes o))
  end.
