(** How an OBJ object is read; nothing here occurs in the model. *)
From Coq Require Import String Reals List ZArith.
From Verif Require Import Base ObjModel.
Import ListNotations.
Open Scope nat_scope.

Notation corners := (pt3 * pt3 * pt3)%type.
(** The corners of a triangle of a mesh; indices count from 0. *)
Definition mesh_corners (ps : list pt3) (t : tri) (c : corners) : Prop :=
  let '(i, j, k) := t in let '(a, b, d) := c in
  nth_error ps i = Some a /\ nth_error ps j = Some b /\ nth_error ps k = Some d.
(** The corners of a polygon of an OBJ file; indices count from 1. *)
Definition obj_corners (o : obj) (t : tri) (c : corners) : Prop :=
  let '(i, j, k) := t in let '(a, b, d) := c in
  (1 <= i /\ nth_error (vertices o) (i - 1) = Some a) /\
  (1 <= j /\ nth_error (vertices o) (j - 1) = Some b) /\
  (1 <= k /\ nth_error (vertices o) (k - 1) = Some d).
(** The region in force at polygon [j]: the last change at or before [j]. *)
Fixpoint last_change (j : nat) (l : list (nat * nat)) : option nat :=
  match l with
  | [] => None
  | (s, r) :: l' =>
      match last_change j l' with
      | Some q => Some q
      | None => if Nat.leb s j then Some r else None
      end
  end.
Definition region_of (o : obj) (j : nat) : option string :=
  match last_change j (changes o) with Some r => nth_error (regions o) r | None => None end.

(** Every index of the mesh is in range. *)
Definition in_range (n : nat) (t : tri) : Prop := let '(i, j, k) := t in i < n /\ j < n /\ k < n.
Definition valid_mesh (m : mesh) : Prop := cells m <> [] /\ Forall (in_range (List.length (points m))) (cells m).

(** The polygons [l] of the file draw the triangles [cs] of the mesh, in order. *)
Definition drawn (o : obj) (m : mesh) (cs l : list tri) : Prop :=
  Forall2 (fun t q => exists c, mesh_corners (points m) t c /\ obj_corners o q c) cs l.
(** The polygons from [s] up to [e] form the region [name]. *)
Definition in_region (o : obj) (name : string) (s e : nat) : Prop :=
  forall j, s <= j < e -> region_of o j = Some name.

(** [nm] is the name of the region: the one passed under the keyword [key], else [default]. *)
Definition region_name (kw : list (string * string)) (key default nm : string) : Prop :=
  In (key, nm) kw \/ (nm = default /\ forall v, ~ In (key, v) kw).

(** Axial extent of the points of a mesh. *)
Definition extent (m : mesh) (lo hi : R) : Prop :=
  (exists p, In p (points m) /\ x_of p = lo) /\ (exists p, In p (points m) /\ x_of p = hi) /\
  forall p, In p (points m) -> (lo <= x_of p <= hi)%R.
(** [l] consists of the members of [l0] with property [P], in the same order. *)
Inductive picked {A} (P : A -> Prop) : list A -> list A -> Prop :=
| pick_nil : picked P [] []
| pick_in : forall a l0 l, P a -> picked P l0 l -> picked P (a :: l0) (a :: l)
| pick_out : forall a l0 l, ~ P a -> picked P l0 l -> picked P (a :: l0) l.
(** A triangle all of whose corners satisfy [side]. *)
Definition all_corners (m : mesh) (side : R -> Prop) (t : tri) : Prop :=
  exists a b c, mesh_corners (points m) t (a, b, c) /\ side (x_of a) /\ side (x_of b) /\ side (x_of c).
(** Number of points of a mesh on a side. *)
Inductive number_of (side : R -> Prop) : list pt3 -> nat -> Prop :=
| num_nil : number_of side [] 0
| num_in : forall p l n, side (x_of p) -> number_of side l n -> number_of side (p :: l) (S n)
| num_out : forall p l n, ~ side (x_of p) -> number_of side l n -> number_of side (p :: l) n.
