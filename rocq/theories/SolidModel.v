(** Model of BaseReversePropeller._extract_solid_from_file
    (basereversepropeller.py 105-140). *)
From Coq Require Import List Bool Arith.
From Verif Require Import Base.
Import ListNotations.

(** TopAbs_ShapeEnum, of which the code uses the numbers 0 and 4
    (basereversepropeller.py 117, 129). *)
Inductive kind : Set := Compound | Compsolid | Solid | Shell | Face | Wire | Edge | Vertex.
Definition number (k : kind) : nat :=
  match k with Compound => 0 | Compsolid => 1 | Solid => 2 | Shell => 3 | Face => 4 | Wire => 5 | Edge => 6 | Vertex => 7 end.
(** A TopoDS_Shape: its kind, what identifies it, its parts. *)
Inductive shape : Type := Shape (k : kind) (name : nat) (parts : list shape).
Definition kind_of (s : shape) : kind := match s with Shape k _ _ => k end.
(** TopExp_Explorer(s, k) (basereversepropeller.py 119, 130). *)
Fixpoint explore (k : kind) (s : shape) : list shape :=
  match s with
  | Shape k' n l => if Nat.eqb (number k') (number k) then [s] else flat_map (explore k) l
  end.
(** iges_reader.OneShape(): the only root, or a compound of the roots
    (basereversepropeller.py 118). *)
Definition one_shape (roots : list shape) : shape :=
  match roots with [s] => s | _ => Shape Compound 0 roots end.

Section Solid.
(** BRepBuilderAPI_Sewing of what was added (basereversepropeller.py 114-127);
    BRepBuilderAPI_MakeSolid of the shells added, None if not IsDone (128-140). *)
Variables (sew : list shape -> shape) (make_solid : list shape -> option shape).

(** What is left: blade_compound, what was given to the sewing and to the maker
    of the solid, blade_solid. *)
Record extraction : Type := mkExtraction { compound : shape; added : list shape; shells : list shape; solid : shape }.
(** basereversepropeller.py 105-140 for the roots transferred from the file (the
    status of ReadFile is not looked at); iges_reader.Shape() is the first root.
    Simplifications: no root, and a sewn shape that is neither a compound nor a
    shell (which the code casts to a shell) are [Unmodelled]. *)
Definition extract_solid (roots : list shape) : res extraction :=
  match roots with
  | [] => Err Unmodelled
  | s :: _ =>
      let '(c, l) :=
        if Nat.eqb (number (kind_of s)) 4 then (one_shape roots, explore Face (one_shape roots))
        else (s, [s]) in
      let sewn := sew l in
      let* sh :=
        match kind_of sewn with
        | Compound => Ok (explore Shell sewn)
        | Shell => Ok [sewn]
        | _ => Err Unmodelled
        end in
      Ok (mkExtraction c l sh (match make_solid sh with Some v => v | None => sewn end))
  end.
End Solid.
