(** Model of shaft/shaft.py, shaft/cylinder_shaft.py and intepolatedface.py.
    The OpenCASCADE calls are parameters. *)
From Coq Require Import Reals List String Ascii Bool ZArith.
From Coq Require Import List.
From Verif Require Import Base.
Import ListNotations.

(** ** os.path.splitext (genericpath.py _splitext with sep '/', extsep '.'; used
    in shaft.py 32).  Simplification: characters are 8-bit. *)
(** str.rfind of one character: the last index, or -1. *)
Fixpoint rfind_from (c : ascii) (l : list ascii) (i : Z) (found : Z) : Z :=
  match l with
  | [] => found
  | a :: l' => rfind_from c l' (i + 1) (if Ascii.eqb a c then i else found)
  end.
Definition rfind (c : ascii) (l : list ascii) : Z := rfind_from c l 0 (-1).
(** The while loop: is there a character other than a dot at the indices
    [i], ..., [i + n - 1]? *)
Fixpoint non_dot (l : list ascii) (i n : nat) : bool :=
  match n with
  | 0%nat => false
  | S n' => match nth_error l i with
            | Some c => if negb (Ascii.eqb c ".") then true else non_dot l (S i) n'
            | None => true
            end
  end.
Definition splitext (p : list ascii) : list ascii * list ascii :=
  let sep := rfind "/" p in
  let dot := rfind "." p in
  if Z.ltb sep dot then
    if non_dot p (Z.to_nat (sep + 1)) (Z.to_nat dot - Z.to_nat (sep + 1)) then
      (firstn (Z.to_nat dot) p, skipn (Z.to_nat dot) p)
    else (p, [])
  else (p, []).

(** ** Shaft (shaft.py 8-60) *)
Section Shaft.
Variables status shape solid : Type.
(** What the libraries do: [read_stl] read_stl_file; [read_iges] ReadFile,
    TransferRoots and Shape of the reader, with the status ReadFile returns;
    [sew] the sewing with a tolerance and the conversion to a shell; [make_solid]
    BRepBuilderAPI_MakeSolid: [None] if it is not done. *)
Record kernel : Type := mkKernel {
  read_stl : string -> res shape;
  read_iges : string -> status * res shape;
  sew : R -> shape -> res shape;
  make_solid : shape -> res (option solid) }.
(** What is read, in order. *)
Inductive event : Type := Stl (f : string) | Iges (f : string) | Sewn.
(** generate_solid (shaft.py 22-52); shaft.py 20 stores the name unchecked. *)
Definition shaft_solid (k : kernel) (filename : string) : list event * res solid :=
  let ext := skipn 1 (snd (splitext (list_ascii_of_string filename))) in
  let finish (e : event) (r : res shape) : list event * res solid :=
    match r with
    | Err x => ([e], Err x)
    | Ok s => ([e; Sewn],
        let* sh := sew k (1 / 100)%R s in
        let* m := make_solid k sh in
        match m with None => Err RuntimeError | Some v => Ok v end)
    end in
  if list_eq_dec ascii_dec ext (list_ascii_of_string "stl") then finish (Stl filename) (read_stl k filename)
  else if list_eq_dec ascii_dec ext (list_ascii_of_string "iges") then finish (Iges filename) (snd (read_iges k filename))
  else ([], Err OtherException).
End Shaft.
Arguments mkKernel {status shape solid}.
Arguments read_stl {status shape solid}.
Arguments read_iges {status shape solid}.
Arguments sew {status shape solid}.
Arguments make_solid {status shape solid}.
Arguments shaft_solid {status shape solid}.

(** ** CylinderShaft (cylinder_shaft.py 7-49) *)
Open Scope R_scope.
Record cylinder : Type := mkCylinder { cy_radius : R; cy_height : R; cy_orientation : list R; cy_origin : list R }.
(** cylinder_shaft.py 20-33. *)
Definition new_cylinder (radius height : option R) (orientation origin : option (list R)) : cylinder :=
  mkCylinder (match radius with None => 1 | Some r => r end) (match height with None => 1 | Some h => h end)
    (match orientation with None => [1; 0; 0] | Some o => o end)
    (match origin with None => [0; 0; 0] | Some o => o end).
(** gp_Pnt(x, y, z) (cylinder_shaft.py 44).  No coordinates at all: Unmodelled. *)
Definition gp_pnt (l : list R) : res pt3 :=
  match l with [x; y; z] => Ok (x, y, z) | [] => Err Unmodelled | _ => Err TypeError end.
(** gp_Dir(x, y, z) (cylinder_shaft.py 45): the unit vector; the zero vector raises. *)
Definition gp_dir (l : list R) : res pt3 :=
  match l with
  | [x; y; z] =>
      let n := sqrt (x * x + y * y + z * z) in
      if Req_EM_T n 0 then Err RuntimeError else Ok (x / n, y / n, z / n)
  | [] => Err Unmodelled
  | _ => Err TypeError
  end.
Definition dot3 (a b : pt3) : R :=
  let '(a1, a2, a3) := a in let '(b1, b2, b3) := b in a1 * b1 + a2 * b2 + a3 * b3.
Definition sub3 (a b : pt3) : pt3 :=
  let '(a1, a2, a3) := a in let '(b1, b2, b3) := b in (a1 - b1, a2 - b2, a3 - b3).
(** The point set of BRepPrimAPI_MakeCylinder(gp_Ax2(origin, dir), r, h). *)
Definition make_cylinder (o d : pt3) (r h : R) (p : pt3) : Prop :=
  let v := sub3 p o in
  0 <= dot3 v d <= h /\ dot3 v v - dot3 v d * dot3 v d <= r * r.
(** generate_solid (cylinder_shaft.py 35-49).  Simplifications: the solid is its
    set of points; a radius or height which is not positive is Unmodelled. *)
Definition cylinder_solid (c : cylinder) : res (pt3 -> Prop) :=
  let* o := gp_pnt (cy_origin c) in
  let* d := gp_dir (cy_orientation c) in
  if Rlt_dec 0 (cy_radius c) then
    if Rlt_dec 0 (cy_height c) then Ok (make_cylinder o d (cy_radius c) (cy_height c)) else Err Unmodelled
  else Err Unmodelled.

(** ** InterpolatedFace (intepolatedface.py 15-57) *)
(** An array: shape and entries. *)
Record narray : Type := mkArr { shape_of : list nat; at_ : list nat -> R }.
(** pts[None, :, :] (intepolatedface.py 24). *)
Definition new_axis (a : narray) : narray := mkArr (1%nat :: shape_of a) (fun i => at_ a (tl i)).
Section Face.
Variables edge face : Type.
(** [curve]: the edge along the curve interpolating the points with the given
    tolerance; [through]: the generator with tolerance, degree and wires built,
    then GeneratedFace of an edge. *)
Variable curve : R -> list pt3 -> res edge.
Variable through : R -> nat -> list edge -> res (edge -> res face).
(** The points of one section: the columns (intepolatedface.py 37-39). *)
Definition columns (a : narray) (i n : nat) : list pt3 :=
  map (fun k => (at_ a [i; 0%nat; k], at_ a [i; 1%nat; k], at_ a [i; 2%nat; k])) (seq 0 n).
(** intepolatedface.py 17-57.  The shape is printed first.  Without sections the
    name root_edge is unbound (UnboundLocalError, a NameError). *)
Definition interpolated_face (pts : narray) (max_deg : nat) (tol : R) : list nat * res face :=
  (shape_of pts,
   let ndim := List.length (shape_of pts) in
   if negb (Nat.eqb ndim 2 || Nat.eqb ndim 3) then Err ValueError else
   let pts := if Nat.eqb ndim 2 then new_axis pts else pts in
   match shape_of pts with
   | [m; d; n] =>
       if negb (Nat.eqb d 3) then Err ValueError else
       let* edges := mapM (fun i => curve tol (columns pts i n)) (seq 0 m) in
       let* made := through tol max_deg edges in
       match edges with [] => Err NameError | e :: _ => made e end
   | _ => Err Unmodelled
   end).
End Face.
