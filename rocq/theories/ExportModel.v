(** Model of the exports of a blade: plot, _write_blade_errors, export_stl,
    _generate_leading_edge_curves and export_iges (blade.py 590-925). *)
From Coq Require Import Reals List ZArith Ascii String Bool.
From Verif Require Import Base TextModel ProfileModel BladeModel PpgModel.
From Verif Require ParamsModel.
Import ListNotations.
Open Scope R_scope.

(** [argmin]: index of the first minimal entry (blade.py 863). *)
Fixpoint argmin_from (best : R) (besti i : nat) (l : list R) : nat :=
  match l with
  | [] => besti
  | x :: l' => if Rlt_dec x best then argmin_from x i (S i) l' else argmin_from best besti (S i) l'
  end.
Definition argmin (l : list R) : res nat :=
  match l with
  | [] => Err ValueError
  | x :: l' => Ok (argmin_from x 0 1 l')
  end.

(** blade.py 857-863: the sample nearest to 95% of the extent of the lower
    abscissae. *)
Definition le_index (p : profile) : res nat :=
  let* mn := vmin (xdown p) in
  let* mx := vmax (xdown p) in
  let target := mn + 95 / 100 * (mx - mn) in
  argmin (map (fun x => Rabs (x - target)) (xdown p)).

(** blade.py 866-876: gp_Pnt(1000 * coordinates\[i\]\[0\]\[idx\], ...). *)
Definition le_point (grid : list (list pt3)) (i idx : nat) : res pt3 :=
  let* row := item grid i in
  let* p := item row idx in
  Ok (scale3 1000 p).

(** blade.py 856-876: the index comes from section [i], the point from row [i]
    of the coordinates. *)
Definition le_points (st : store) (b : blade) : res (list (pt3 * pt3)) :=
  match coordinates b with
  | Failed => Err Unmodelled
  | c =>
      let '(up, down) := match c with Built u d => (u, d) | _ => ([], []) end in
      mapM (fun i =>
        let* s := item (sections b) i in
        let* idx := le_index (st s) in
        let* u := le_point up i idx in
        let* d := le_point down i idx in
        Ok (u, d)) (seq 0 (List.length (sections b)))
  end.

Section Export.
Variable edge : Type.

(** The external functions: [curve] the edge along the interpolated curve
    (blade.py 879-895); [null] what OpenCASCADE's argument check raises for None;
    [writable] whether a file can be written. *)
Record tools : Type := mkTools {
  curve : list pt3 -> res edge;
  null : exn;
  writable : string -> bool }.

(** A blade with the two edge attributes (blade.py 894-895), which exist once
    generated. *)
Record cad_blade : Type := mkCad {
  the_blade : blade; upper_le_edge : option edge; lower_le_edge : option edge }.

(** blade.py 845-895.  Simplification: if only the edge of the lower curve cannot
    be made, the upper one is already stored in the code, not here. *)
Definition leading_edge_curves (t : tools) (st : store) (x : cad_blade) : cad_blade * res unit :=
  match (let* ps := le_points st (the_blade x) in
         let* u := curve t (map fst ps) in
         let* l := curve t (map snd ps) in Ok (u, l)) with
  | Err e => (x, Err e)
  | Ok (u, l) => (mkCad (the_blade x) (Some u) (Some l), Ok tt)
  end.

(** sewer.Add and AddShape, one face after the other (blade.py 831-834,
    908-911). *)
Fixpoint given_faces (t : tools) (l : list (option face)) : res (list face) :=
  match l with
  | [] => Ok []
  | None :: _ => Err (null t)
  | Some f :: l' => let* r := given_faces t l' in Ok (f :: r)
  end.
Definition exported_faces (t : tools) (b : blade) : res (list face) :=
  given_faces t [upper_face b; lower_face b; root_face b; tip_face b].

(** What a file contains: faces and curves, or the triangulation of the sewn
    faces with a sewing tolerance and a linear deflection. *)
Inductive content : Type :=
| IgesFile (faces : list face) (curves : list edge)
| StlFile (tolerance : R) (faces : list face) (deflection : R).

(** The status returned by the writers is ignored (blade.py 843, 917). *)
Definition write_file (t : tools) (name : string) (c : content) : list (string * content) :=
  if writable t name then [(name, c)] else [].

(** blade.py 820-843. *)
Definition blade_export_stl (t : tools) (name : string) (deflection : R) (x : cad_blade)
    : list (string * content) * res unit :=
  match exported_faces t (the_blade x) with
  | Err e => ([], Err e)
  | Ok fs => (write_file t name (StlFile (1 / 100) fs deflection), Ok tt)
  end.

(** blade.py 897-917: the object, the files written, the outcome. *)
Definition blade_export_iges (t : tools) (name : string) (include_le_curves : bool) (st : store) (x : cad_blade)
    : cad_blade * list (string * content) * res unit :=
  match (if include_le_curves then leading_edge_curves t st x else (x, Ok tt)) with
  | (x', Err e) => (x', [], Err e)
  | (x', Ok _) =>
      match exported_faces t (the_blade x') with
      | Err e => (x', [], Err e)
      | Ok fs =>
          match (if include_le_curves then
                   match upper_le_edge x', lower_le_edge x' with
                   | Some u, Some l => Ok [u; l]
                   | _, _ => Err AttributeError
                   end
                 else Ok []) with
          | Err e => (x', [], Err e)
          | Ok es => (x', write_file t name (IgesFile fs es), Ok tt)
          end
      end
  end.
End Export.
Arguments mkTools {edge}. Arguments curve {edge}. Arguments null {edge}. Arguments writable {edge}.
Arguments mkCad {edge}. Arguments the_blade {edge}. Arguments upper_le_edge {edge}. Arguments lower_le_edge {edge}.
Arguments IgesFile {edge}. Arguments StlFile {edge}. Arguments given_faces {edge}. Arguments exported_faces {edge}.
Arguments leading_edge_curves {edge}. Arguments blade_export_iges {edge}. Arguments blade_export_stl {edge}.
Arguments write_file {edge}.

(** Truth of a string argument which may be None (blade.py 682, 729, 756, 938). *)
Definition truthy_str (s : option str) : bool :=
  match s with Some (_ :: _) => true | _ => false end.

(** blade.py 590-683: the curves drawn in order, and the file saved to.
    The decorations are not modelled. *)
Definition blade_plot (outfile : option str) (b : blade) : res (list (list pt3) * option str) :=
  match coordinates b with
  | NoCoords => Err ValueError
  | Failed => Err Unmodelled
  | Built [] _ => Err ValueError
  | Built up down =>
      let* l := mapM (fun i => let* u := item up i in let* d := item down i in Ok [u; d])
                     (seq 0 (List.length (sections b))) in
      Ok (List.concat l, if truthy_str outfile then outfile else None)
  end.

Section Errors.
(** [str(x)] of a float. *)
Variable float_str : R -> str.
(** BRepExtrema_DistShapeShape(face, vertex).Value(). *)
Variable distance : face -> pt3 -> res R.

Definition tabs : str := L "			".
(** blade.py 724-745, 758-780: the line of one point.  The vertex is made before
    the attribute is looked up. *)
Definition error_line (attr : option face) (i j : nat) (p : pt3) : res str :=
  match attr with
  | None => Err AttributeError
  | Some f =>
      let '(x, y, z) := scale3 1000 p in
      let* d := distance f (x, y, z) in
      Ok (show_int (Z.of_nat i) ++ tabs ++ show_int (Z.of_nat j) ++ tabs ++ float_str x ++ tabs ++
          float_str y ++ tabs ++ float_str z ++ tabs ++ float_str d ++ [nl])
  end.
(** blade.py 718-749 and 751-782: one block. *)
Definition error_block (title : string) (attr : option face) (n : nat) (grid : list (list pt3)) : res str :=
  let* ls := mapM (fun i =>
      let* row := item grid i in
      let* ls := mapM (fun jp => error_line attr i (fst jp) (snd jp)) (combine (seq 0 (List.length row)) row) in
      Ok (List.concat ls)) (seq 0 n) in
  Ok (L "########## " ++ L title ++ L " ##########" ++ nl :: nl ::
      L "N_section		N_point			X_crds				" ++
      L "Y_crds					Z_crds					DISTANCE" ++ nl :: nl :: List.concat ls).

(** blade.py 704-783.  [gu] and [gl] are the attributes generated_upper_face and
    generated_lower_face, which the class never sets.  The file is opened first
    and written at the end. *)
Definition write_blade_errors (d : disk) (fs : ParamsModel.files) (upper lower : option str) (errors : str)
    (gu gl : option face) (b : blade) : ParamsModel.files * res unit :=
  let name := errors ++ L ".txt" in
  match d with
  | CannotOpen => (fs, Err IOError)
  | _ =>
  let empty := ParamsModel.put fs name [] in
  match coordinates b with
  | Failed => (empty, Err Unmodelled)
  | c =>
      let '(up, down) := match c with Built u d => (u, d) | _ => ([], []) end in
      match (let* u := if truthy_str upper then error_block "UPPER FACE" gu (List.length (sections b)) up else Ok [] in
             let* l := if truthy_str lower then error_block "LOWER FACE" gl (List.length (sections b)) down else Ok [] in
             Ok (nl :: u ++ l)) with
      | Err e => (empty, Err e)
      | Ok text =>
          match d with
          | FullAfter n => (ParamsModel.put fs name (firstn n text), Err IOError)
          | _ => (ParamsModel.put fs name text, Ok tt)
          end
      end
  end end.
End Errors.

(** blade.py 919-927. *)
Definition check_string (a : ParamsModel.arg) : res unit :=
  match a with ParamsModel.AStr _ => Ok tt | ParamsModel.AOther => Err TypeError end.
(** blade.py 929-940. *)
Definition check_errors (upper lower : option str) : res unit :=
  if negb (truthy_str upper || truthy_str lower) then Err ValueError else Ok tt.
