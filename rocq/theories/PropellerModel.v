(** Model of propeller.py (class Propeller): construction from one blade, the
    cached solid and shape, the exports and the OBJ files.

    What OpenCASCADE, the STL reader and the file system do is a record of
    functions passed to every access separately: nothing is assumed about it, and
    it may change from one access to the next. *)
From Coq Require Import String Reals List ZArith Bool.
From Verif Require Import Base ProfileModel BladeModel ObjModel.
Import ListNotations.
Open Scope R_scope.

Section WithSolids.
Variables solid shaft_t : Type.

(** The external functions used by the class:
    [make_shaft] shaft.generate_solid (propeller.py 105);
    [make_solid] sewing four faces in the given order into a solid (blade.py
    799-818), RuntimeError or another exception if that fails;
    [fuse] BRepAlgoAPI_Fuse of a solid and a compound (propeller.py 109-115),
    None if not done;
    [sew] and [sew_faces] BRepBuilderAPI_Sewing (propeller.py 62-69, 86-90);
    [writable] whether a file can be written;
    [mesh_of] the mesh STLHandler reads from the file written for a solid
    (propeller.py 165-168, 264-265);
    [window] init_display (propeller.py 309). *)
Record cad : Type := mkCad {
  make_shaft : shaft_t -> res solid;
  make_solid : list face -> res solid;
  fuse : solid -> list solid -> option solid;
  sew : solid -> solid;
  sew_faces : list face -> solid;
  writable : string -> bool;
  mesh_of : solid -> res mesh;
  window : res unit }.

(** A blade object with the profiles it refers to.  copy.deepcopy copies both
    (propeller.py 46), so that each copy has a store of its own. *)
Definition own_blade : Type := (store * blade)%type.

(** The attributes of a propeller; [_solid] and [_shape] exist once computed
    (propeller.py 80-116).  [shaft_solid] and [blades_solid] are read by the OBJ
    exports but set nowhere in the class. *)
Record propeller : Type := mkProp {
  shaft : shaft_t; blades : list own_blade;
  cached_solid : option solid; cached_shape : option solid;
  shaft_solid : option solid; blades_solid : option solid }.

(** copy.deepcopy(blade) (propeller.py 46). *)
Definition deepcopy (st : store) (b : blade) : own_blade := (st, b).
(** blade.rotate(rad_angle=a); the axis defaults to 'x' (blade.py 369). *)
Definition rotate_own (a : R) (o : own_blade) : res own_blade :=
  let '(st, b) := o in
  match blade_rotate None (Some a) "x" b with
  | (b', Ok _) => Ok (st, b')
  | (_, Err e) => Err e
  end.
(** The loop over enumerate(self.blades) (propeller.py 47-50). *)
Fixpoint rotate_all (n : R) (i : nat) (l : list own_blade) : res (list own_blade) :=
  match l with
  | [] => Ok []
  | o :: l' =>
      let* o' := rotate_own (INR i * 2 * PI / n) o in
      let* r := rotate_all n (S i) l' in Ok (o' :: r)
  end.

(** propeller.py 41-50.  Returns the caller's profiles and blade as they are left,
    and the new propeller.  range of a float raises TypeError, of a negative
    number it is empty. *)
Definition new_propeller (surface : list (list pt3) -> res face) (sh : shaft_t)
    (st : store) (b : blade) (n : pynum) (refl : bool) : store * blade * res propeller :=
  match build surface refl st b with
  | (st', b', Err e) => (st', b', Err e)
  | (st', b', Ok _) =>
      match n with
      | PyFloat _ => (st', b', Err TypeError)
      | PyInt z =>
          (st', b',
           let* bs := rotate_all (IZR z) 0 (repeat (deepcopy st' b') (Z.to_nat z)) in
           Ok (mkProp sh bs None None None None))
      end
  end.

(** The four faces of a blade in a given order; None is rejected by
    OpenCASCADE's argument check (TypeError). *)
Fixpoint present (l : list (option face)) : res (list face) :=
  match l with
  | [] => Ok []
  | None :: _ => Err TypeError
  | Some f :: l' => let* r := present l' in Ok (f :: r)
  end.
(** Blade.generate_solid (blade.py 785-818). *)
Definition blade_solid (k : cad) (o : own_blade) : res solid :=
  let b := snd o in
  let* fs := present [upper_face b; lower_face b; tip_face b; root_face b] in make_solid k fs.
(** make_compound (propeller.py 17-27). *)
Fixpoint make_compound (l : list (option solid)) : res (list solid) :=
  match l with
  | [] => Ok []
  | None :: _ => Err ValueError
  | Some s :: l' => let* r := make_compound l' in Ok (s :: r)
  end.

Definition set_solid (s : solid) (p : propeller) : propeller :=
  mkProp (shaft p) (blades p) (Some s) (cached_shape p) (shaft_solid p) (blades_solid p).
Definition set_shape (s : solid) (p : propeller) : propeller :=
  mkProp (shaft p) (blades p) (cached_solid p) (Some s) (shaft_solid p) (blades_solid p).

(** The property solid (propeller.py 93-116). *)
Definition get_solid (k : cad) (p : propeller) : propeller * res solid :=
  match cached_solid p with
  | Some s => (p, Ok s)
  | None =>
      match (let* s := make_shaft k (shaft p) in
             let* bs := mapM (blade_solid k) (blades p) in
             let* c := make_compound (map Some bs) in
             match fuse k s c with Some f => Ok f | None => Err RuntimeError end) with
      | Ok f => (set_solid f p, Ok f)
      | Err e => (p, Err e)
      end
  end.
(** The property shape (propeller.py 79-91). *)
Definition get_shape (k : cad) (p : propeller) : propeller * res solid :=
  match cached_shape p with
  | Some s => (p, Ok s)
  | None =>
      match get_solid k p with
      | (p', Err e) => (p', Err e)
      | (p', Ok s) => (set_shape (sew k s) p', Ok (sew k s))
      end
  end.

(** What a file contains. *)
Inductive content : Type :=
| Iges (s : solid) | Stl (s : solid) | StlCompound (l : list solid) | Obj (o : obj).
(** What an access returns. *)
Inductive value : Type := Nothing | Solid (s : solid).
Definition outcome : Type := (propeller * list (string * content) * res value)%type.

(** write_stl_file raises IOError if there is no file afterwards; the writers of
    IGES files and of tmp_stl return a status which is ignored.  The handlers
    which open a file raise IOError themselves. *)
Definition save (k : cad) (name : string) (c : content) : list (string * content) * res value :=
  if writable k name then ([(name, c)], Ok Nothing) else ([], Err IOError).
Definition save_quietly (k : cad) (name : string) (c : content) : list (string * content) :=
  if writable k name then [(name, c)] else [].

(** propeller.py 119-130. *)
Definition export_iges (k : cad) (name : string) (p : propeller) : outcome :=
  match get_shape k p with
  | (p', Ok s) => (p', save_quietly k name (Iges s), Ok Nothing)
  | (p', Err e) => (p', [], Err e)
  end.
(** propeller.py 132-141. *)
Definition export_stl (k : cad) (name : string) (p : propeller) : outcome :=
  match get_shape k p with
  | (p', Ok s) => let '(fs, r) := save k name (Stl s) in (p', fs, r)
  | (p', Err e) => (p', [], Err e)
  end.
(** propeller.py 53-77: always from the present blades; upper, lower, root, tip. *)
Definition tmp_stl (k : cad) (name : string) (p : propeller) : outcome :=
  match mapM (fun o : own_blade => let b := snd o in
           let* fs := present [upper_face b; lower_face b; root_face b; tip_face b] in Ok (sew_faces k fs)) (blades p) with
  | Ok l => (p, save_quietly k name (StlCompound l), Ok Nothing)
  | Err e => (p, [], Err e)
  end.
(** An attribute which may be missing. *)
Definition attribute (o : option solid) : res solid :=
  match o with Some s => Ok s | None => Err AttributeError end.
(** write_stl_file(solid, temporary) followed by STLHandler.read (propeller.py
    165-168, 264-265). *)
Definition through_stl (k : cad) (name : string) (o : option solid) : list (string * content) * res mesh :=
  match attribute o with
  | Err e => ([], Err e)
  | Ok s => match save k name (Stl s) with
            | (fs, Ok _) => (fs, mesh_of k s)
            | (fs, Err e) => (fs, Err e)
            end
  end.
(** propeller.py 143-254. *)
Definition generate_obj (k : cad) (name selector : string) (kw : list (string * string)) (p : propeller) : outcome :=
  match through_stl k "/tmp/temp_shaft.stl" (shaft_solid p) with
  | (f1, Err e) => (p, f1, Err e)
  | (f1, Ok sh) =>
      match through_stl k "/tmp/temp_blades.stl" (blades_solid p) with
      | (f2, Err e) => (p, f1 ++ f2, Err e)
      | (f2, Ok bl) =>
          match merge_meshes sh bl selector kw with
          | Err e => (p, f1 ++ f2, Err e)
          | Ok o => let '(f3, r) := save k name (Obj o) in (p, f1 ++ f2 ++ f3, r)
          end
      end
  end.
(** propeller.py 256-303. *)
Definition generate_obj_blades (k : cad) (name : string) (p : propeller) : outcome :=
  match through_stl k "/tmp/temp_blades.stl" (blades_solid p) with
  | (f1, Err e) => (p, f1, Err e)
  | (f1, Ok bl) =>
      match blades_object bl with
      | Err e => (p, f1, Err e)
      | Ok o => let '(f2, r) := save k name (Obj o) in (p, f1 ++ f2, r)
      end
  end.
(** propeller.py 305-311. *)
Definition display (k : cad) (p : propeller) : outcome :=
  match window k with
  | Err e => (p, [], Err e)
  | Ok _ => match get_shape k p with
            | (p', Ok _) => (p', [], Ok Nothing)
            | (p', Err e) => (p', [], Err e)
            end
  end.

(** The public accesses, and the attributes a user may assign. *)
Inductive access : Type :=
| Solid_ | Shape_ | ExportIges (name : string) | ExportStl (name : string) | TmpStl (name : string)
| GenerateObj (name selector : string) (kw : list (string * string)) | GenerateObjBlades (name : string) | Display
| AssignBlades (l : list own_blade) | AssignShaft (s : shaft_t)
| AssignShaftSolid (s : solid) | AssignBladesSolid (s : solid).

Definition as_value (x : propeller * res solid) : outcome :=
  match x with
  | (p, Ok s) => (p, [], Ok (Solid s))
  | (p, Err e) => (p, [], Err e)
  end.
(** One access.  Changing a blade in place is an assignment of the changed list. *)
Definition perform (k : cad) (a : access) (p : propeller) : outcome :=
  match a with
  | Solid_ => as_value (get_solid k p)
  | Shape_ => as_value (get_shape k p)
  | ExportIges f => export_iges k f p
  | ExportStl f => export_stl k f p
  | TmpStl f => tmp_stl k f p
  | GenerateObj f s kw => generate_obj k f s kw p
  | GenerateObjBlades f => generate_obj_blades k f p
  | Display => display k p
  | AssignBlades l => (mkProp (shaft p) l (cached_solid p) (cached_shape p) (shaft_solid p) (blades_solid p), [], Ok Nothing)
  | AssignShaft s => (mkProp s (blades p) (cached_solid p) (cached_shape p) (shaft_solid p) (blades_solid p), [], Ok Nothing)
  | AssignShaftSolid s => (mkProp (shaft p) (blades p) (cached_solid p) (cached_shape p) (Some s) (blades_solid p), [], Ok Nothing)
  | AssignBladesSolid s => (mkProp (shaft p) (blades p) (cached_solid p) (cached_shape p) (shaft_solid p) (Some s), [], Ok Nothing)
  end.
End WithSolids.
