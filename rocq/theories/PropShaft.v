(** C64, C65, C75: shafts and interpolated faces. *)
From Coq Require Import Reals List String Ascii.
From Coq Require Import List.
From Verif Require Import Base BladeSpec ShaftModel ShaftSpec ShaftProofs.
Import ListNotations.

Theorem C64_stl : forall status shape solid (k : kernel status shape solid) f, has_extension f "stl" ->
  (forall x, read_stl k f = Err x -> shaft_solid k f = ([Stl f], Err x)) /\
  (forall s, read_stl k f = Ok s -> fst (shaft_solid k f) = [Stl f; Sewn] /\
     forall v, snd (shaft_solid k f) = Ok v <-> exists sh, sew k (1 / 100)%R s = Ok sh /\ make_solid k sh = Ok (Some v)).
Proof. exact shaft_stl. Qed.
Print Assumptions C64_stl.
Theorem C64_iges : forall status shape solid (k : kernel status shape solid) f, has_extension f "iges" ->
  (forall x, snd (read_iges k f) = Err x -> shaft_solid k f = ([Iges f], Err x)) /\
  (forall s, snd (read_iges k f) = Ok s -> fst (shaft_solid k f) = [Iges f; Sewn] /\
     forall v, snd (shaft_solid k f) = Ok v <-> exists sh, sew k (1 / 100)%R s = Ok sh /\ make_solid k sh = Ok (Some v)).
Proof. exact shaft_iges. Qed.
Print Assumptions C64_iges.
Theorem C64_other : forall status shape solid (k : kernel status shape solid) f, ~ has_extension f "stl" -> ~ has_extension f "iges" ->
  shaft_solid k f = ([], Err OtherException).
Proof. exact shaft_other. Qed.
Print Assumptions C64_other.
Theorem C64_not_done : forall status shape solid (k : kernel status shape solid) f s sh,
  (has_extension f "stl" /\ read_stl k f = Ok s) \/ (has_extension f "iges" /\ snd (read_iges k f) = Ok s) ->
  sew k (1 / 100)%R s = Ok sh -> make_solid k sh = Ok None -> snd (shaft_solid k f) = Err RuntimeError.
Proof. exact shaft_not_done. Qed.
Print Assumptions C64_not_done.
(** The status returned by ReadFile has no influence. *)
Theorem C64_status_ignored : forall status shape solid (k k' : kernel status shape solid) f,
  (forall g, read_stl k g = read_stl k' g) -> (forall g, snd (read_iges k g) = snd (read_iges k' g)) ->
  (forall t s, sew k t s = sew k' t s) -> (forall s, make_solid k s = make_solid k' s) -> shaft_solid k f = shaft_solid k' f.
Proof. exact shaft_status. Qed.
Print Assumptions C64_status_ignored.
Theorem C64_splitext : forall f, let (root, ext) := splitext (list_ascii_of_string f) in
  (root ++ ext)%list = list_ascii_of_string f /\ (ext = [] \/ exists e, ext = "."%char :: list_ascii_of_string e /\ has_extension f e).
Proof. exact splitext_parts. Qed.
Print Assumptions C64_splitext.
Theorem C64_extension_unique : forall f e e', has_extension f e -> has_extension f e' -> e = e'.
Proof. exact extension_unique. Qed.
Print Assumptions C64_extension_unique.
Example C64_names : has_extension "hub.stl" "stl" /\ has_extension "a.b/hub.v2.iges" "iges" /\ has_extension "a/..x.stl" "stl" /\
  ~ has_extension ".stl" "stl" /\ ~ has_extension "a/..stl" "stl" /\ ~ has_extension "hub.STL" "stl" /\ ~ has_extension "hub.stl/x" "stl" /\ ~ has_extension "hub.igs" "iges".
Proof. exact names_example. Qed.
Example C64_example : shaft_solid (mkKernel (status := unit) (fun f => Ok f) (fun f => (tt, Err IOError)) (fun _ s => Ok s) (fun s => Ok (Some s))) "a.b/hub.v2.stl"
    = ([Stl "a.b/hub.v2.stl"; Sewn], Ok "a.b/hub.v2.stl"%string) /\
  shaft_solid (mkKernel (status := unit) (solid := string) (fun f => Ok f) (fun f => (tt, Err IOError)) (fun _ s => Ok s) (fun s => Ok (Some s))) "a/hub.iges"
    = ([Iges "a/hub.iges"], Err IOError) /\
  shaft_solid (mkKernel (status := unit) (solid := string) (fun f => Ok f) (fun f => (tt, Err IOError)) (fun _ s => Ok s) (fun s => Ok None)) "hub.stl"
    = ([Stl "hub.stl"; Sewn], Err RuntimeError).
Proof. exact shaft_example. Qed.

Open Scope R_scope.
(** An array with one block of three rows per section: the surface through them. *)
Theorem C65_sections : forall edge face curve through n rows deg tol, same_length n rows ->
  fst (interpolated_face edge face curve through (blocks n rows) deg tol) = [List.length rows; 3%nat; n] /\
  forall f, snd (interpolated_face edge face curve through (blocks n rows) deg tol) = Ok f <-> lofted curve through deg tol rows f.
Proof. exact face_sections. Qed.
Print Assumptions C65_sections.
Theorem C65_single : forall edge face curve through row deg tol f,
  snd (interpolated_face edge face curve through (block row) deg tol) = Ok f <-> lofted curve through deg tol [row] f.
Proof. exact face_single. Qed.
Print Assumptions C65_single.
Theorem C65_rejected : forall edge face curve through pts deg tol,
  (forall n, shape_of pts <> [3%nat; n]) -> (forall m n, shape_of pts <> [m; 3%nat; n]) ->
  interpolated_face edge face curve through pts deg tol = (shape_of pts, Err ValueError).
Proof. exact face_rejected. Qed.
Print Assumptions C65_rejected.
(** Points as rows of a 2-D array are rejected unless there are exactly three of
    them; then the coordinates are taken for the points. *)
Theorem C65_points_as_rows : forall edge face curve through row deg tol, List.length row <> 3%nat ->
  interpolated_face edge face curve through (by_rows row) deg tol = ([List.length row; 3%nat], Err ValueError).
Proof. exact face_rows_rejected. Qed.
Print Assumptions C65_points_as_rows.
Theorem C65_three_points_as_rows : forall edge face curve through p q r deg tol f,
  snd (interpolated_face edge face curve through (by_rows [p; q; r]) deg tol) = Ok f <->
  lofted curve through deg tol [[(coordinate 0 p, coordinate 0 q, coordinate 0 r); (coordinate 1 p, coordinate 1 q, coordinate 1 r); (coordinate 2 p, coordinate 2 q, coordinate 2 r)]] f.
Proof. exact face_by_rows. Qed.
Print Assumptions C65_three_points_as_rows.
Theorem C65_no_sections : forall edge face curve through n deg tol, (exists made, through tol deg [] = Ok made) ->
  snd (interpolated_face edge face curve through (blocks n []) deg tol) = Err NameError.
Proof. exact face_no_sections. Qed.
Print Assumptions C65_no_sections.
Example C65_example : exists f,
  snd (interpolated_face (list pt3) (list pt3 * list (list pt3)) (fun _ l => Ok l) (fun _ _ l => Ok (fun e => Ok (e, l)))
    (blocks 2 [[(0, 1, 2); (3, 4, 5)]; [(6, 7, 8); (9, 10, 11)]]) 1 (1 / 1000000)) = Ok f /\
  f = ([(0, 1, 2); (3, 4, 5)], [[(0, 1, 2); (3, 4, 5)]; [(6, 7, 8); (9, 10, 11)]]).
Proof. exact face_example. Qed.

Theorem C75_cylinder : forall rd ht ox oy oz d1 d2 d3, 0 < rd -> 0 < ht -> (d1, d2, d3) <> (0, 0, 0) ->
  exists S, cylinder_solid (new_cylinder (Some rd) (Some ht) (Some [d1; d2; d3]) (Some [ox; oy; oz])) = Ok S /\
    forall p, S p <-> in_cylinder (ox, oy, oz) (d1, d2, d3) rd ht p.
Proof. exact cylinder_spec. Qed.
Print Assumptions C75_cylinder.
Theorem C75_default : exists S, cylinder_solid (new_cylinder None None None None) = Ok S /\
  forall x y z, S (x, y, z) <-> 0 <= x <= 1 /\ y * y + z * z <= 1.
Proof. exact cylinder_default. Qed.
Print Assumptions C75_default.
(** The length of the orientation does not matter, its sense does. *)
Theorem C75_scaled_orientation : forall o x y z k r h p, 0 < k -> in_cylinder o (k * x, k * y, k * z) r h p <-> in_cylinder o (x, y, z) r h p.
Proof. exact cylinder_spec_scale. Qed.
Print Assumptions C75_scaled_orientation.
Theorem C75_opposite_orientation : forall o x y z r h p, let n := sqrt (x * x + y * y + z * z) in 0 < n ->
  in_cylinder o (- x, - y, - z) r h p <-> in_cylinder (along o (x, y, z) (- (h / n))) (x, y, z) r h p.
Proof. exact cylinder_opposite. Qed.
Print Assumptions C75_opposite_orientation.
Theorem C75_symmetric : forall x0 d r h t p, d <> 0 ->
  in_cylinder (x0, 0, 0) (d, 0, 0) r h (turn "x" t p) <-> in_cylinder (x0, 0, 0) (d, 0, 0) r h p.
Proof. exact cylinder_turn. Qed.
Print Assumptions C75_symmetric.
Theorem C75_errors : forall rd ht o d,
  (List.length d = 3%nat -> Forall (fun x => x = 0) d -> List.length o = 3%nat -> cylinder_solid (new_cylinder rd ht (Some d) (Some o)) = Err RuntimeError) /\
  (o <> [] -> List.length o <> 3%nat -> cylinder_solid (new_cylinder rd ht (Some d) (Some o)) = Err TypeError) /\
  (List.length o = 3%nat -> d <> [] -> List.length d <> 3%nat -> cylinder_solid (new_cylinder rd ht (Some d) (Some o)) = Err TypeError).
Proof. exact cylinder_bad. Qed.
Print Assumptions C75_errors.
Example C75_example : in_cylinder (1, 0, 0) (0, 4, 3) (1 / 2) 3 (1 + 1 / 2, 8 / 5, 6 / 5) /\ ~ in_cylinder (1, 0, 0) (0, 4, 3) (1 / 2) 3 (1, 4, 3).
Proof. exact cylinder_example. Qed.
