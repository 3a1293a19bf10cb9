(** Model of blade.py (class Blade): construction, the bottom-up section
    transformations, the CAD faces and the rigid motions of a built blade.

    The sections are *references* (indices into a store of profiles), because
    apply_transformations mutates the profile objects in place and the same
    object may be used at several radii.  A CAD face is modelled by the set of
    its points; how OpenCASCADE interpolates a face through a grid of points is
    the parameter [surface].  Methods which mutate and may raise return the
    state reached together with the outcome. *)
From Coq Require Import Reals List ZArith String.
From Verif Require Import Base RbfModel ProfileModel.
Import ListNotations.
Open Scope bool_scope.
Open Scope R_scope.

(** A store of profile objects, addressed by identity. *)
Definition store : Type := nat -> profile.
Definition upd (st : store) (s : nat) (p : profile) : store :=
  fun k => if Nat.eqb k s then p else st k.

(** A TopoDS_Face as the set of its points. *)
Definition face : Type := pt3 -> Prop.

(** blade.py 176-177, 274-296: the two coordinate attributes: empty lists after
    reset; two arrays of shape (sections, 3, points) once generated, here a list
    of sections of points; [Failed] if generating them raised half-way (the
    attributes then hold partial lists, about which nothing is claimed). *)
Inductive coords : Type :=
| NoCoords
| Failed
| Built (up down : list (list pt3)).

(** blade.py 155-182: the attributes of a blade.  Simplification: numpy arrays
    are one-dimensional. *)
Record blade : Type := mkBlade {
  sections : list nat; radii : list R; chords : list R; pitch : list R;
  rake : list R; skew : list R;
  thickness : option (list R); camber : option (list R);
  coordinates : coords;
  upper_face : option face; lower_face : option face;
  tip_face : option face; root_face : option face }.

Definition set_coords (c : coords) (b : blade) : blade :=
  mkBlade (sections b) (radii b) (chords b) (pitch b) (rake b) (skew b)
          (thickness b) (camber b) c
          (upper_face b) (lower_face b) (tip_face b) (root_face b).
Definition set_faces (u l t r : option face) (b : blade) : blade :=
  mkBlade (sections b) (radii b) (chords b) (pitch b) (rake b) (skew b)
          (thickness b) (camber b) (coordinates b) u l t r.

(** blade.py 172-182. *)
Definition reset (b : blade) : blade :=
  set_faces None None None None (set_coords NoCoords b).

(** blade.py 209-231: equal shapes; thickness and camber are not checked. *)
Definition check_params (b : blade) : bool :=
  let n := List.length (sections b) in
  Nat.eqb n (List.length (radii b)) && Nat.eqb n (List.length (chords b)) &&
  Nat.eqb n (List.length (pitch b)) && Nat.eqb n (List.length (rake b)) &&
  Nat.eqb n (List.length (skew b)).

(** blade.py 155-170. *)
Definition new_blade (ss : list nat) (rs cs ps ks sk : list R)
    (th ca : option (list R)) : res blade :=
  let b := mkBlade ss rs cs ps ks sk th ca NoCoords None None None None in
  if check_params b then Ok (reset b) else Err ValueError.

(** blade.py 241: one entry of pitch_angles.  For r = 0 numpy gives an infinite
    or undefined quotient. *)
Definition pitch_angle_at (b : blade) (i : nat) : res R :=
  let* p := item (pitch b) i in
  let* r := item (radii b) i in
  let* q := fdiv p (2 * PI * r) in
  Ok (atan q).
(** blade.py 233-241. *)
Definition pitch_angles (b : blade) : res (list R) :=
  mapM (pitch_angle_at b) (seq 0 (List.length (pitch b))).

(** blade.py 252-253: one entry of induced_rake. *)
Definition induced_rake_at (b : blade) (i : nat) : res R :=
  let* r := item (radii b) i in
  let* s := item (skew b) i in
  let* a := pitch_angle_at b i in
  Ok (r * radians s * tan a).
(** blade.py 243-253. *)
Definition induced_rake (b : blade) : res (list R) :=
  mapM (induced_rake_at b) (seq 0 (List.length (radii b))).

(** blade.py 333-365: the statements applied to section [i], in order.
    set_camber_line_max is skipped for the last section. *)
Definition section_steps (b : blade) (refl : bool) (i : nat)
    : list (profile -> res profile) :=
  [ (fun p => let* ref := reference_point p in
              Ok (translate (- fst ref, - snd ref) p));
    (fun p => let* c := item (chords b) i in scale c true p) ]
  ++ match thickness b with
     | None => []
     | Some ts => [ fun p => let* t := item ts i in set_thickness_max t p ]
     end
  ++ match camber b with
     | None => []
     | Some cs =>
         if Nat.ltb i (List.length (sections b) - 1)
         then [ fun p => let* c := item cs i in set_camber_line_max c p ]
         else []
     end
  ++ (if refl then [ fun p => Ok (reflect p) ] else [])
  ++ [ (fun p => let* a := pitch_angle_at b i in
                 rotate (Some (PI / 2 - a)) None p);
       (fun p => let* r := item (radii b) i in
                 let* s := item (skew b) i in
                 Ok (translate (0, - r * radians s) p));
       (fun p => let* k := item (rake b) i in
                 let* ir := induced_rake_at b i in
                 Ok (translate (- (k + ir), 0) p)) ].

(** Statements in sequence on one object; on an exception the object keeps the
    value reached. *)
Fixpoint run_steps (l : list (profile -> res profile)) (p : profile)
    : profile * res unit :=
  match l with
  | [] => (p, Ok tt)
  | f :: l' => match f p with
               | Ok q => run_steps l' q
               | Err e => (p, Err e)
               end
  end.

(** blade.py 333-365: [for i in range(self.n_sections)]. *)
Fixpoint transform_sections (b : blade) (refl : bool) (is : list nat) (st : store)
    : store * res unit :=
  match is with
  | [] => (st, Ok tt)
  | i :: is' =>
      match nth_error (sections b) i with
      | None => (st, Err IndexError)
      | Some s =>
          let '(p, r) := run_steps (section_steps b refl i) (st s) in
          let st' := upd st s p in
          match r with
          | Ok _ => transform_sections b refl is' st'
          | Err e => (st', Err e)
          end
      end
  end.

(** blade.py 279-293: one surface laid on the cylinder of radius [r].  Division
    by a zero radius gives nan; np.array of rows of different length raises. *)
Definition cylinder_point (r x y : R) : pt3 := (x, r * sin (y / r), r * cos (y / r)).
Definition cylinder_section (r : R) (xs ys : list R) : res (list pt3) :=
  if Req_EM_T r 0 then Err NonFinite else vzip (cylinder_point r) xs ys.

(** [np.stack] (blade.py 295-296, 198-206): at least one array, equal shapes. *)
Definition stackable (l : list (list pt3)) : bool :=
  match l with
  | [] => false
  | s :: l' => forallb (fun t => Nat.eqb (List.length t) (List.length s)) l'
  end.

(** blade.py 255-296: sections and radii are traversed from last to first. *)
Definition cylinder_coords (st : store) (b : blade)
    : res (list (list pt3) * list (list pt3)) :=
  let* ud := mapM (fun sr : nat * R =>
        let p := st (fst sr) in
        let* u := cylinder_section (snd sr) (xup p) (yup p) in
        let* d := cylinder_section (snd sr) (xdown p) (ydown p) in
        Ok (u, d)) (combine (rev (sections b)) (rev (radii b))) in
  let up := map fst ud in
  let down := map snd ud in
  if stackable down && stackable up then Ok (up, down) else Err ValueError.

(** blade.py 255-296 as a mutation of the blade. *)
Definition planar_to_cylindrical (st : store) (b : blade) : blade * res unit :=
  match cylinder_coords st b with
  | Ok (up, down) => (set_coords (Built up down) b, Ok tt)
  | Err e => (set_coords Failed b, Err e)
  end.

(** blade.py 298-367. *)
Definition apply_transformations (refl : bool) (st : store) (b : blade)
    : store * blade * res unit :=
  match transform_sections b refl (seq 0 (List.length (sections b))) st with
  | (st', Err e) => (st', b, Err e)
  | (st', Ok _) => let '(b', r) := planar_to_cylindrical st' b in (st', b', r)
  end.

(** blade.py 169. *)
Definition conversion_factor : R := 1000.

(** [k * array] on a grid of points (blade.py 195-196, 564-565). *)
Definition scale3 (k : R) (p : pt3) : pt3 :=
  let '(x, y, z) := p in (k * x, k * y, k * z).
Definition grid_map (f : pt3 -> pt3) (g : list (list pt3)) : list (list pt3) :=
  map (map f) g.

(** blade.py 198-206: the two boundary grids [np.stack(\[up\[k\], down\[k\]\])]. *)
Definition pair_grid (s t : res (list pt3)) : res (list (list pt3)) :=
  let* a := s in let* b := t in
  if stackable [a; b] then Ok [a; b] else Err ValueError.

Section WithCad.
(** intepolatedface.py: the face through a grid of points, or the exception
    raised by OpenCASCADE. *)
Variable surface : list (list pt3) -> res face.

(** blade.py 198-206: faces are assigned one after the other. *)
Definition make_faces (up down : list (list pt3)) (b : blade) : blade * res unit :=
  let up' := grid_map (scale3 conversion_factor) up in
  let down' := grid_map (scale3 conversion_factor) down in
  match surface up' with
  | Err e => (b, Err e)
  | Ok u =>
  let b1 := set_faces (Some u) (lower_face b) (tip_face b) (root_face b) b in
  match surface down' with
  | Err e => (b1, Err e)
  | Ok l =>
  let b2 := set_faces (Some u) (Some l) (tip_face b) (root_face b) b in
  match (let* g := pair_grid (final up') (final down') in surface g) with
  | Err e => (b2, Err e)
  | Ok t =>
  let b3 := set_faces (Some u) (Some l) (Some t) (root_face b) b in
  match (let* g := pair_grid (first up') (first down') in surface g) with
  | Err e => (b3, Err e)
  | Ok r => (set_faces (Some u) (Some l) (Some t) (Some r) b, Ok tt)
  end end end end.

(** blade.py 184-207. *)
Definition build (refl : bool) (st : store) (b : blade) : store * blade * res unit :=
  match apply_transformations refl st b with
  | (st', b', Err e) => (st', b', Err e)
  | (st', b', Ok _) =>
      match coordinates b' with
      | Built up down => let '(b'', r) := make_faces up down b' in (st', b'', r)
      | _ => (st', b', Err Unmodelled)
      end
  end.
End WithCad.

(** BRepBuilderAPI_Transform(face, trsf, True, True): the image of the face. *)
Definition image (t : pt3 -> pt3) (f : face) : face :=
  fun q => exists p, f p /\ q = t p.

(** The loops over the four faces (blade.py 447-478, 537-555, 567-588).  A face
    which is None is rejected by OpenCASCADE's argument check (TypeError). *)
Definition transform_faces (t : pt3 -> pt3) (b : blade) : blade * res unit :=
  match upper_face b with
  | None => (b, Err TypeError)
  | Some u =>
  let b1 := set_faces (Some (image t u)) (lower_face b) (tip_face b) (root_face b) b in
  match lower_face b with
  | None => (b1, Err TypeError)
  | Some l =>
  let b2 := set_faces (Some (image t u)) (Some (image t l)) (tip_face b) (root_face b) b in
  match tip_face b with
  | None => (b2, Err TypeError)
  | Some tp =>
  let b3 := set_faces (Some (image t u)) (Some (image t l)) (Some (image t tp)) (root_face b) b in
  match root_face b with
  | None => (b3, Err TypeError)
  | Some r => (set_faces (Some (image t u)) (Some (image t l)) (Some (image t tp))
                         (Some (image t r)) b, Ok tt)
  end end end end.

(** 3x3 matrix times point (np.einsum, blade.py 442-445). *)
Definition mat3 : Type := (pt3 * pt3 * pt3)%type.
Definition dot3 (a b : pt3) : R :=
  let '(x, y, z) := a in let '(u, v, w) := b in x * u + y * v + z * w.
Definition mul3 (m : mat3) (p : pt3) : pt3 :=
  let '(a, b, c) := m in (dot3 a p, dot3 b p, dot3 c p).

(** blade.py 428-440. *)
Definition axis_matrix (c s : R) (axis : string) : res mat3 :=
  if String.eqb axis "x" then Ok ((1, 0, 0), (0, c, - s), (0, s, c)) else
  if String.eqb axis "y" then Ok ((c, 0, - s), (0, 1, 0), (s, 0, c)) else
  if String.eqb axis "z" then Ok ((c, - s, 0), (s, c, 0), (0, 0, 1)) else
  Err ValueError.

(** Vector algebra of the gp package. *)
Definition add3 (a b : pt3) : pt3 :=
  let '(x, y, z) := a in let '(u, v, w) := b in (x + u, y + v, z + w).
Definition sub3 (a b : pt3) : pt3 :=
  let '(x, y, z) := a in let '(u, v, w) := b in (x - u, y - v, z - w).
Definition cross3 (a b : pt3) : pt3 :=
  let '(x, y, z) := a in let '(u, v, w) := b in
  (y * w - z * v, z * u - x * w, x * v - y * u).

(** gp_Trsf.SetRotation(gp_Ax1(origin, d), t) (blade.py 456-469): Rodrigues'
    formula, right-handed about the unit vector [d]. *)
Definition occ_rotation (d : pt3) (t : R) (p : pt3) : pt3 :=
  add3 (add3 (scale3 (cos t) p) (scale3 (sin t) (cross3 d p)))
       (scale3 (dot3 d p * (1 - cos t)) d).
(** blade.py 457-463. *)
Definition axis_direction (axis : string) : res pt3 :=
  if String.eqb axis "y" then Ok (0, 1, 0) else
  if String.eqb axis "z" then Ok (0, 0, 1) else
  if String.eqb axis "x" then Ok (1, 0, 0) else
  Err ValueError.

(** blade.py 409-424: validation of the angles; the angle in radians. *)
Definition blade_angle (deg rad : option R) : res R :=
  match deg, rad with
  | Some _, Some _ => Err ValueError
  | None, Some a => Ok a
  | Some d, None => Ok (radians d)
  | None, None => Err ValueError
  end.

(** blade.py 369-478. *)
Definition blade_rotate (deg rad : option R) (axis : string) (b : blade)
    : blade * res unit :=
  match coordinates b with
  | NoCoords => (b, Err ValueError)
  | Failed => (b, Err Unmodelled)
  | Built up down =>
      match (let* a := blade_angle deg rad in
             let* m := axis_matrix (cos a) (sin a) axis in
             let* d := axis_direction axis in Ok (a, m, d)) with
      | Err e => (b, Err e)
      | Ok (a, m, d) =>
          let b1 := set_coords (Built (grid_map (mul3 m) up) (grid_map (mul3 m) down)) b in
          transform_faces (occ_rotation d a) b1
      end
  end.

(** blade.py 557-588.  Without coordinates the lists cannot be multiplied by a
    float (by an int the first face, None, is rejected): TypeError.  A zero
    factor is outside the model (degenerate OpenCASCADE transformation). *)
Definition blade_scale (k : R) (b : blade) : blade * res unit :=
  match coordinates b with
  | NoCoords => (b, Err TypeError)
  | Failed => (b, Err Unmodelled)
  | Built up down =>
      if Req_EM_T k 0 then (b, Err Unmodelled) else
      let b1 := set_coords (Built (grid_map (scale3 k) up) (grid_map (scale3 k) down)) b in
      transform_faces (scale3 k) b1
  end.

(** gp_Pnt( *l ) (blade.py 507-533): exactly three numbers.  No coordinates at
    all (the default constructors of gp_Pnt and gp_Dir): Unmodelled. *)
Definition gp_pnt (l : list R) : res pt3 :=
  match l with [x; y; z] => Ok (x, y, z) | [] => Err Unmodelled | _ => Err TypeError end.
(** gp_Dir( *l ) and gp_Dir(gp_Vec): normalised; construction error for the
    zero vector (threshold 1e-290 idealised to 0). *)
Definition gp_dir (v : pt3) : res pt3 :=
  if Req_EM_T (dot3 v v) 0 then Err RuntimeError
  else Ok (scale3 (/ sqrt (dot3 v v)) v).

(** gp_Trsf.SetMirror(gp_Ax2(o, n)) (blade.py 537-542): symmetry with respect to
    the plane through [o] with unit normal [n]. *)
Definition occ_mirror (o n : pt3) (p : pt3) : pt3 :=
  sub3 p (scale3 (2 * dot3 (sub3 p o) n) n).

(** blade.py 507-516 and 517-526: plane through three points. *)
Definition plane_of_points (a b c : list R) : res (pt3 * pt3) :=
  let* p1 := gp_pnt a in let* p2 := gp_pnt b in let* p3 := gp_pnt c in
  let* n := gp_dir (cross3 (sub3 p2 p1) (sub3 p3 p2)) in Ok (p1, n).
(** blade.py 527-533: plane from a point and a normal. *)
Definition plane_of_normal (a v : list R) : res (pt3 * pt3) :=
  let* p := gp_pnt a in let* w := gp_pnt v in let* n := gp_dir w in Ok (p, n).

(** Keyword arguments in call order. *)
Definition kwargs : Type := list (string * list R).
Definition kwarg (k : string) (kw : kwargs) : res (list R) :=
  match find (fun e => String.eqb (fst e) k) kw with
  | Some e => Ok (snd e) | None => Err KeyError end.
(** blade.py 496. *)
Definition admissible : list string := ["point1"; "point2"; "point3"; "point"; "normal"]%string.

(** blade.py 493-535: from the arguments to the plane. *)
Definition mirror_plane (args : list (list R)) (kw : kwargs) : res (pt3 * pt3) :=
  let n := (List.length args + List.length kw)%nat in
  if negb (Nat.eqb n 2 || Nat.eqb n 3) then Err ValueError else
  if existsb (fun e => negb (existsb (String.eqb (fst e)) admissible)) kw
  then Err ValueError else
  match args with
  | [a; b; c] => plane_of_points a b c
  | _ =>
    if (if list_eq_dec String.string_dec (map fst kw) ["point1"; "point2"; "point3"]%string
        then true else false)
    then let* a := kwarg "point1" kw in let* b := kwarg "point2" kw in
         let* c := kwarg "point3" kw in plane_of_points a b c
    else match args with
    | [a; v] => plane_of_normal a v
    | _ =>
      if (if list_eq_dec String.string_dec (map fst kw) ["point"; "normal"]%string then true else false)
         || (if list_eq_dec String.string_dec (map fst kw) ["normal"; "point"]%string then true else false)
      then let* a := kwarg "point" kw in let* v := kwarg "normal" kw in plane_of_normal a v
      else Err ValueError
    end
  end.

(** blade.py 480-555: only the faces are mirrored. *)
Definition blade_mirror (args : list (list R)) (kw : kwargs) (b : blade)
    : blade * res unit :=
  match coordinates b with
  | NoCoords => (b, Err ValueError)
  | Failed => (b, Err Unmodelled)
  | Built _ _ =>
      match mirror_plane args kw with
      | Err e => (b, Err e)
      | Ok (o, n) => transform_faces (occ_mirror o n) b
      end
  end.
