(** Third model of the profile classes: a profile object with all its
    attributes, in particular the ones a method leaves behind for later calls
    (profile/baseprofile.py, customprofile.py, nacaprofile.py).  A method changes
    the object also if it raises.  The numerical work is that of ProfileModel.v,
    CustomModel.v and NacaModel.v; array identity is ignored (HeapModel.v). *)
From Coq Require Import String Reals List ZArith.
From Verif Require Import Base ProfileModel CustomModel NacaModel.
Import ListNotations.
Open Scope R_scope.

(** A line: abscissae and ordinates (baseprofile.py 312, 317, 351, 355). *)
Definition line : Type := (list R * list R)%type.
(** An attribute that no constructor creates (baseprofile.py 30-39 only describes
    it): not there, None if the caller assigned None, or a value. *)
Inductive attr (A : Type) : Type := Absent | IsNone | Is (a : A).
Arguments Absent {A}. Arguments IsNone {A}. Arguments Is {A}.

(** The class of the object with what NacaProfile keeps (nacaprofile.py 66-68). *)
Inductive class : Type := Custom | Naca (digits : string) (cosine : bool) (n : nat).

(** The attributes: the four coordinate arrays (None only if assigned so), the six
    parameters, the lines and the edges, which are always set together
    (baseprofile.py 199-200). *)
Record airfoil : Type := mkAirfoil {
  sort : class;
  a_xup : option (list R); a_xdown : option (list R); a_yup : option (list R); a_ydown : option (list R);
  stored : params;
  chord : attr line; camber : attr line;
  edges : option (pt * pt) }.

Definition with_coords (p : profile) (a : airfoil) : airfoil :=
  mkAirfoil (sort a) (Some (xup p)) (Some (xdown p)) (Some (yup p)) (Some (ydown p)) (stored a) (chord a) (camber a) (edges a).
Definition with_stored (q : params) (a : airfoil) : airfoil :=
  mkAirfoil (sort a) (a_xup a) (a_xdown a) (a_yup a) (a_ydown a) q (chord a) (camber a) (edges a).
Definition with_chord (l : attr line) (a : airfoil) : airfoil :=
  mkAirfoil (sort a) (a_xup a) (a_xdown a) (a_yup a) (a_ydown a) (stored a) l (camber a) (edges a).
Definition with_camber (l : attr line) (a : airfoil) : airfoil :=
  mkAirfoil (sort a) (a_xup a) (a_xdown a) (a_yup a) (a_ydown a) (stored a) (chord a) l (edges a).
Definition with_edges (e : pt * pt) (a : airfoil) : airfoil :=
  mkAirfoil (sort a) (a_xup a) (a_xdown a) (a_yup a) (a_ydown a) (stored a) (chord a) (camber a) (Some e).

(** The coordinates.  Simplification: computing with an attribute that was
    assigned None is outside the model. *)
Definition coords (a : airfoil) : res profile :=
  match a_xup a, a_xdown a, a_yup a, a_ydown a with
  | Some xu, Some xd, Some yu, Some yd => Ok (mkProfile xu xd yu yd)
  | _, _, _, _ => Err Unmodelled
  end.

(** Statements that read and change the object and may raise. *)
Definition act (A : Type) : Type := airfoil -> airfoil * res A.
Definition give {A} (x : A) : act A := fun a => (a, Ok x).
Definition step {A B} (m : act A) (k : A -> act B) : act B :=
  fun a => match m a with (a', Ok x) => k x a' | (a', Err e) => (a', Err e) end.
Notation "'do' x '<-' m ';' k" := (step m (fun x => k)) (at level 62, x pattern, m at next level, right associativity).
Definition evaluate {A} (r : res A) : act A := fun a => (a, r).
Definition look {A} (f : airfoil -> res A) : act A := fun a => (a, f a).
Definition change (f : airfoil -> airfoil) : act unit := fun a => (f a, Ok tt).

(** baseprofile.py 188-217.  The edges are first set to zero, then entry by
    entry. *)
Definition update_edges_ : act unit :=
  do p <- look coords;
  do _ <- change (with_edges ((0, 0), (0, 0)));
  do xu0 <- evaluate (first (xup p));
  do xd0 <- evaluate (first (xdown p));
  if Rlt_dec edge_tol (Rabs (xu0 - xd0)) then evaluate (Err ValueError) else
  do xun <- evaluate (final (xup p));
  do xdn <- evaluate (final (xdown p));
  if Rlt_dec edge_tol (Rabs (xun - xdn)) then evaluate (Err ValueError) else
  do _ <- change (with_edges ((xu0, 0), (0, 0)));
  do yu0 <- evaluate (first (yup p));
  do _ <- change (with_edges ((xu0, yu0), (xun, 0)));
  do yun <- evaluate (final (yup p));
  do ydn <- evaluate (final (ydown p));
  change (with_edges ((xu0, yu0), (xun, if Req_EM_T yun ydn then yun else 0.5 * (yun + ydn)))).

(** baseprofile.py 491-504. *)
Definition reference_point_ : act pt :=
  do _ <- update_edges_;
  do e <- look (fun a => match edges a with Some e => Ok e | None => Err AttributeError end);
  give (0.5 * (fst (fst e) + fst (snd e)), 0.5 * (snd (fst e) + snd (snd e))).

(** baseprofile.py 277-317: the line is assigned last. *)
Definition compute_chord_line_ (n : option Z) : act unit :=
  do _ <- update_edges_;
  do p <- look coords;
  do l <- evaluate (compute_chord_line n p);
  change (with_chord (Is l)).

(** baseprofile.py 319-356. *)
Definition compute_camber_line_ (n : option Z) : act unit :=
  do p <- look coords;
  do l <- evaluate (compute_camber_line n p);
  change (with_camber (Is l)).

(** baseprofile.py 391-392: [self.camber_line\[1\] *= scaling_factor]. *)
Definition scale_camber (s : R) (a : airfoil) : airfoil :=
  match camber a with
  | Is l => with_camber (Is (fst l, vscale s (snd l))) a
  | _ => a
  end.
(** baseprofile.py 358-413. *)
Definition deform_camber_line_ (percent : R) (n : option Z) : act unit :=
  do _ <- compute_camber_line_ n;
  do _ <- change (scale_camber (percent / 100 + 1));
  do p <- look coords;
  do p' <- evaluate (deform_camber_line percent n p);
  change (with_coords p').

(** baseprofile.py 545-599: no attribute is assigned. *)
Definition max_thickness_ (n : option Z) : act R :=
  do p <- look coords;
  evaluate (max_thickness n p).

(** baseprofile.py 601-638: both lines are computed and kept. *)
Definition max_camber_ (n : option Z) : act R :=
  do _ <- compute_chord_line_ n;
  do _ <- compute_camber_line_ n;
  do p <- look coords;
  evaluate (max_camber n p).

(** baseprofile.py 415-444. *)
Definition set_camber_line_max_ (camber_max : R) : act unit :=
  do old <- max_camber_ (Some 500%Z);
  do percent <- evaluate (fdiv (100 * (camber_max - old)) old);
  deform_camber_line_ percent None.

(** baseprofile.py 447-457. *)
Definition set_thickness_max_ (thickness_max : R) : act unit :=
  do p <- look coords;
  do p' <- evaluate (set_thickness_max thickness_max p);
  change (with_coords p').

(** baseprofile.py 640-712, 714-733. *)
Definition rotate_ (rad deg : option R) : act unit :=
  do p <- look coords;
  do p' <- evaluate (rotate rad deg p);
  change (with_coords p').
Definition translate_ (v : pt) : act unit :=
  do p <- look coords; change (with_coords (translate v p)).
Definition reflect_ : act unit :=
  do p <- look coords; change (with_coords (reflect p)).

(** baseprofile.py 735-759: reading the reference point sets the edges. *)
Definition scale_ (factor : R) (about : bool) : act unit :=
  if about then
    do ref <- reference_point_;
    do _ <- translate_ (- fst ref, - snd ref);
    do p <- look coords;
    do _ <- change (with_coords (scale_coords factor p));
    translate_ ref
  else
    do p <- look coords; change (with_coords (scale_coords factor p)).

(** Assignment to one of the six parameter attributes. *)
Definition set_chord_length (x : R) (q : params) : params :=
  mkParams x (chord_percentage q) (camber_max q) (camber_percentage q) (thickness_max q) (thickness_percentage q).
Definition set_chord_percentage (l : list R) (q : params) : params :=
  mkParams (chord_length q) l (camber_max q) (camber_percentage q) (thickness_max q) (thickness_percentage q).
Definition set_camber_max (x : R) (q : params) : params :=
  mkParams (chord_length q) (chord_percentage q) x (camber_percentage q) (thickness_max q) (thickness_percentage q).
Definition set_camber_percentage (l : list R) (q : params) : params :=
  mkParams (chord_length q) (chord_percentage q) (camber_max q) l (thickness_max q) (thickness_percentage q).
Definition set_thickness (x : R) (q : params) : params :=
  mkParams (chord_length q) (chord_percentage q) (camber_max q) (camber_percentage q) x (thickness_percentage q).
Definition set_thickness_percentage (l : list R) (q : params) : params :=
  mkParams (chord_length q) (chord_percentage q) (camber_max q) (camber_percentage q) (thickness_max q) l.
Definition update (f : params -> params) : act unit := change (fun a => with_stored (f (stored a)) a).

Section Airfoil.
(** _compute_thickness_american (506-543, AmericanModel.v) and the RBF curve of
    the American coordinates (customprofile.py 142), as in ProfileModel.v and
    CustomModel.v. *)
Variable american : profile -> R -> list R -> R -> list R -> res (list R).
Variable curve : list R -> list R -> list R -> res (list R).

(** baseprofile.py 42-76, assignment by assignment. *)
Definition generate_parameters_ (convention : string) : act unit :=
  do _ <- update_edges_;
  do p <- look coords;
  do e <- look (fun a => match edges a with Some e => Ok e | None => Err AttributeError end);
  let length := norm2 (fst (fst e) - fst (snd e)) (snd (fst e) - snd (snd e)) in
  do _ <- update (set_chord_length length);
  do mn <- evaluate (vmin (xup p));
  do cperc <- evaluate (vdiv (map (fun x => x - mn) (xup p)) length);
  do _ <- update (set_chord_percentage cperc);
  do cam <- evaluate (vzip (fun a b => (a + b) / 2) (yup p) (ydown p));
  do cm <- evaluate (vmax cam);
  do _ <- update (set_camber_max (Rabs cm));
  do camperc <- evaluate (if Req_EM_T (Rabs cm) 0 then Ok (zeros (List.length (xup p))) else vdiv cam (Rabs cm));
  do _ <- update (set_camber_percentage camperc);
  do th <- evaluate
    (if String.eqb convention "british" then vzip (fun a b => Rabs (a - b)) (yup p) (ydown p)
     else if Req_EM_T (Rabs cm) 0 then vzip (fun a b => Rabs (a - b)) (yup p) (ydown p)
     else if String.eqb convention "american" then american p length cperc (Rabs cm) camperc
     else Err NameError);
  do tmax <- evaluate (vmax th);
  do _ <- update (set_thickness tmax);
  do tperc <- evaluate (if Req_EM_T tmax 0 then Ok (zeros (List.length (xup p))) else vdiv th tmax);
  update (set_thickness_percentage tperc).

(** customprofile.py 83-147, nacaprofile.py 91-221.  The British abscissae are
    assigned before the ordinates are computed, the American ones with the
    ordinates orthogonal to the camber line.  NacaProfile takes no convention. *)
Definition generate_coordinates_ (convention : option string) : act unit :=
  fun a =>
  match sort a, convention with
  | Custom, c =>
      let c := match c with Some c => c | None => "british"%string end in
      let q := stored a in
      if String.eqb c "british" then
        let xs := vscale (chord_length q) (chord_percentage q) in
        let a1 := mkAirfoil (sort a) (Some xs) (Some xs) (a_yup a) (a_ydown a) q (chord a) (camber a) (edges a) in
        match coordinates_british q with
        | Ok p => (with_coords p a, Ok tt)
        | Err e => (a1, Err e)
        end
      else if String.eqb c "american" then
        (do o <- evaluate (orth_camber_coordinates q);
         do _ <- change (with_coords o);
         do yd <- evaluate (curve (xdown o) (ydown o) (vscale (chord_length q) (chord_percentage q)));
         do _ <- change (with_coords (mkProfile (xup o) (xdown o) (yup o) yd));
         do yu <- evaluate (vzip (fun c y => 2 * camber_max q * c - y) (camber_percentage q) yd);
         change (with_coords (mkProfile (xup o) (xdown o) yu yd))) a
      else (a, Ok tt)
  | Naca d cosine n, None =>
      match naca_coordinates d cosine n with
      | Ok p => (with_coords p a, Ok tt)
      | Err e => (a, Err e)
      end
  | Naca _ _ _, Some _ => (a, Err TypeError)
  end.
End Airfoil.

(** ** plot (baseprofile.py 761-829) *)
(** What is drawn: a curve with its label, or the reference point. *)
Inductive drawing : Type := Curve (label : string) (l : line) | Dot (p : pt).
(** The outfile argument: None, a string, or something else that is true or
    false. *)
Inductive outfile : Type := NoFile | FileName (s : string) | NotAString (truth : bool).
Inductive target : Type := Saved (s : string) | Shown.
Record plot_options : Type := mkPlot {
  o_profile : bool; o_chord : bool; o_camber : bool; o_ref : bool; o_file : outfile }.

(** plt.plot refuses arrays of different length. *)
Definition draw (label : string) (l : line) : res drawing :=
  if Nat.eqb (List.length (fst l)) (List.length (snd l)) then Ok (Curve label l) else Err ValueError.
(** baseprofile.py 801-803, 808-810: what a line attribute gives. *)
Definition kept_line (l : attr line) : res line :=
  match l with Absent => Err AttributeError | IsNone => Err ValueError | Is l => Ok l end.
(** [if outfile: ... else: plt.show()] (822-829). *)
Definition finish (f : outfile) : res target :=
  match f with
  | NoFile | FileName EmptyString | NotAString false => Ok Shown
  | FileName s => Ok (Saved s)
  | NotAString true => Err ValueError
  end.
(** One more drawing in the figure; an exception leaves the figure as it is. *)
Definition also (on : bool) (m : act drawing) (r : airfoil * list drawing * res unit) : airfoil * list drawing * res unit :=
  match r with
  | (a, ds, Ok _) => if on then match m a with
                                | (a', Ok d) => (a', ds ++ [d], Ok tt)
                                | (a', Err e) => (a', ds, Err e)
                                end
                     else (a, ds, Ok tt)
  | (a, ds, Err e) => (a, ds, Err e)
  end.
(** baseprofile.py 782-829: the object, the new figure, the outcome. *)
Definition plot (o : plot_options) (a : airfoil) : airfoil * list drawing * res target :=
  match a_xup a, a_yup a, a_xdown a, a_ydown a with
  | Some xu, Some yu, Some xd, Some yd =>
      let r0 := (a, [], Ok tt) in
      let r1 := also (o_profile o) (evaluate (draw "Upper profile" (xu, yu))) r0 in
      let r2 := also (o_profile o) (evaluate (draw "Lower profile" (xd, yd))) r1 in
      let r3 := also (o_chord o) (look (fun a => let* l := kept_line (chord a) in draw "Chord line" l)) r2 in
      let r4 := also (o_camber o) (look (fun a => let* l := kept_line (camber a) in draw "Camber line" l)) r3 in
      let r5 := also (o_ref o) (do r <- reference_point_; give (Dot r)) r4 in
      match r5 with
      | (a', ds, Ok _) => (a', ds, finish (o_file o))
      | (a', ds, Err e) => (a', ds, Err e)
      end
  | _, _, _, _ => (a, [], Err ValueError)
  end.

(** ** Constructors and calls *)
(** customprofile.py 47-78 and nacaprofile.py 64-72.  A profile made from
    coordinates has edges (generate_parameters sets them), one made from
    parameters has none. *)
Definition fresh (k : class) (p : profile) (q : params) (e : option (pt * pt)) : airfoil :=
  mkAirfoil k (Some (xup p)) (Some (xdown p)) (Some (yup p)) (Some (ydown p)) q Absent Absent e.
Definition new_custom (american : profile -> R -> list R -> R -> list R -> res (list R)) (kw : kwargs) : res airfoil :=
  let* pq := custom_profile american kw in
  if same_keys kw coord_keys
  then let* e := update_edges (fst pq) in Ok (fresh Custom (fst pq) (snd pq) (Some e))
  else Ok (fresh Custom (fst pq) (snd pq) None).
Definition new_naca (american : profile -> R -> list R -> R -> list R -> res (list R))
  (digits : digits_arg) (n : npoints_arg) (cosine : bool) : res airfoil :=
  let* a := naca_check digits n in
  let* pq := naca_profile american digits n cosine in
  let* e := update_edges (fst pq) in
  Ok (fresh (Naca (fst a) cosine (snd a)) (fst pq) (snd pq) (Some e)).

(** The calls a program can make on a profile; assignments included. *)
Inductive field : Type := Xup | Xdown | Yup | Ydown.
Inductive call : Type :=
| Translate (v : pt) | Reflect | Scale (k : R) (about : bool) | Rotate (rad deg : option R)
| SetThicknessMax (t : R) | SetCamberLineMax (c : R) | DeformCamberLine (percent : R) (n : option Z)
| ComputeChordLine (n : option Z) | ComputeCamberLine (n : option Z)
| MaxThickness (n : option Z) | MaxCamber (n : option Z) | ReferencePoint
| GenerateParameters (convention : string) | GenerateCoordinates (convention : option string)
| Plot (o : plot_options)
| Assign (f : field) (v : option (list R)) | AssignParameters (q : params)
| AssignChordLine (l : option line) | AssignCamberLine (l : option line).
Inductive answer : Type := Nothing | Number (x : R) | Point (p : pt) | Picture (ds : list drawing) (t : target).

(** Plain assignment (baseprofile.py 86-186 and the two public attributes). *)
Definition assign (f : field) (v : option (list R)) (a : airfoil) : airfoil :=
  match f with
  | Xup => mkAirfoil (sort a) v (a_xdown a) (a_yup a) (a_ydown a) (stored a) (chord a) (camber a) (edges a)
  | Xdown => mkAirfoil (sort a) (a_xup a) v (a_yup a) (a_ydown a) (stored a) (chord a) (camber a) (edges a)
  | Yup => mkAirfoil (sort a) (a_xup a) (a_xdown a) v (a_ydown a) (stored a) (chord a) (camber a) (edges a)
  | Ydown => mkAirfoil (sort a) (a_xup a) (a_xdown a) (a_yup a) v (stored a) (chord a) (camber a) (edges a)
  end.
Definition as_attr (l : option line) : attr line := match l with Some l => Is l | None => IsNone end.
Definition quiet (m : act unit) : act answer := do _ <- m; give Nothing.

(** Dispatch on the method. *)
Definition perform (american : profile -> R -> list R -> R -> list R -> res (list R))
  (curve : list R -> list R -> list R -> res (list R)) (c : call) : act answer :=
  match c with
  | Translate v => quiet (translate_ v)
  | Reflect => quiet reflect_
  | Scale k b => quiet (scale_ k b)
  | Rotate rad deg => quiet (rotate_ rad deg)
  | SetThicknessMax t => quiet (set_thickness_max_ t)
  | SetCamberLineMax m => quiet (set_camber_line_max_ m)
  | DeformCamberLine pc n => quiet (deform_camber_line_ pc n)
  | ComputeChordLine n => quiet (compute_chord_line_ n)
  | ComputeCamberLine n => quiet (compute_camber_line_ n)
  | MaxThickness n => do x <- max_thickness_ n; give (Number x)
  | MaxCamber n => do x <- max_camber_ n; give (Number x)
  | ReferencePoint => do p <- reference_point_; give (Point p)
  | GenerateParameters cv => quiet (generate_parameters_ american cv)
  | GenerateCoordinates cv => quiet (generate_coordinates_ curve cv)
  | Plot o => fun a => let '(a', ds, t) := plot o a in (a', let* t := t in Ok (Picture ds t))
  | Assign f v => fun a => (assign f v a, Ok Nothing)
  | AssignParameters q => fun a => (with_stored q a, Ok Nothing)
  | AssignChordLine l => fun a => (with_chord (as_attr l) a, Ok Nothing)
  | AssignCamberLine l => fun a => (with_camber (as_attr l) a, Ok Nothing)
  end.
