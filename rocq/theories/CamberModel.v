(** Model of the camber curve of ReversePropeller and of the points taken on it
    and on the section (reversepropeller.py 156-187, 190-210, 246-393, 417-465).

    OpenCASCADE's part: the section of the blade with the cylinder is a [wire],
    the approximating spline a [curve]; both are parameters. *)
From Coq Require Import Reals List Bool.
From Verif Require Import Base PathModel BladeModel ReverseModel.
Import ListNotations.
Open Scope R_scope.

(** The spline of reversepropeller.py 265-276: its parameters, its points, its
    derivative and its length. *)
Record curve : Type := mkCurve
  { c_first : R; c_last : R; c_at : R -> pt3; c_der : R -> pt3; c_length : R }.
(** The wire of reversepropeller.py 170-187: its length, the point at a distance
    along it (GCPnts_AbscissaPoint), the vertices in the order of TopExp_Explorer
    and, for a segment, the points of the wire in the solutions of
    BRepExtrema_DistShapeShape (341-347, 359-366). *)
Record wire : Type := mkWire
  { w_length : R; w_at : R -> pt3; w_vertices : list pt3; w_nearest : pt3 * pt3 -> list pt3 }.

(** gp_Pnt.Distance (reversepropeller.py 336, 345). *)
Definition distance3 (a b : pt3) : R :=
  let '(x, y, z) := a in let '(u, v, w) := b in
  sqrt ((x - u) * (x - u) + (y - v) * (y - v) + (z - w) * (z - w)).
(** BRepBuilderAPI_MakeEdge(p, q).Edge() (reversepropeller.py 315-329, 377-380).
    Simplification: the points coincide for OpenCASCADE if they are equal (the
    library allows a tolerance). *)
Definition make_edge (p q : pt3) : res (pt3 * pt3) :=
  if Req_EM_T (distance3 p q) 0 then Err RuntimeError else Ok (p, q).

(** The parameter at a fraction of the range (reversepropeller.py 292-313). *)
Definition param_at (c : curve) (f : R) : R := c_first c + f * (c_last c - c_first c).
(** relative and absolute tolerance (reversepropeller.py 277-278). *)
Definition tolerance (c : curve) : R := 25 / 10000 * c_length c.
(** The end of the prolongation: p - 10 t tol, p + 10 t tol
    (reversepropeller.py 314-329). *)
Definition prolong (p t : pt3) (d : R) : pt3 :=
  let '(x, y, z) := p in let '(a, b, c) := t in (x + 10 * a * d, y + 10 * b * d, z + 10 * c * d).

(** The loop over the vertices (reversepropeller.py 331-340): every vertex close
    enough replaces the one found before. *)
Fixpoint scan_vertices (p : pt3) (tol : R) (l : list pt3) (found : option pt3) : option pt3 :=
  match l with
  | [] => found
  | v :: l' => scan_vertices p tol l' (if Rlt_dec (distance3 v p) tol then Some v else found)
  end.
(** The loop over the solutions (reversepropeller.py 344-347, 363-366). *)
Fixpoint scan_solutions (p : pt3) (l : list pt3) (best : R) (found : option pt3) : option pt3 :=
  match l with
  | [] => found
  | s :: l' =>
      if Rlt_dec (distance3 p s) best then scan_solutions p l' (distance3 p s) (Some s)
      else scan_solutions p l' best found
  end.
(** minDist = 1e8 (reversepropeller.py 343, 361). *)
Definition far : R := 10 ^ 8.
(** reversepropeller.py 330-347. *)
Definition find_leading (w : wire) (p : pt3) (tol : R) (seg : pt3 * pt3) : option pt3 :=
  match scan_vertices p tol (w_vertices w) None with
  | Some v => Some v
  | None => scan_solutions p (w_nearest w seg) far None
  end.
(** reversepropeller.py 349-366: the explorer is not initialised again, so that
    it has no vertex left. *)
Definition find_trailing (w : wire) (p : pt3) (tol : R) (seg : pt3 * pt3) : option pt3 :=
  match scan_vertices p tol [] None with
  | Some v => Some v
  | None => scan_solutions p (w_nearest w seg) far None
  end.

(** What the method leaves: the edges of the section, the two prolongations, the
    two joining segments and the parameters between which the curve is kept. *)
Record camber : Type := mkCamber
  { leading : pt3; trailing : pt3;
    first_segment : pt3 * pt3; last_segment : pt3 * pt3;
    first_edge : pt3 * pt3; last_edge : pt3 * pt3;
    kept_from : R; kept_to : R }.

(** BRepBuilderAPI_MakeEdge(curve, a, b) (reversepropeller.py 306-313) needs
    different parameters. *)
Definition make_arc (a b : R) : res (R * R) :=
  if Req_EM_T a b then Err RuntimeError else Ok (a, b).

(** _camber_curve after the spline is built (reversepropeller.py 268-380); an
    edge which was not found is still the empty list, and [].X() raises
    AttributeError (368). *)
Definition camber_of (w : wire) (c : curve) : res camber :=
  let tol := tolerance c in
  let a := param_at c (5 / 1000) in
  let b := param_at c (985 / 1000) in
  let p := c_at c a in
  let q := c_at c b in
  let* t := BladeModel.gp_dir (c_der c a) in
  let* u := BladeModel.gp_dir (c_der c b) in
  let* arc := make_arc a b in
  let* s1 := make_edge p (prolong p t (- tol)) in
  let* s2 := make_edge q (prolong q u tol) in
  match find_leading w p tol s1, find_trailing w q tol s2 with
  | Some le, Some te =>
      let '(le', te', p', q') :=
        if Rlt_dec (fst (fst le)) (fst (fst te)) then (te, le, q, p) else (le, te, p, q) in
      let* e1 := make_edge te' q' in
      let* e2 := make_edge le' p' in
      Ok (mkCamber le' te' s1 s2 e1 e2 (fst arc) (snd arc))
  | _, _ => Err AttributeError
  end.

(** _camber_points (reversepropeller.py 195-202): i/n of the length for i < n. *)
Definition open_sample (n : nat) (w : wire) : list pt3 :=
  map (fun i => w_at w (INR i / INR n * w_length w)) (seq 0 n).
(** reversepropeller.py 426-432, 448-454: i/(n-1) of the length for i < n;
    float(0) / float(0) raises ZeroDivisionError. *)
Definition closed_sample (n : nat) (length : R) (at_ : R -> pt3) : res (list pt3) :=
  if Nat.eqb n 1 then Err OtherException
  else Ok (map (fun i => at_ (INR i / INR (n - 1) * length)) (seq 0 n)).
(** section_points_number and airfoil_points_number (basereversepropeller.py
    81-82); int(round(1000 / 2)) (reversepropeller.py 422). *)
Definition section_points_number : nat := 1200.
Definition airfoil_points_number : nat := 1000.
Definition camber_points_number : nat := Nat.div airfoil_points_number 2.

(** What the constructor's loop hands to the planar part (reversepropeller.py
    116-147), the section with each cylinder being given by [wires] and the full
    camber line (reversepropeller.py 382-393: its length, the points at a distance
    along it) by [join]. *)
Definition camber_line (wires : R -> res wire) (spline : list pt3 -> res curve)
    (join : curve -> camber -> res (R * (R -> pt3))) (radius : R) (pts : list pt3)
  : res (pt3 * pt3 * (pt3 -> pt3 -> res (list pt3))) :=
  let* w := wires radius in
  let* c := spline pts in
  let* k := camber_of w c in
  let* full := join c k in
  Ok (leading k, trailing k, fun _ _ => closed_sample camber_points_number (fst full) (snd full)).
Definition section_of_wire (cubic : list R -> list R -> res (R -> res R)) wires voronoi spline join (n : nat) (radius : R) : res section :=
  section_voronoi cubic (fun r => let* w := wires r in Ok (open_sample section_points_number w))
    (fun r => let* w := wires r in closed_sample airfoil_points_number (w_length w) (w_at w))
    voronoi (camber_line wires spline join) n radius.
