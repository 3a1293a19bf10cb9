(** Model of what ReversePropellerBladeX takes from the shape at every radius and
    keeps for the display methods (reversepropellerbladex.py 50-169, 266-362;
    basereversepropeller.py 142-184, 358-385).  It computes the [slice] that
    ReverseModel.v leaves open.

    OpenCASCADE's part is a parameter: the faces of a cylinder, the edges of its
    section with the blade, the wires made of edges, the camber spline. *)
From Coq Require Import Reals List Bool.
From Verif Require Import Base BladeModel ReverseModel ChordModel CamberModel ReconstructModel.
Import ListNotations.
Open Scope R_scope.

(** BRepAdaptor_CompCurve: first and last parameter, Value, length, and the point
    at a distance from the first parameter (GCPnts_AbscissaPoint, then Value).
    Simplification: the search for that point does not fail. *)
Record cwire : Type := mkCwire
  { cw_first : R; cw_last : R; cw_value : R -> pt3; cw_length : R; cw_along : R -> pt3 }.

(** normal * axis.Direction() == 0 with the axis (1, 0, 0)
    (basereversepropeller.py 153, 180). *)
Definition radial (normal : pt3) : bool :=
  if Req_EM_T (dot3 normal (1, 0, 0)) 0 then true else false.

Section Slice.
(** Faces, edges, camber curves. *)
Variables F E C : Type.
(** The faces of the cylinder in the order of TopExp_Explorer, each with the
    normal in the middle of its parameter range (basereversepropeller.py 154-179). *)
Variable cylinder : R -> res (list (F * pt3)).
(** BRepAlgoAPI_Section of the blade and the face, explored
    (reversepropellerbladex.py 120-141). *)
Variable cut_edges : F -> res (list E).
(** BRepBuilderAPI_MakeWire().Add(edges).Wire() (reversepropellerbladex.py
    144-169); without edges there is no wire. *)
Variable make_wire : list E -> res cwire.
(** The cuts of _camber_curve (ChordModel.v). *)
Variables (tops bottoms : cwire -> pt3 -> pt3 -> list pt3) (middle : pt3 -> pt3 -> pt3 -> pt3 -> res pt3).
(** GeomAPI_PointsToBSpline and the wire of it (reversepropellerbladex.py 253-268). *)
Variable fit : list pt3 -> res C.
Variable cubic : list R -> list R -> res (R -> res R).

(** The three lists for the display methods (basereversepropeller.py 100-103). *)
Record views : Type := mkViews { v_faces : list F; v_wires : list cwire; v_cambers : list C }.

(** basereversepropeller.py 163-184: every radial face is appended, the last one
    is kept. *)
Definition lateral_faces (l : list (F * pt3)) : list F := map fst (filter (fun f => radial (snd f)) l).

(** One radius up to reversepropellerbladex.py 101 (without the unrolling, which
    section_bladex does): what is displayed and the points.  A missing lateral
    face is None, which BRepAlgoAPI_Section rejects (TypeError). *)
Definition cut_at (n : nat) (radius : R) : res (list F * cwire * C * cut) :=
  let* fs := cylinder radius in
  let lat := lateral_faces fs in
  match final lat with
  | Err _ => Err TypeError
  | Ok f =>
      let* es := cut_edges f in
      let* w := make_wire es in
      let (es_top, es_bottom) := split_edges 0 es in
      let* wt := make_wire es_top in
      let* wb := make_wire es_bottom in
      let te := cw_value wt 0 in
      let le := cw_value wt (cw_last wt) in
      let* cam := camber_points (tops wt) (bottoms wb) middle n_camber_points radius le te in
      let* c := fit cam in
      let* air := closed_sample airfoil_points_number (cw_length w) (cw_along w) in
      let* top := closed_sample n (cw_length wt) (cw_along wt) in
      let* bottom := closed_sample n (cw_length wb) (cw_along wb) in
      Ok (lat, w, c, mkCut le te cam air top bottom)
  end.
(** The parameter of ReverseModel.v. *)
Definition slice (radius : R) (n : nat) : res cut := let* r := cut_at n radius in Ok (snd r).

(** The constructor's loop (reversepropellerbladex.py 54-110). *)
Fixpoint rounds (n : nat) (radii : list R) (v : views) : res (views * list section) :=
  match radii with
  | [] => Ok (v, [])
  | radius :: radii' =>
      let* r := cut_at n radius in
      let '(lat, w, c, _) := r in
      let* s := section_bladex cubic slice n radius in
      let* rs := rounds n radii' (mkViews (v_faces v ++ lat) (v_wires v ++ [w]) (v_cambers v ++ [c])) in
      Ok (fst rs, s :: snd rs)
  end.
(** ReversePropellerBladeX(filename, radii_list, n). *)
Definition new_bladex (radii : list R) (n : nat) : res (views * reversed) :=
  let* r := rounds n radii (mkViews [] [] []) in Ok (fst r, collect radii (snd r)).

(** What a display method shows. *)
Inductive item_shown : Type := Blade | Surface (f : F) | Wire (w : cwire) | Green (c : C).
(** DisplayShape of the entries in turn; the window is opened before, and an index
    out of range raises after what was shown before it. *)
Fixpoint show (l : list (res item_shown)) : list item_shown * res unit :=
  match l with
  | [] => ([], Ok tt)
  | Err e :: _ => ([], Err e)
  | Ok x :: l' => let (xs, r) := show l' in (x :: xs, r)
  end.
(** display_cylinder (basereversepropeller.py 360-372) and display_section
    (374-385); [window] is the outcome of init_display. *)
Definition display_cylinder (window : res unit) (v : views) (k : radii_kind) (radii : list R) (radius : R) : list item_shown * res unit :=
  match (let* i := display_index k radii radius in let* _ := window in Ok i) with
  | Err e => ([], Err e)
  | Ok i => show [Ok Blade; let* f := item (v_faces v) i in Ok (Surface f); let* w := item (v_wires v) i in Ok (Wire w)]
  end.
Definition display_section (window : res unit) (v : views) (k : radii_kind) (radii : list R) (radius : R) : list item_shown * res unit :=
  match (let* i := display_index k radii radius in let* _ := window in Ok i) with
  | Err e => ([], Err e)
  | Ok i => show [let* f := item (v_faces v) i in Ok (Surface f); let* w := item (v_wires v) i in Ok (Wire w);
                  let* c := item (v_cambers v) i in Ok (Green c)]
  end.
End Slice.
