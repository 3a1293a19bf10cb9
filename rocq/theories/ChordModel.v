(** Model of the intersecting cylinder, of the section's edges and of the camber
    points of the reverse propeller (basereversepropeller.py 138-160,
    reversepropellerbladex.py 113-265). *)
From Coq Require Import Reals List Bool.
From Verif Require Import Base BladeModel.
Import ListNotations.
Open Scope R_scope.

(** basereversepropeller.py 147-154: start and length of the cylinder, from the
    axial extent of the bounding box.  Simplification: the bounding box is the
    given pair (OpenCASCADE enlarges it by a tolerance). *)
Definition cylinder_span (xmin xmax : R) : R * R :=
  (xmin - 2 / 10 * Rabs xmin, 12 / 10 * (xmax - xmin)).
(** BRepPrimAPI_MakeCylinder needs a positive radius and a positive height; the
    lateral face is a set of points (basereversepropeller.py 154-178). *)
Definition lateral_face (radius xmin xmax : R) : res face :=
  let '(base, height) := cylinder_span xmin xmax in
  if Rlt_dec 0 radius then
    if Rlt_dec 0 height then
      Ok (fun p => let '(x, y, z) := p in base <= x <= base + height /\ y * y + z * z = radius * radius)
    else Err RuntimeError
  else Err RuntimeError.

(** reversepropellerbladex.py 134-141: edges number 1, 3, 5, ... make the top,
    the others the bottom. *)
Fixpoint split_edges {E : Type} (count : nat) (edges : list E) : list E * list E :=
  match edges with
  | [] => ([], [])
  | e :: l =>
      let '(top, bottom) := split_edges (S count) l in
      if Nat.eqb (Nat.modulo (S count) 2) 1 then (e :: top, bottom) else (top, e :: bottom)
  end.

(** np.arcsin; nan outside of \[-1, 1\]. *)
Definition arcsin (v : R) : res R :=
  if Rle_dec (-1) v then if Rle_dec v 1 then Ok (asin v) else Err NonFinite else Err NonFinite.
(** reversepropellerbladex.py 176-183. *)
Record geodesic : Type := mkGeodesic { g_lam : R; g_mu : R; g_a : R; g_b : R }.
Definition geodesic_of (radius : R) (le te : pt3) : res geodesic :=
  let '(lx, ly, _) := le in let '(tx, ty, _) := te in
  let* vb := fdiv ly radius in
  let* b := arcsin vb in
  let* va := fdiv ty radius in
  let* ab := arcsin va in
  Ok (mkGeodesic (tx - lx) lx (ab - b) b).
(** reversepropellerbladex.py 200. *)
Definition chord_point (radius : R) (g : geodesic) (s : R) : pt3 :=
  (g_lam g * s + g_mu g, radius * sin (g_a g * s + g_b g), radius * cos (g_a g * s + g_b g)).
(** reversepropellerbladex.py 202. *)
Definition tangent_vector (radius : R) (g : geodesic) (s : R) : pt3 :=
  (g_lam g, g_a g * radius * cos (g_a g * s + g_b g), - g_a g * radius * sin (g_a g * s + g_b g)).

Section Camber.
(** The vertices, in the order of the explorer, in which the curve cut by the
    plane (point, unit normal) meets the two wires; the middle of the piece of
    this curve between two points (reversepropellerbladex.py 209-251). *)
Variables (tops bottoms : pt3 -> pt3 -> list pt3) (middle : pt3 -> pt3 -> pt3 -> pt3 -> res pt3).

(** reversepropellerbladex.py 219-231: the loops run to the last vertex (the
    isinstance test is applied to the section, not to the vertex); without a
    vertex the variable keeps its value. *)
Fixpoint latest (old : option pt3) (l : list pt3) : option pt3 :=
  match l with [] => old | p :: l' => latest (Some p) l' end.

(** reversepropellerbladex.py 194-252, the inner stations. *)
Fixpoint inner_points (radius : R) (g : geodesic) (top bottom : option pt3) (ss : list R) : res (list pt3) :=
  match ss with
  | [] => Ok []
  | s :: ss' =>
      let p := chord_point radius g s in
      let* n := gp_dir (tangent_vector radius g s) in
      let top' := latest top (tops p n) in
      let bottom' := latest bottom (bottoms p n) in
      match top', bottom' with
      | Some t, Some b =>
          let* m := middle p n t b in
          let* r := inner_points radius g top' bottom' ss' in
          Ok (m :: r)
      | _, _ => Err NameError
      end
  end.

(** reversepropellerbladex.py 190-252 for [n] stations; the code has n = 500. *)
Definition camber_points (n : nat) (radius : R) (le te : pt3) : res (list pt3) :=
  let* g := geodesic_of radius le te in
  match linspace 0 1 n with
  | [] => Err Unmodelled
  | [_] => Ok [le]
  | _ :: ss =>
      let* m := inner_points radius g None None (removelast ss) in
      Ok (le :: m ++ [te])
  end.
End Camber.
Definition n_camber_points : nat := 500.
