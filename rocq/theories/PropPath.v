(** C61, C62: the path through a set of points and the point-in-polygon test. *)
From Coq Require Import Reals List Bool Lra Permutation.
From Verif Require Import Base PathModel PathSpec PathProofs.
Import ListNotations.
Open Scope R_scope.

Theorem C61_path_from : forall coords s, In s coords ->
  exists path, optimized_path coords (Some s) = ([], Ok path) /\ Permutation path coords /\
    (exists more, path = s :: more) /\ greedy coords path.
Proof. exact path_from. Qed.
Print Assumptions C61_path_from.
Theorem C61_path_default : forall s l,
  exists path, optimized_path (s :: l) None = ([], Ok path) /\ Permutation path (s :: l) /\
    (exists more, path = s :: more) /\ greedy (s :: l) path.
Proof. exact path_from_first. Qed.
Print Assumptions C61_path_default.
Theorem C61_path_failures : forall coords s,
  (~ In s coords -> optimized_path coords (Some s) = (coords, Err ValueError)) /\
  optimized_path [] None = ([], Err IndexError).
Proof. exact path_failures. Qed.
Print Assumptions C61_path_failures.
(** Three points in a row, from the middle one: the nearer end comes first. *)
Example C61_example : optimized_path [(5, 0); (0, 0); (2, 0)] (Some (2, 0)) = ([], Ok [(2, 0); (0, 0); (5, 0)]).
Proof. exact path_example. Qed.
(** A tie: the first of the list wins. *)
Example C61_example_tie : optimized_path [(2, 0); (3, 0); (1, 0)] None = ([], Ok [(2, 0); (3, 0); (1, 0)]).
Proof. exact path_tie. Qed.

Theorem C62_boundary : forall x y poly inc, on_boundary (x, y) poly -> point_inside_polygon x y poly inc = Ok inc.
Proof. exact polygon_boundary. Qed.
Print Assumptions C62_boundary.
Theorem C62_crossings : forall x y poly inc, poly <> [] -> not_level (x, y) poly -> ~ on_boundary (x, y) poly ->
  exists n, number_with (crosses (x, y)) (edges poly) n /\ point_inside_polygon x y poly inc = Ok (Nat.odd n).
Proof. exact polygon_crossings_ex. Qed.
Print Assumptions C62_crossings.
Theorem C62_start_vertex : forall x y l m inc,
  point_inside_polygon x y (l ++ m) inc = point_inside_polygon x y (m ++ l) inc.
Proof. exact polygon_rotate. Qed.
Print Assumptions C62_start_vertex.
Theorem C62_orientation : forall x y poly inc,
  point_inside_polygon x y (rev poly) inc = point_inside_polygon x y poly inc.
Proof. exact polygon_reverse. Qed.
Print Assumptions C62_orientation.
Theorem C62_cut : forall x y a b l m inc, ~ on_boundary (x, y) (a :: l ++ b :: m) -> ~ on_segment (x, y) a b ->
  exists u v, point_inside_polygon x y (a :: l ++ [b]) inc = Ok u /\ point_inside_polygon x y (a :: b :: m) inc = Ok v /\
    point_inside_polygon x y (a :: l ++ b :: m) inc = Ok (xorb u v).
Proof. exact polygon_cut. Qed.
Print Assumptions C62_cut.
Theorem C62_triangle : forall x y a b c inc, not_level (x, y) [a; b; c] -> ~ on_boundary (x, y) [a; b; c] ->
  (point_inside_polygon x y [a; b; c] inc = Ok true <-> in_triangle (x, y) a b c) /\
  (point_inside_polygon x y [a; b; c] inc = Ok false <-> ~ in_triangle (x, y) a b c).
Proof. exact polygon_triangle. Qed.
Print Assumptions C62_triangle.
Theorem C62_fan : forall x y l a b inc, not_level (x, y) (a :: b :: l) -> ~ on_boundary (x, y) (a :: b :: l) ->
  (forall v, In v l -> ~ on_segment (x, y) a v) ->
  exists n, number_with (fun t => in_triangle (x, y) (fst (fst t)) (snd (fst t)) (snd t)) (fan (a :: b :: l)) n /\
    point_inside_polygon x y (a :: b :: l) inc = Ok (Nat.odd n).
Proof. exact polygon_fan_ex. Qed.
Print Assumptions C62_fan.
Theorem C62_repeated_vertex : forall x y a l inc, snd a <> y ->
  point_inside_polygon x y (a :: l ++ [a]) inc = point_inside_polygon x y (a :: l) inc.
Proof. exact polygon_closed. Qed.
Print Assumptions C62_repeated_vertex.
Theorem C62_empty : forall x y inc, point_inside_polygon x y [] inc = Err IndexError.
Proof. exact polygon_empty. Qed.
Print Assumptions C62_empty.
(** A point level with a vertex: the origin, inside the square with corners on
    the axes, is reported outside, and inside if the first corner is repeated. *)
Theorem C62_level_refuted : exists x y poly, in_triangle (x, y) (0, 1) (-1, -1 / 2) (1, -1 / 2) /\
  poly = [(1, 0); (0, 1); (-1, 0); (0, -1)] /\ ~ on_boundary (x, y) poly /\
  point_inside_polygon x y poly true = Ok false /\ point_inside_polygon x y (poly ++ [(1, 0)]) true = Ok true.
Proof. exact level_refuted. Qed.
Print Assumptions C62_level_refuted.
Example C62_example : not_level (1, 1) [(0, 0); (4, 0); (0, 4)] /\ ~ on_boundary (1, 1) [(0, 0); (4, 0); (0, 4)] /\
  in_triangle (1, 1) (0, 0) (4, 0) (0, 4) /\ point_inside_polygon 1 1 [(0, 0); (4, 0); (0, 4)] false = Ok true /\
  not_level (3, 2) [(0, 0); (4, 0); (0, 4)] /\ ~ on_boundary (3, 2) [(0, 0); (4, 0); (0, 4)] /\
  ~ in_triangle (3, 2) (0, 0) (4, 0) (0, 4) /\ point_inside_polygon 3 2 [(0, 0); (4, 0); (0, 4)] true = Ok false /\
  on_boundary (2, 2) [(0, 0); (4, 0); (0, 4)].
Proof. exact triangle_example. Qed.
