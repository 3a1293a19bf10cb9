(** Model of the two module-level functions of reversepropeller.py 41-100. *)
From Coq Require Import Reals List Bool.
From Verif Require Import Base.
Import ListNotations.
Open Scope R_scope.

(** distance (reversepropeller.py 41-45). *)
Definition distance (a b : pt) : R :=
  sqrt ((fst a - fst b) * (fst a - fst b) + (snd a - snd b) * (snd a - snd b)).

(** Equality of points as used by list.remove. *)
Definition pt_dec (a b : pt) : {a = b} + {a <> b}.
Proof. decide equality; apply Req_EM_T. Defined.
(** list.remove: removes the first equal element, ValueError if there is none
    (reversepropeller.py 53, 57). *)
Fixpoint remove_first (a : pt) (l : list pt) : res (list pt) :=
  match l with
  | [] => Err ValueError
  | b :: l' => if pt_dec a b then Ok l' else let* r := remove_first a l' in Ok (b :: r)
  end.
(** min(l, key=distance(p, .)): the first of the nearest (reversepropeller.py 55). *)
Fixpoint nearest (p best : pt) (l : list pt) : pt :=
  match l with
  | [] => best
  | b :: l' => if Rlt_dec (distance p b) (distance p best) then nearest p b l' else nearest p best l'
  end.
(** The while loop (reversepropeller.py 54-57); [fuel] bounds the number of
    rounds by the length of the list, each round removing one element.  The
    path so far is kept in reverse.  Returns the list as left and the outcome. *)
Fixpoint walk (fuel : nat) (last : pt) (path : list pt) (pass_by : list pt) : list pt * res (list pt) :=
  match pass_by, fuel with
  | [], _ => ([], Ok (rev path))
  | _, O => (pass_by, Err Unmodelled)
  | b :: l, S fuel' =>
      let n := nearest last b l in
      match remove_first n pass_by with
      | Err e => (pass_by, Err e)
      | Ok rest => walk fuel' n (n :: path) rest
      end
  end.
(** optimized_path (reversepropeller.py 48-58): the caller's list as it is left,
    and the path. *)
Definition optimized_path (coords : list pt) (start : option pt) : list pt * res (list pt) :=
  match (match start with Some s => Ok s | None => first coords end) with
  | Err e => (coords, Err e)
  | Ok s =>
      match remove_first s coords with
      | Err e => (coords, Err e)
      | Ok rest => walk (List.length rest) s [s] rest
      end
  end.

(** One edge of the loop of point_inside_polygon (reversepropeller.py 77-98).
    [Touch]: the point lies on the edge, the loop is left; [Toggle] or not. *)
Inductive step : Type := Touch | Toggle | Keep.
Definition edge_step (x y : R) (p1 p2 : pt) : step :=
  let (x1, y1) := p1 in let (x2, y2) := p2 in
  if Req_EM_T y1 y2 then
    if Req_EM_T y y1 then
      if Rle_dec (Rmin x1 x2) x then
        if Rle_dec x (Rmax x1 x2) then Touch
        else if Rlt_dec x (Rmin x1 x2) then Toggle else Keep
      else if Rlt_dec x (Rmin x1 x2) then Toggle else Keep
    else Keep
  else
    if Rle_dec (Rmin y1 y2) y then
      if Rle_dec y (Rmax y1 y2) then
        let xi := (y - y1) * (x2 - x1) / (y2 - y1) + x1 in
        if Req_EM_T x xi then Touch else if Rlt_dec x xi then Toggle else Keep
      else Keep
    else Keep.
(** The loop, from the vertex [p1] over the remaining vertices. *)
Fixpoint polygon_loop (x y : R) (include : bool) (p1 : pt) (rest : list pt) (inside : bool) : bool :=
  match rest with
  | [] => inside
  | p2 :: rest' =>
      match edge_step x y p1 p2 with
      | Touch => include
      | Toggle => polygon_loop x y include p2 rest' (negb inside)
      | Keep => polygon_loop x y include p2 rest' inside
      end
  end.
(** point_inside_polygon (reversepropeller.py 60-100): vertices 1, ..., n - 1 and
    again 0. *)
Definition point_inside_polygon (x y : R) (poly : list pt) (include : bool) : res bool :=
  match poly with
  | [] => Err IndexError
  | p0 :: rest => Ok (polygon_loop x y include p0 (rest ++ [p0]) false)
  end.
