(** Vocabulary for paths and polygons; nothing here occurs in the model. *)
From Coq Require Import Reals List.
From Verif Require Import Base.
Import ListNotations.
Open Scope R_scope.

(** The segment from [a] to [b]. *)
Definition on_segment (p a b : pt) : Prop :=
  exists t, 0 <= t <= 1 /\ fst p = fst a + t * (fst b - fst a) /\ snd p = snd a + t * (snd b - snd a).
(** The edges of the closed polygon [poly]. *)
Fixpoint chain (a : pt) (l : list pt) : list (pt * pt) :=
  match l with [] => [] | b :: l' => (a, b) :: chain b l' end.
Definition edges (poly : list pt) : list (pt * pt) :=
  match poly with [] => [] | a :: l => chain a (l ++ [a]) end.
Definition on_boundary (p : pt) (poly : list pt) : Prop :=
  exists e, In e (edges poly) /\ on_segment p (fst e) (snd e).
(** No vertex at the height of [p]. *)
Definition not_level (p : pt) (poly : list pt) : Prop := Forall (fun v => snd v <> snd p) poly.
(** The edge crosses the horizontal ray from [p] to the right. *)
Definition crosses (p : pt) (e : pt * pt) : Prop :=
  exists t, 0 < t < 1 /\ snd p = snd (fst e) + t * (snd (snd e) - snd (fst e)) /\
    fst p < fst (fst e) + t * (fst (snd e) - fst (fst e)).
(** [n] members of the list satisfy [P]. *)
Inductive number_with {A} (P : A -> Prop) : list A -> nat -> Prop :=
| nw_nil : number_with P [] 0
| nw_in : forall a l n, P a -> number_with P l n -> number_with P (a :: l) (S n)
| nw_out : forall a l n, ~ P a -> number_with P l n -> number_with P (a :: l) n.
(** Strictly inside the triangle. *)
Definition in_triangle (p a b c : pt) : Prop :=
  exists u v w, 0 < u /\ 0 < v /\ 0 < w /\ u + v + w = 1 /\
    fst p = u * fst a + v * fst b + w * fst c /\ snd p = u * snd a + v * snd b + w * snd c.
(** The triangles of the fan from [a]. *)
Definition fan (poly : list pt) : list (pt * pt * pt) :=
  match poly with [] => [] | a :: l =>
    match l with [] => [] | b :: l' => map (fun e => (a, fst e, snd e)) (chain b l') end end.
(** A list obtained by deleting elements. *)
Inductive subseq {A} : list A -> list A -> Prop :=
| ss_nil : subseq [] []
| ss_keep : forall a l m, subseq l m -> subseq (a :: l) (a :: m)
| ss_drop : forall a l m, subseq l m -> subseq l (a :: m).

(** Greedy: every next point is a nearest of those still to come, ties being
    resolved by the order of the list [coords]. *)
Definition dist (a b : pt) : R := dist_euc (fst a) (snd a) (fst b) (snd b).
Definition greedy (coords path : list pt) : Prop :=
  forall l1 a b l2, path = l1 ++ a :: b :: l2 -> forall c, In c l2 ->
    dist a b <= dist a c /\
    (dist a b = dist a c -> exists u v, coords = u ++ b :: v /\ In c v).
