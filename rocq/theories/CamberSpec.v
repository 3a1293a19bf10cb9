(** Vocabulary for the camber curve; nothing here occurs in the model. *)
From Coq Require Import Reals List.
From Verif Require Import Base BladeModel BladeSpec CamberModel.
Import ListNotations.
Open Scope R_scope.

(** The last entry of the list nearer to [p] than [tol]. *)
Definition last_close (p : pt3) (tol : R) (l : list pt3) (v : pt3) : Prop :=
  exists l1 l2, l = l1 ++ v :: l2 /\ dist3 v p < tol /\ Forall (fun x => tol <= dist3 x p) l2.
(** No entry is nearer to [p] than [tol]. *)
Definition none_close (p : pt3) (tol : R) (l : list pt3) : Prop := Forall (fun x => tol <= dist3 x p) l.
(** The first of the entries nearest to [p]. *)
Definition first_nearest (p : pt3) (l : list pt3) (v : pt3) : Prop :=
  exists l1 l2, l = l1 ++ v :: l2 /\ Forall (fun x => dist3 v p < dist3 x p) l1 /\ Forall (fun x => dist3 v p <= dist3 x p) l2.
(** The ends of the part of the curve which is kept. *)
Definition start_of (c : curve) : pt3 := c_at c (c_first c + 5 / 1000 * (c_last c - c_first c)).
Definition end_of (c : curve) : pt3 := c_at c (c_first c + 985 / 1000 * (c_last c - c_first c)).
(** The derivatives there. *)
Definition start_der (c : curve) : pt3 := c_der c (c_first c + 5 / 1000 * (c_last c - c_first c)).
Definition end_der (c : curve) : pt3 := c_der c (c_first c + 985 / 1000 * (c_last c - c_first c)).
(** The vector of length [d] in the direction of [v]. *)
Definition along (v : pt3) (d : R) : pt3 := scale3 (d / norm3 v) v.
(** A fortieth of the length of the curve backwards from the start, forwards from
    the end. *)
Definition backward (c : curve) : pt3 * pt3 := (start_of c, add3 (start_of c) (along (start_der c) (- (c_length c / 40)))).
Definition forward (c : curve) : pt3 * pt3 := (end_of c, add3 (end_of c) (along (end_der c) (c_length c / 40))).
(** The edge found near the start: the last vertex within 0.25 % of the length of
    the curve; if there is none, the nearest point where the wire is closest to the
    prolongation. *)
Definition found_at_start (w : wire) (c : curve) (v : pt3) : Prop :=
  last_close (start_of c) (c_length c / 400) (w_vertices w) v \/
  (none_close (start_of c) (c_length c / 400) (w_vertices w) /\
   first_nearest (start_of c) (w_nearest w (backward c)) v /\ dist3 v (start_of c) < 100000000).
(** The edge found near the end. *)
Definition found_at_end (w : wire) (c : curve) (v : pt3) : Prop :=
  first_nearest (end_of c) (w_nearest w (forward c)) v /\ dist3 v (end_of c) < 100000000.
(** Axial coordinate. *)
Definition axial (p : pt3) : R := fst (fst p).
(** The vertices and the solutions are points of the wire. *)
Definition on_wire (W : pt3 -> Prop) (w : wire) : Prop :=
  (forall v, In v (w_vertices w) -> W v) /\ (forall seg v, In v (w_nearest w seg) -> W v) /\ (forall s, 0 <= s <= w_length w -> W (w_at w s)).
