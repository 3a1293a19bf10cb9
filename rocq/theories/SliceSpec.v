(** Vocabulary for the sections cut by ReversePropellerBladeX; nothing here occurs in the model. *)
From Coq Require Import Reals List.
From Verif Require Import Base BladeModel BladeSpec SliceModel.
Import ListNotations.
Open Scope R_scope.

(** Distances are measured from the point of the first to that of the last parameter. *)
Definition measured (w : cwire) : Prop :=
  cw_along w 0 = cw_value w (cw_first w) /\ cw_along w (cw_length w) = cw_value w (cw_last w).
(** The points at equal distances, [n] of them, ends included. *)
Definition equidistant (w : cwire) (n : nat) (l : list pt3) : Prop :=
  List.length l = n /\ forall i, (i < n)%nat -> nth_error l i = Some (cw_along w (INR i * (cw_length w / INR (n - 1)))).
(** The face has a normal without axial component, and is the last such face. *)
Definition last_radial {F} (fs : list (F * pt3)) (f : F) : Prop :=
  exists l1 l2 y z, fs = l1 ++ (f, (0, y, z)) :: l2 /\ Forall (fun g => fst (fst (snd g)) <> 0) l2.
(** It is the only such face. *)
Definition only_radial {F} (fs : list (F * pt3)) (f : F) : Prop :=
  exists l1 l2 y z, fs = l1 ++ (f, (0, y, z)) :: l2 /\ Forall (fun g => fst (fst (snd g)) <> 0) l1 /\ Forall (fun g => fst (fst (snd g)) <> 0) l2.
(** First, third, ... and second, fourth, ... entries. *)
Fixpoint odds {A} (l : list A) : list A :=
  match l with [] => [] | [a] => [a] | a :: _ :: l' => a :: odds l' end.
Definition evens {A} (l : list A) : list A := odds (tl l).
