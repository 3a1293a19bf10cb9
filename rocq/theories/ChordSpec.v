(** Vocabulary for the sections of the reverse propeller; nothing here occurs in
    the model. *)
From Coq Require Import Reals List.
From Verif Require Import Base ProfileModel ProfileSpec BladeModel BladeSpec.
Import ListNotations.
Open Scope R_scope.

(** The circular cylinder around the x axis. *)
Definition on_cylinder (r : R) (p : pt3) : Prop := let '(_, y, z) := p in y * y + z * z = r * r.
(** All points of the blade have their axial coordinate in the interval. *)
Definition within (xmin xmax : R) (blade : face) : Prop :=
  forall x y z, blade (x, y, z) -> xmin <= x <= xmax.
(** The point of the same height in front of the axis (z not negative). *)
Definition front_point (p : pt3) : pt3 := let '(x, y, z) := p in (x, y, Rabs z).
(** The point of the segment from a to b. *)
Definition between (a b : pt) (s : R) : pt := padd (pscale (1 - s) a) (pscale s b).
(** Two lists taken in turn. *)
Fixpoint alternate {A} (a b : list A) : list A :=
  match a with
  | [] => b
  | x :: a' => match b with [] => a | y :: b' => x :: y :: alternate a' b' end
  end.

(** [t] is the last vertex found at the latest of the stations 0..j at which any
    was found. *)
Definition last_found (cuts : nat -> list pt3) (j : nat) (t : pt3) : Prop :=
  exists k l, (k <= j)%nat /\ cuts k = l ++ [t] /\ forall m, (k < m <= j)%nat -> cuts m = [].
(** The unit vector of the same direction. *)
Definition unit_of (v : pt3) : pt3 := scale3 (/ sqrt (dot3 v v)) v.
