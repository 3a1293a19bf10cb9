(** Notions used in the statements about blades whose sections are objects. *)
From Coq Require Import Reals List.
From Verif Require Import Base ProfileModel ProfileSpec HeapModel HeapSpec BladeModel BladeSpec.
Import ListNotations.
Open Scope R_scope.

(** The profile objects have the coordinates of the store. *)
Definition holds (w : world) (st : store) : Prop :=
  forall s o, nth_error (snd w) s = Some o -> read (fst w, o) = Ok (st s).

(** The four arrays of an object contain the coordinates of a profile. *)
Definition arrays_hold (h : heap) (o : object) (p : profile) : Prop :=
  contents h (axu o) = Ok (xup p) /\ contents h (axd o) = Ok (xdown p) /\
  contents h (ayu o) = Ok (yup p) /\ contents h (ayd o) = Ok (ydown p).

(** The array was created later than the heap [h]. *)
Definition new_in (h : heap) (a : nat) : Prop := (List.length h <= a)%nat.

(** Product of the factors of the first [n] sections, with the sign of the
    reflection. *)
Definition wear (refl : bool) (cs : list R) (n : nat) : R :=
  fold_right Rmult 1 (map (fun c => if refl then - c else c) (firstn n cs)).

(** Upper and lower abscissae are one array; the ordinates are two others. *)
Definition shares_abscissae (h : heap) (o : object) : Prop :=
  axu o = axd o /\ NoDup [axu o; ayu o; ayd o] /\ Forall (is_float h) (addresses o).
(** The arrays of such an object, each once. *)
Definition three_arrays (o : object) : list nat := [axu o; ayu o; ayd o].

(** Abscissae multiplied by the square of the factor and moved by twice the
    reference point; ordinates centred, scaled and mirrored. *)
Definition bent (c : R) (refl : bool) (ref a : pt) : pt :=
  (c * c * fst a - 2 * fst ref, (if refl then - c else c) * (snd a - snd ref)).
