(** Vocabulary for sections laid on cylinders in binary64. *)
From Coq Require Import Reals List.
From Verif Require Import PpgFloatModel FloatModel FloatSpec.
Open Scope R_scope.

(** The points are those of the face ([xs], [ys]) wound on the cylinder of radius [r] about the first axis, to [e]. *)
Definition wound (r e : R) (xs ys : list R) (pts : list (b64 * b64 * b64)) : Prop :=
  length xs = length ys /\ length pts = length xs /\
  forall j x y, nth_error xs j = Some x -> nth_error ys j = Some y -> exists X Y Z, nth_error pts j = Some (X, Y, Z) /\ is_number X /\ is_number Y /\ is_number Z /\
  Rabs (real X - x) <= e /\ Rabs (real Y - r * sin (y / r)) <= e /\ Rabs (real Z - r * cos (y / r)) <= e.
