(** The scaled sections of a blade placed and laid on their cylinders in binary64 arithmetic
    (the steps of blade.py 333-367 after the scaling, with 275-296). *)
From Coq Require Import Reals ZArith List Bool.
From Flocq Require Import Core BinarySingleNaN.
From Verif Require Import Base PpgFloatModel FloatModel WrapFloatModel PlaceFloatModel.
Import ListNotations.

(** The entries of the five arrays of a blade at one section (blade.py 155-164). *)
Record station : Type := mkStation { spitch : b64; sradius : b64; sskew : b64; srake : b64; ssection : fprofile }.

(** blade.py 333 and 348-367, then 275-296.  Simplifications: a list of entries for the arrays
    of equal lengths (227-231); sections already scaled, without changes of thickness and camber;
    the sections are distinct objects. *)
Definition blade64 (how : station -> bool -> bool -> nat -> dot_order) (at64 tn64 sn cs : b64 -> b64) (refl : bool) (blade : list station)
    : res (list (list (b64 * b64 * b64)) * list (list (b64 * b64 * b64))) :=
  let* sections := mapM (fun s => place64 (how s) at64 tn64 sn cs refl (spitch s) (sradius s) (sskew s) (srake s) (ssection s)) blade in
  cylinder64 sn cs sections (map sradius blade).
