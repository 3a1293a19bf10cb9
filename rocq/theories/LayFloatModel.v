(** A scaled section set at its pitch, skew and rake and laid on its cylinder in binary64 arithmetic
    (blade.py 348-367 with 280-289). *)
From Coq Require Import Reals ZArith List Bool.
From Flocq Require Import Core BinarySingleNaN.
From Verif Require Import Base PpgFloatModel FloatModel WrapFloatModel PlaceFloatModel.
Import ListNotations.

(** blade.py 348-365, then 280-289 for the same section (called at 367): the points of both faces.
    Simplification: one section, the stacking of several (295-296) is in [cylinder64]. *)
Definition lay64 (how : bool -> bool -> nat -> dot_order) (at64 tn64 sn cs : b64 -> b64) (refl : bool) (pitch radius skew rake : b64) (section : fprofile)
    : res (list (b64 * b64 * b64) * list (b64 * b64 * b64)) :=
  let* section := place64 how at64 tn64 sn cs refl pitch radius skew rake section in
  let* up := wrap64 sn cs radius (fxup section) (fyup section) in
  let* down := wrap64 sn cs radius (fxdown section) (fydown section) in
  Ok (up, down).
