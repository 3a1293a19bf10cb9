(** Pitch angles of the blade sections in binary64 arithmetic (blade.py 233-242). *)
From Coq Require Import Reals ZArith List Bool.
From Flocq Require Import Core BinarySingleNaN.
From Verif Require Import Base PpgFloatModel FloatModel SectionFloatModel.
Import ListNotations.

(** [np.pi] (blade.py 241). *)
Definition pi64 : b64 := @B754_finite 53 1024 false 7074237752028440 (-51) eq_refl.

(** blade.py 241: [np.arctan] is the parameter [at64]; simplification: a function of the
    number alone.  numpy divides by zero without an exception; a blade with arrays of
    different lengths is not constructed (blade.py 227-231), here an error. *)
Definition pitch_angles64 (at64 : b64 -> b64) (pitch radii : list b64) : res (list b64) :=
  let turn := map (fun r => fmul (fmul two64 pi64) r) radii in
  let* slope := vzip fdiv64 pitch turn in
  Ok (map at64 slope).
