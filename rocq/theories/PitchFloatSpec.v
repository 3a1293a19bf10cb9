(** Vocabulary for pitch angles in binary64. *)
From Coq Require Import Reals ZArith.
From Flocq Require Import Core BinarySingleNaN.
From Verif Require Import PpgFloatModel FloatModel FloatSpec.
Open Scope R_scope.

(** A function meeting the accuracy asked of the arc tangent: the nearest multiple of 2^-52. *)
Definition nearest52 (g : R -> R) (t : b64) : b64 := @binary_normalize 53 1024 prec64 emax64 mode_NE (ZnearestE (g (real t) * 2 ^ 52)) (-52) false.
