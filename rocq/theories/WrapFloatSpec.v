(** Vocabulary for sections wrapped around cylinders in binary64. *)
From Coq Require Import Reals ZArith List Bool.
From Flocq Require Import Core BinarySingleNaN.
From Verif Require Import PpgFloatModel FloatModel FloatSpec.
Open Scope R_scope.

(** Sine and cosine accurate to 2 roundings at every number. *)
Definition accurate (f : b64 -> b64) (g : R -> R) : Prop := forall t, is_number t -> is_number (f t) /\ Rabs (real (f t) - g (real t)) <= 2 * eps.
Definition moderate_radius (r : b64) : Prop := is_number r /\ bpow radix2 (-300) <= real r <= bpow radix2 300.
Definition moderate_ordinate (y : b64) : Prop := is_number y /\ Rabs (real y) <= bpow radix2 300.
(** The point [q] is the planar point ([x], [y]) laid on the cylinder of radius [r] about the first axis. *)
Definition laid_on (r x y : b64) (q : b64 * b64 * b64) : Prop :=
  let '(X, Y, Z) := q in
  X = x /\ is_number Y /\ is_number Z /\ Rabs (real Y * real Y + real Z * real Z - real r * real r) <= 13 * eps * (real r * real r) /\
  Rabs (real Y - real r * sin (real y / real r)) <= eps * (4 * real r + Rabs (real y)) /\
  Rabs (real Z - real r * cos (real y / real r)) <= eps * (4 * real r + Rabs (real y)).

(** Functions meeting the hypotheses: the nearest multiple of 2^-54. *)
Definition nearest54 (g : R -> R) (t : b64) : b64 := @binary_normalize 53 1024 prec64 emax64 mode_NE (ZnearestE (g (real t) * 2 ^ 54)) (-54) false.
