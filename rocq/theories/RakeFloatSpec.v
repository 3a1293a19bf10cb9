(** Vocabulary for the rake induced by skew in binary64. *)
From Coq Require Import Reals ZArith.
From Flocq Require Import Core BinarySingleNaN.
From Verif Require Import PpgFloatModel FloatModel FloatSpec.
Open Scope R_scope.

(** A tangent accurate to 2 roundings at angles below a right one whose tangent is at most 8. *)
Definition accurate_tangent (f : b64 -> b64) : Prop := forall t, is_number t -> - PI / 2 < real t < PI / 2 -> Rabs (tan (real t)) <= 8 ->
  is_number (f t) /\ Rabs (real (f t) - tan (real t)) <= 2 * eps * (1 + Rabs (tan (real t))).
