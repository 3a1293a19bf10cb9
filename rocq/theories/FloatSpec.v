(** Vocabulary for rounding errors of binary64 profiles. *)
From Coq Require Import Reals ZArith List.
From Flocq Require Import Core BinarySingleNaN.
From Verif Require Import PpgFloatModel ProfileModel FloatModel.
Import ListNotations.
Open Scope R_scope.

(** The number meant by a binary64 value, and the profile meant by arrays. *)
Definition real (x : b64) : R := @B2R 53 1024 x.
Definition is_number (x : b64) : Prop := @is_finite 53 1024 x = true.
Definition numbers (p : fprofile) : Prop :=
  Forall is_number (fxup p) /\ Forall is_number (fxdown p) /\ Forall is_number (fyup p) /\ Forall is_number (fydown p).
Definition meaning (p : fprofile) : profile :=
  mkProfile (map real (fxup p)) (map real (fxdown p)) (map real (fyup p)) (map real (fydown p)).

(** 2^-53 (half an ulp of 1), 2^-1075 (half the smallest positive number) and
    2^1023 (the largest power of two). *)
Definition eps : R := bpow radix2 (-53).
Definition eta : R := bpow radix2 (-1075).
Definition huge : R := bpow radix2 1023.

(** Pointwise relations between profiles. *)
Definition pointwise (r : R -> R -> Prop) (p q : profile) : Prop :=
  Forall2 r (xup p) (xup q) /\ Forall2 r (xdown p) (xdown q) /\ Forall2 r (yup p) (yup q) /\ Forall2 r (ydown p) (ydown q).
Definition every (r : R -> Prop) (p : profile) : Prop :=
  Forall r (xup p) /\ Forall r (xdown p) /\ Forall r (yup p) /\ Forall r (ydown p).
(** x is an integer multiple of the grid width 2^e, at most 2^52 steps from 0. *)
Definition on_grid (e : Z) (x : R) : Prop := exists n : Z, x = IZR n * bpow radix2 e /\ (Z.abs n <= 2 ^ 52)%Z.
