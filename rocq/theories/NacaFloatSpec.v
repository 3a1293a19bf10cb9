(** Vocabulary for NACA foils in binary64. *)
From Coq Require Import Reals ZArith List Bool.
From Flocq Require Import Core BinarySingleNaN.
From Verif Require Import PpgFloatModel FloatModel FloatSpec ShapeFloatModel SectionFloatModel NacaModel NacaSpec NacaFloatModel.
Open Scope R_scope.

(** Powers of numbers between 0 and 1 are right up to four units in the last place. *)
Definition good_powers (L : mathlib) : Prop := forall x k, is_number x -> 0 <= real x <= 1 -> (2 <= k <= 4)%Z ->
  is_number (pow64 L x k) /\ 0 <= real (pow64 L x k) /\
  Rabs (real (pow64 L x k) - powerRZ (real x) k) <= 8 * eps * powerRZ (real x) k + bpow radix2 (-1071).
(** Those of 0 and 1 are exact. *)
Definition exact_powers (L : mathlib) : Prop := forall x k, (2 <= k <= 4)%Z -> is_number x ->
  (real x = 0 -> real (pow64 L x k) = 0) /\ (real x = 1 -> real (pow64 L x k) = 1).
(** The sine and the cosine of arctangents are right up to 2^-50. *)
Definition good_angles (L : mathlib) : Prop := forall z, is_number z -> Rabs (real z) <= 20 ->
  let s := sin64 L (atan64 L z) in let c := cos64 L (atan64 L z) in
  is_number s /\ Rabs (real s) <= 1 /\ Rabs (real s - sin (atan (real z))) <= 8 * eps /\
  is_number c /\ 1 / 32 <= real c <= 1 /\ Rabs (real c - cos (atan (real z))) <= 8 * eps.
Definition good_library (L : mathlib) : Prop := good_powers L /\ exact_powers L /\ good_angles L.

(** A decimal digit. *)
Definition digit (k : nat) : Prop := (k <= 9)%nat.
(** A code of four digits and a number of points between 2 and 2^30. *)
Definition naca_input (L : mathlib) (a b c d n : nat) : Prop := good_library L /\ digit a /\ digit b /\ digit c /\ digit d /\ (2 <= n)%nat /\ (Z.of_nat n <= 2 ^ 30)%Z.
(** Point [i] of the surfaces. *)
Definition up64 (p : fprofile) (i : nat) : b64 * b64 := (nth i (fxup p) zero64, nth i (fyup p) zero64).
Definition down64 (p : fprofile) (i : nat) : b64 * b64 := (nth i (fxdown p) zero64, nth i (fydown p) zero64).

(** A library meeting the hypotheses: repeated products, [z / sqrt (1 + z^2)] and [1 / sqrt (1 + z^2)]. *)
Definition hypotenuse (z : b64) : b64 := fsqrt (fadd one64 (fmul z z)).
Definition plain_library : mathlib := {|
  pow64 := fun x k => if Z.eqb k 2 then fmul x x else if Z.eqb k 3 then fmul (fmul x x) x else fmul (fmul (fmul x x) x) x;
  atan64 := fun z => z; sin64 := fun z => fdiv64 z (hypotenuse z); cos64 := fun z => fdiv64 one64 (hypotenuse z) |}.

(** The slope of the camber line of a four-digit foil. *)
Definition slope4 (m p x : R) : R := if Rle_dec x p then 2 * m / p ^ 2 * (p - x) else 2 * m / (1 - p) ^ 2 * (p - x).
(** Camber, thickness and inclination at [x] of the foil [a b c d], exact; the
    inclination is that of linear spacing (0) or of cosine spacing. *)
Definition camber4 (a b : nat) (x : R) : R := if Nat.eqb b 0 then 0 else camber_line4 (INR a / 100) (INR b / 10) x.
Definition half4 (c d : nat) (x : R) : R := half_thickness (INR (10 * c + d) / 100) x.
Definition angle4 (a b : nat) (cosine : bool) (x : R) : R := if (Nat.eqb b 0 || negb cosine)%bool then 0 else atan (slope4 (INR a / 100) (INR b / 10) x).
