(** Vocabulary for the sections of a blade laid on their cylinders in binary64. *)
From Coq Require Import Reals ZArith List.
From Flocq Require Import Core BinarySingleNaN.
From Verif Require Import Base ProfileModel PpgFloatModel FloatModel FloatSpec WrapFloatSpec RowFloatModel.
Open Scope R_scope.

(** The tangent of the pitch angle, and the place of the section in real numbers. *)
Definition slope (s : station) : R := real (spitch s) / (2 * PI * real (sradius s)).
Definition true_place (refl : bool) (s : station) : res profile :=
  let* t := rotate (Some (PI / 2 - atan (slope s))) None (if refl then reflect (meaning (ssection s)) else meaning (ssection s)) in
  Ok (translate (- (real (srake s) + real (spitch s) * real (sskew s) / 360), 0) (translate (0, - (real (sradius s) * (real (sskew s) * PI / 180))) t)).
(** Numbers of moderate size, no length above [M], a tangent of at most 4. *)
Definition fits (M : R) (s : station) : Prop :=
  moderate_ordinate (spitch s) /\ moderate_radius (sradius s) /\ moderate_ordinate (sskew s) /\ is_number (srake s) /\ numbers (ssection s) /\ Rabs (slope s) <= 4 /\
  every (fun z => Rabs z <= M) (meaning (ssection s)) /\ real (sradius s) * Rabs (real (sskew s) * PI / 180) <= M /\ Rabs (real (srake s)) <= M /\ Rabs (real (spitch s) * real (sskew s) / 360) <= M /\ M <= bpow radix2 290.
Definition laid_error (M : R) (s : station) : R := (45 + 10 * (1 + slope s * slope s)) * eps * M + 4 * eps * real (sradius s) + 15 * (1 + real (sradius s)) * eta.
