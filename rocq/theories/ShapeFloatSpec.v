(** Vocabulary for checks, thickness and camber of binary64 profiles. *)
From Coq Require Import Reals ZArith List.
From Flocq Require Import Core BinarySingleNaN.
From Verif Require Import PpgFloatModel ProfileModel FloatModel FloatSpec.
Import ListNotations.
Open Scope R_scope.

Definition is_nan64 (x : b64) : Prop := @is_nan 53 1024 x = true.
Definition is_infinite (x : b64) : Prop := ~ is_number x /\ ~ is_nan64 x.

(** All four arrays equally long. *)
Definition same_sizes (p : fprofile) : Prop :=
  length (fxdown p) = length (fxup p) /\ length (fyup p) = length (fxup p) /\ length (fydown p) = length (fxup p).
(** a is b up to [s] times the documented tolerance 1e-6 + 1e-5 |b|. *)
Definition agrees (s a b : R) : Prop := Rabs (a - b) <= s * (1 / 1000000 + 1 / 100000 * Rabs b).
Definition ends_agree (s : R) (p : profile) : Prop :=
  agrees s (hd 0 (xdown p)) (hd 0 (xup p)) /\ agrees s (last (xdown p) 0) (last (xup p) 0) /\
  agrees s (hd 0 (ydown p)) (hd 0 (yup p)) /\ agrees s (last (ydown p) 0) (last (yup p) 0).
(** Away from the two ends the upper ordinates are not below the lower ones. *)
Definition in_order (p : profile) : Prop :=
  forall i u d, (0 < i)%nat -> (S i < length (yup p))%nat ->
    nth_error (yup p) i = Some u -> nth_error (ydown p) i = Some d -> d <= u.
(** Abscissae of the two surfaces equal one by one, all numbers. *)
Definition common_abscissae (p : fprofile) : Prop :=
  Forall is_number (fxup p) /\ Forall is_number (fxdown p) /\ map real (fxup p) = map real (fxdown p).
(** No overflow or underflow on the way from the exact thickness [e] to [T], the
    ordinates being at most [M]. *)
Definition reachable (T : b64) (e M : R) : Prop :=
  is_number T /\ 0 < e /\ (real T = 0 \/ bpow radix2 (-1021) <= Rabs (real T / e) <= huge / 4) /\ M * Rabs (real T / e) <= huge / 4.
