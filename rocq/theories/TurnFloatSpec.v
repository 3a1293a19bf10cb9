(** Vocabulary for the rotation of a blade in binary64. *)
From Coq Require Import Reals ZArith List String.
From Flocq Require Import Core BinarySingleNaN.
From Verif Require Import PpgFloatModel FloatModel FloatSpec.
Open Scope R_scope.

(** Rotation of space by the angle [t] about a coordinate axis. *)
Definition turned (axis : string) (t : R) (p : R * R * R) : R * R * R :=
  let '(x, y, z) := p in
  if String.eqb axis "x" then (x, cos t * y - sin t * z, sin t * y + cos t * z)
  else if String.eqb axis "y" then (cos t * x - sin t * z, y, sin t * x + cos t * z)
  else (cos t * x - sin t * y, sin t * x + cos t * y, z).
Definition along (axis : string) (p : R * R * R) : R :=
  let '(x, y, z) := p in if String.eqb axis "x" then x else if String.eqb axis "y" then y else z.
Definition meant (p : b64 * b64 * b64) : R * R * R := let '(x, y, z) := p in (real x, real y, real z).
Definition numbers3 (p : b64 * b64 * b64) : Prop := let '(x, y, z) := p in is_number x /\ is_number y /\ is_number z.
Definition within (M : R) (p : R * R * R) : Prop := let '(x, y, z) := p in Rabs x <= M /\ Rabs y <= M /\ Rabs z <= M.
Definition apart (d : R) (p q : R * R * R) : Prop :=
  let '(x, y, z) := p in let '(u, v, w) := q in Rabs (x - u) <= d /\ Rabs (y - v) <= d /\ Rabs (z - w) <= d.
(** Every point of [S] has moved to its place turned by [t], to [e] times the size of its coordinates, and
    keeps its coordinate along the axis exactly. *)
Definition moved (axis : string) (t e : R) (S S' : list (list (b64 * b64 * b64))) : Prop :=
  List.length S' = List.length S /\ forall k l, nth_error S k = Some l -> exists l', nth_error S' k = Some l' /\ List.length l' = List.length l /\
  forall i p, nth_error l i = Some p -> exists q, nth_error l' i = Some q /\ forall M, numbers3 p -> within M (meant p) -> M <= bpow radix2 1000 ->
  numbers3 q /\ apart (e * M + 4 * eta) (meant q) (turned axis t (meant p)) /\ along axis (meant q) = along axis (meant p).
