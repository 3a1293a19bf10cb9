(** C124: pitch angles of the sections in binary64 arithmetic. *)
From Coq Require Import Reals ZArith List Lra Lia Bool.
From Flocq Require Import Core BinarySingleNaN.
From Verif Require Import Base PpgFloatModel PpgFloatProofs FloatModel FloatSpec FloatProofs FloatProofs2 ShapeFloatModel ShapeFloatSpec ShapeFloatProofs SectionFloatModel SectionFloatProofs3 ChordFloatModel WrapFloatSpec PitchFloatModel PitchFloatSpec PitchFloatProofs.
Import ListNotations.
Open Scope R_scope.

(** One angle per section, within 3.3 roundings of the angle whose tangent is pitch over circumference. *)
Theorem C124_angles : forall at64 pitch radii, accurate at64 atan -> length pitch = length radii -> exists angles, pitch_angles64 at64 pitch radii = Ok angles /\ length angles = length radii /\
  forall i p r, nth_error pitch i = Some p -> nth_error radii i = Some r -> moderate_ordinate p -> moderate_radius r ->
  exists a, nth_error angles i = Some a /\ is_number a /\ Rabs (real a - atan (real p / (2 * PI * real r))) <= 3.3 * eps.
Proof. exact angles. Qed.
Print Assumptions C124_angles.

(** The circumference of the unit circle is twice [np.pi] to 0.4 roundings. *)
Theorem C124_two_pi : Rabs (real (fmul two64 pi64) - 2 * PI) <= 0.4 * (eps * (2 * PI)).
Proof. exact two_pi_near. Qed.
Print Assumptions C124_two_pi.

Theorem C124_lengths : forall at64 pitch radii, length pitch <> length radii -> pitch_angles64 at64 pitch radii = Err ValueError.
Proof. exact angles_lengths. Qed.
Print Assumptions C124_lengths.

(** Pitches 1 and 2 on radii 2 and 1, the arc tangent rounded to multiples of 2^-52. *)
Example C124_example : accurate (nearest52 atan) atan /\ length [f1; two64] = length [two64; f1] /\ moderate_ordinate f1 /\ moderate_ordinate two64 /\ moderate_radius f1 /\ moderate_radius two64 /\ length [f1] <> length [two64; f1].
Proof.
  split; [apply nearest52_good, atan_two|]. split; [reflexivity|]. pose proof f1_val as V1. destruct two64_val as (V2 & _).
  assert (P : 2 <= bpow radix2 300) by (change 2 with (bpow radix2 1); apply bpow_le; lia). assert (Q : bpow radix2 (-300) <= 1) by (change 1 with (bpow radix2 0); apply bpow_le; lia).
  unfold moderate_radius, moderate_ordinate, real. rewrite V1, V2. repeat split; try lra; try (apply Rabs_le; lra). discriminate.
Qed.
