(** C125: rake induced by the skew of the sections in binary64 arithmetic. *)
From Coq Require Import Reals ZArith List Lra Lia Bool.
From Flocq Require Import Core BinarySingleNaN.
From Verif Require Import Base PpgFloatModel PpgFloatProofs FloatModel FloatSpec FloatProofs FloatProofs2 ShapeFloatModel ShapeFloatSpec ShapeFloatProofs SectionFloatModel SectionFloatProofs3 ChordFloatModel WrapFloatSpec PitchFloatModel PitchFloatSpec PitchFloatProofs RakeFloatModel RakeFloatSpec RakeFloatProofs.
Import ListNotations.
Open Scope R_scope.

(** One rake per section, the pitch times the skew as a fraction of the turn to 9 roundings of the arm
    over the squared cosine of the pitch angle; the radius drops out. *)
Theorem C125_rakes : forall at64 tn64 pitch radii skew, accurate at64 atan -> accurate_tangent tn64 -> length pitch = length radii -> length skew = length radii ->
  exists rakes, induced_rake64 at64 tn64 pitch radii skew = Ok rakes /\ length rakes = length radii /\
  forall i p r s, nth_error pitch i = Some p -> nth_error radii i = Some r -> nth_error skew i = Some s -> moderate_ordinate p -> moderate_radius r -> moderate_ordinate s ->
  let v := real p / (2 * PI * real r) in Rabs v <= 4 ->
  exists q, nth_error rakes i = Some q /\ is_number q /\ Rabs (real q - real p * real s / 360) <= 9 * eps * (real r * Rabs (real s * PI / 180) * (1 + v * v)) + 8 * (1 + real r) * eta.
Proof. exact rakes. Qed.
Print Assumptions C125_rakes.

(** No skew, no rake, exactly. *)
Theorem C125_no_skew : forall at64 tn64 pitch radii skew i p r s, accurate at64 atan -> accurate_tangent tn64 -> length pitch = length radii -> length skew = length radii ->
  nth_error pitch i = Some p -> nth_error radii i = Some r -> nth_error skew i = Some s -> moderate_ordinate p -> moderate_radius r -> is_number s -> real s = 0 -> Rabs (real p / (2 * PI * real r)) <= 4 ->
  exists rakes q, induced_rake64 at64 tn64 pitch radii skew = Ok rakes /\ nth_error rakes i = Some q /\ is_number q /\ real q = 0.
Proof. exact no_skew. Qed.
Print Assumptions C125_no_skew.

Theorem C125_lengths : forall at64 tn64 pitch radii skew, length pitch <> length radii \/ length skew <> length radii -> induced_rake64 at64 tn64 pitch radii skew = Err ValueError.
Proof. exact rakes_lengths. Qed.
Print Assumptions C125_lengths.

(** Pitches 1 and 2, radii 2 and 1, skews 0 and 1 degrees; functions rounded to multiples of 2^-52 and 2^-54. *)
Example C125_example : accurate (nearest52 atan) atan /\ accurate_tangent (nearest54 tan) /\ length [f1; two64] = length [two64; f1] /\ length [zero64; f1] = length [two64; f1] /\
  moderate_ordinate f1 /\ moderate_ordinate two64 /\ moderate_ordinate zero64 /\ moderate_radius f1 /\ moderate_radius two64 /\ real zero64 = 0 /\
  Rabs (real f1 / (2 * PI * real two64)) <= 4 /\ Rabs (real two64 / (2 * PI * real f1)) <= 4.
Proof.
  split; [apply nearest52_good, atan_two|]. split; [exact nearest54_tangent|]. split; [reflexivity|]. split; [reflexivity|]. pose proof f1_val as V1. destruct two64_val as (V2 & _). pose proof pi_close as PC.
  assert (P : 2 <= bpow radix2 300) by (change 2 with (bpow radix2 1); apply bpow_le; lia). assert (Q : bpow radix2 (-300) <= 1) by (change 1 with (bpow radix2 0); apply bpow_le; lia).
  assert (D : forall a b, 0 <= a <= 2 -> 1 <= b -> Rabs (a / b) <= 4). { intros a b A B. unfold Rdiv. assert (0 < / b <= 1) by (split; [apply Rinv_0_lt_compat; lra|rewrite <- Rinv_1; apply Rinv_le_contravar; lra]). rewrite Rabs_pos_eq by (apply Rmult_le_pos; lra). apply Rle_trans with (2 * 1); [apply Rmult_le_compat; lra|lra]. }
  unfold moderate_radius, moderate_ordinate, real. change (@B2R 53 1024 zero64) with 0. rewrite V1, V2. repeat split; try lra; try (apply Rabs_le; lra); apply D; lra.
Qed.
