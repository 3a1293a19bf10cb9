(** C126: rotation of a blade about an axis in binary64 arithmetic. *)
From Coq Require Import Reals ZArith List Lra Lia Bool String.
From Flocq Require Import Core BinarySingleNaN.
From Verif Require Import Base PpgFloatModel PpgFloatProofs FloatModel FloatSpec FloatProofs FloatProofs2 SectionFloatProofs3 WrapFloatSpec WrapFloatProofs RakeFloatModel TurnFloatModel TurnFloatSpec TurnFloatProofs.
Import ListNotations.
Open Scope R_scope.

(** By an angle in radians, whichever products are fused: every point within 8.1 roundings of its place. *)
Theorem C126_radians : forall f sn cs t axis up down, accurate sn sin -> accurate cs cos -> up <> [] -> axis = "x"%string \/ axis = "y"%string \/ axis = "z"%string -> is_number t ->
  exists up' down', turn64 f sn cs None (Some t) axis up down = Ok (up', down') /\ moved axis (real t) (8.1 * eps) up up' /\ moved axis (real t) (8.1 * eps) down down'.
Proof. exact turned_by_radians. Qed.
Print Assumptions C126_radians.

(** By an angle in degrees, the error of the conversion added. *)
Theorem C126_degrees : forall f sn cs g axis up down, accurate sn sin -> accurate cs cos -> up <> [] -> axis = "x"%string \/ axis = "y"%string \/ axis = "z"%string -> is_number g -> Rabs (real g) <= 1000000 ->
  let t := real g * PI / 180 in exists up' down', turn64 f sn cs (Some g) None axis up down = Ok (up', down') /\ moved axis t (8.2 * eps + 5.1 * eps * Rabs t) up up' /\ moved axis t (8.2 * eps + 5.1 * eps * Rabs t) down down'.
Proof. exact turned_by_degrees. Qed.
Print Assumptions C126_degrees.

(** No coordinates, both angles, neither, or another axis: ValueError. *)
Theorem C126_refused : forall f sn cs deg rad axis up down, up = [] \/ (deg = None <-> rad = None) \/ (axis <> "x"%string /\ axis <> "y"%string /\ axis <> "z"%string) -> turn64 f sn cs deg rad axis up down = Err ValueError.
Proof. exact turn_refused. Qed.
Print Assumptions C126_refused.

(** One radian and one degree, the point (1, 2, 0), the sine and cosine rounded to multiples of 2^-54. *)
Example C126_example : accurate (nearest54 sin) sin /\ accurate (nearest54 cos) cos /\ [[(f1, two64, zero64)]] <> [] /\ is_number f1 /\ Rabs (real f1) <= 1000000 /\
  numbers3 (f1, two64, zero64) /\ within 2 (meant (f1, two64, zero64)) /\ 2 <= bpow radix2 1000 /\ turned "z" (PI / 2) (1, 2, 0) = (-2, 1, 0).
Proof.
  split; [apply nearest54_good, sine_bound|]. split; [apply nearest54_good, cosine_bound|]. split; [discriminate|]. split; [reflexivity|]. pose proof f1_val as V1. destruct two64_val as (V2 & _).
  assert (P : 2 <= bpow radix2 1000) by (change 2 with (bpow radix2 1); apply bpow_le; lia). unfold meant, within, real. change (@B2R 53 1024 zero64) with 0. rewrite V1, V2.
  split; [apply Rabs_le; lra|]. split; [repeat split|]. split; [repeat split; apply Rabs_le; lra|]. split; [exact P|]. cbn [turned String.eqb Ascii.eqb Bool.eqb]. rewrite cos_PI2, sin_PI2. apply (f_equal2 pair); [apply (f_equal2 pair); ring|reflexivity].
Qed.
