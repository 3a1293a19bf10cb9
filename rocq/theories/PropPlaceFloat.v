(** C127: a scaled section set at its pitch, skew and rake in binary64 arithmetic. *)
From Coq Require Import Reals ZArith List Lra Lia Bool.
From Flocq Require Import Core BinarySingleNaN.
From Verif Require Import Base ProfileModel PpgFloatModel PpgFloatProofs FloatModel FloatSpec FloatProofs FloatProofs2 SectionFloatProofs3 WrapFloatSpec WrapFloatProofs PitchFloatModel PitchFloatSpec PitchFloatProofs RakeFloatModel RakeFloatSpec RakeFloatProofs PlaceFloatModel PlaceFloatSpec PlaceFloatProofs.
Import ListNotations.
Open Scope R_scope.

(** Placed in binary64 exactly when it is in real numbers, with the same exception otherwise; every coordinate
    within 39 + 10 / cos^2 (pitch angle) roundings of the largest length at play. *)
Theorem C127_placed : forall how at64 tn64 sn cs refl p r s k q M, accurate at64 atan -> accurate_tangent tn64 -> accurate sn sin -> accurate cs cos -> at_most_one sn -> at_most_one cs ->
  moderate_ordinate p -> moderate_radius r -> moderate_ordinate s -> is_number k -> numbers q -> let v := real p / (2 * PI * real r) in let S := real s * PI / 180 in Rabs v <= 4 ->
  every (fun z => Rabs z <= M) (meaning q) -> real r * Rabs S <= M -> Rabs (real k) <= M -> Rabs (real p * real s / 360) <= M -> M <= bpow radix2 600 ->
  match place64 how at64 tn64 sn cs refl p r s k q,
        (let* t := rotate (Some (PI / 2 - atan v)) None (if refl then reflect (meaning q) else meaning q) in
         Ok (translate (- (real k + real p * real s / 360), 0) (translate (0, - (real r * S)) t))) with
  | Ok got, Ok exact => numbers got /\ pointwise (fun g z => Rabs (g - z) <= (39 + 10 * (1 + v * v)) * eps * M + 14 * (1 + real r) * eta) (meaning got) exact
  | Err e, Err e' => e = e'
  | _, _ => False
  end.
Proof. exact placed. Qed.
Print Assumptions C127_placed.

(** The pitch angle and the induced rake of the placement are the entries of the arrays of C124 and C125. *)
Theorem C127_entries : forall at64 tn64 pitch radii skew i p r s, length pitch = length radii -> length skew = length radii -> nth_error pitch i = Some p -> nth_error radii i = Some r -> nth_error skew i = Some s ->
  exists angles rakes, pitch_angles64 at64 pitch radii = Ok angles /\ induced_rake64 at64 tn64 pitch radii skew = Ok rakes /\ nth_error angles i = Some (pitch_angle64 at64 p r) /\ nth_error rakes i = Some (skew_rake64 at64 tn64 p r s).
Proof. exact entries. Qed.
Print Assumptions C127_entries.

(** Pitch 2, radius 1, one degree of skew, rake 1; two points on each face; both placements succeed. *)
Example C127_example : let q := mkF [zero64; f1] [zero64; f1] [f1; two64] [zero64; f1] in
  accurate (nearest52 atan) atan /\ accurate_tangent (nearest54 tan) /\ accurate (nearest54 sin) sin /\ accurate (nearest54 cos) cos /\ at_most_one (nearest54 sin) /\ at_most_one (nearest54 cos) /\
  moderate_ordinate two64 /\ moderate_radius f1 /\ moderate_ordinate f1 /\ is_number f1 /\ numbers q /\ Rabs (real two64 / (2 * PI * real f1)) <= 4 /\ every (fun z => Rabs z <= 2) (meaning q) /\
  real f1 * Rabs (real f1 * PI / 180) <= 2 /\ Rabs (real f1) <= 2 /\ Rabs (real two64 * real f1 / 360) <= 2 /\ 2 <= bpow radix2 600 /\
  (exists t, rotate (Some (PI / 2 - atan (real two64 / (2 * PI * real f1)))) None (reflect (meaning q)) = Ok t /\ length (xup t) = 2%nat).
Proof.
  intros q. split; [apply nearest52_good, atan_two|]. split; [exact nearest54_tangent|]. split; [apply nearest54_good, sine_bound|]. split; [apply nearest54_good, cosine_bound|]. split; [apply nearest54_at_most_one, sine_bound|]. split; [apply nearest54_at_most_one, cosine_bound|].
  pose proof f1_val as V1. destruct two64_val as (V2 & _). pose proof pi_close as PC.
  assert (P : 2 <= bpow radix2 300) by (change 2 with (bpow radix2 1); apply bpow_le; lia). assert (P6 : 2 <= bpow radix2 600) by (change 2 with (bpow radix2 1); apply bpow_le; lia). assert (Q : bpow radix2 (-300) <= 1) by (change 1 with (bpow radix2 0); apply bpow_le; lia).
  assert (D : forall a b, 0 <= a <= 2 -> 1 <= b -> Rabs (a / b) <= 4). { intros a b A B. unfold Rdiv. assert (0 < / b <= 1) by (split; [apply Rinv_0_lt_compat; lra|rewrite <- Rinv_1; apply Rinv_le_contravar; lra]). rewrite Rabs_pos_eq by (apply Rmult_le_pos; lra). apply Rle_trans with (2 * 1); [apply Rmult_le_compat; lra|lra]. }
  assert (B1 : Rabs (real f1) <= 2) by (unfold real; rewrite V1; apply Rabs_le; lra). assert (B2 : Rabs (real two64) <= 2) by (unfold real; rewrite V2; apply Rabs_le; lra). assert (B0 : Rabs (real zero64) <= 2) by (change (real zero64) with 0; apply Rabs_le; lra).
  assert (NQ : numbers q) by (repeat split; repeat constructor). assert (BQ : every (fun z => Rabs z <= 2) (meaning q)) by (unfold every, meaning, q; cbn [fxup fxdown fyup fydown xup xdown yup ydown map]; (split; [|split; [|split]]); apply Forall_cons; try assumption; apply Forall_cons; try assumption; apply Forall_nil).
  assert (R1 : real f1 = 1) by exact V1. assert (R2 : real two64 = 2) by exact V2.
  unfold moderate_radius, moderate_ordinate. split; [split; [reflexivity|lra]|]. split; [split; [reflexivity|lra]|]. split; [split; [reflexivity|lra]|]. split; [reflexivity|]. split; [exact NQ|]. split; [apply D; rewrite ?R1, ?R2; lra|]. split; [exact BQ|].
  split; [rewrite R1, Rabs_pos_eq by lra; lra|]. split; [exact B1|]. split; [rewrite R1, R2; apply Rabs_le; lra|]. split; [exact P6|]. eexists. split; reflexivity.
Qed.
