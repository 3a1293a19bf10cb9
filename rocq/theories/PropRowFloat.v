(** C129: the scaled sections of a blade placed and laid on their cylinders in binary64 arithmetic. *)
From Coq Require Import Reals ZArith List Lra Lia Bool.
From Flocq Require Import Core BinarySingleNaN.
From Verif Require Import Base ProfileModel PpgFloatModel PpgFloatProofs FloatModel FloatSpec FloatProofs FloatProofs2 SectionFloatProofs3 WrapFloatSpec WrapFloatProofs PitchFloatModel PitchFloatSpec PitchFloatProofs RakeFloatModel RakeFloatSpec RakeFloatProofs PlaceFloatModel PlaceFloatSpec PlaceFloatProofs LayFloatModel LayFloatSpec LayFloatProofs RowFloatModel RowFloatSpec RowFloatProofs.
Import ListNotations.
Open Scope R_scope.

(** From the last section back, every point of either face within [laid_error] of the exactly placed point wound on the cylinder of its section. *)
Theorem C129_laid : forall how at64 tn64 sn cs refl blade up down, accurate at64 atan -> accurate_tangent tn64 -> accurate sn sin -> accurate cs cos -> at_most_one sn -> at_most_one cs ->
  blade64 how at64 tn64 sn cs refl blade = Ok (up, down) -> length up = length blade /\ length down = length blade /\
  forall i s M, nth_error (rev blade) i = Some s -> fits M s -> exists exact U D, true_place refl s = Ok exact /\ nth_error up i = Some U /\ nth_error down i = Some D /\
  wound (real (sradius s)) (laid_error M s) (xup exact) (yup exact) U /\ wound (real (sradius s)) (laid_error M s) (xdown exact) (ydown exact) D.
Proof. exact row_laid. Qed.
Print Assumptions C129_laid.

(** Built whatever the numbers when the sections have equal sizes and no more points above than below. *)
Theorem C129_built : forall how at64 tn64 sn cs refl blade n m, blade <> [] -> (n <= m)%nat ->
  Forall (fun s => length (fxup (ssection s)) = n /\ length (fyup (ssection s)) = n /\ length (fxdown (ssection s)) = m /\ length (fydown (ssection s)) = m) blade ->
  exists up down, blade64 how at64 tn64 sn cs refl blade = Ok (up, down).
Proof. exact row_built. Qed.
Print Assumptions C129_built.

(** A section with fewer points below than above: IndexError, whatever comes after it. *)
Theorem C129_refused : forall how at64 tn64 sn cs refl before s after n m, Forall (fun s => length (fxup (ssection s)) = n /\ length (fyup (ssection s)) = n /\ length (fxdown (ssection s)) = m /\ length (fydown (ssection s)) = m) before -> (n <= m)%nat ->
  length (fxup (ssection s)) = length (fyup (ssection s)) -> length (fxdown (ssection s)) = length (fydown (ssection s)) -> (length (fxdown (ssection s)) < length (fxup (ssection s)))%nat ->
  blade64 how at64 tn64 sn cs refl (before ++ s :: after) = Err IndexError.
Proof. exact row_refused. Qed.
Print Assumptions C129_refused.

(** Two sections of two points on radii 1 and 2, pitches 2 and 1, skews 1 and 0 degrees, rakes 1 and 0; [scarce] lacks a lower point. *)
Definition face2 : fprofile := mkF [zero64; f1] [zero64; f1] [f1; two64] [zero64; f1].
Definition scarce : fprofile := mkF [zero64; f1] [zero64] [f1; two64] [zero64].
Definition blade2 : list station := [mkStation two64 f1 f1 f1 face2; mkStation f1 two64 zero64 zero64 face2].
Example C129_example : accurate (nearest52 atan) atan /\ accurate_tangent (nearest54 tan) /\ accurate (nearest54 sin) sin /\ accurate (nearest54 cos) cos /\ at_most_one (nearest54 sin) /\ at_most_one (nearest54 cos) /\
  Forall (fits 2) blade2 /\ (exists up down, blade64 (fun _ _ _ _ => Unfused) (nearest52 atan) (nearest54 tan) (nearest54 sin) (nearest54 cos) true blade2 = Ok (up, down)) /\
  blade64 (fun _ _ _ _ => Unfused) (nearest52 atan) (nearest54 tan) (nearest54 sin) (nearest54 cos) true (blade2 ++ [mkStation two64 f1 f1 f1 scarce]) = Err IndexError.
Proof.
  split; [apply nearest52_good, atan_two|]. split; [exact nearest54_tangent|]. split; [apply nearest54_good, sine_bound|]. split; [apply nearest54_good, cosine_bound|]. split; [apply nearest54_at_most_one, sine_bound|]. split; [apply nearest54_at_most_one, cosine_bound|].
  split; [|split; [apply (row_built _ _ _ _ _ _ _ 2 2); [discriminate|lia|repeat constructor]|apply (row_refused _ _ _ _ _ _ _ _ _ 2 2); [repeat constructor|lia|reflexivity|reflexivity|cbn; lia]]].
  pose proof pi_close as PC. assert (P : 2 <= bpow radix2 300) by (change 2 with (bpow radix2 1); apply bpow_le; lia). assert (P6 : 2 <= bpow radix2 290) by (change 2 with (bpow radix2 1); apply bpow_le; lia). assert (Q : bpow radix2 (-300) <= 1) by (change 1 with (bpow radix2 0); apply bpow_le; lia).
  assert (D : forall a b, 0 <= a <= 2 -> 1 <= b -> Rabs (a / b) <= 4). { intros a b A B. unfold Rdiv. assert (0 < / b <= 1) by (split; [apply Rinv_0_lt_compat; lra|rewrite <- Rinv_1; apply Rinv_le_contravar; lra]). rewrite Rabs_pos_eq by (apply Rmult_le_pos; lra). apply Rle_trans with (2 * 1); [apply Rmult_le_compat; lra|lra]. }
  assert (R1 : real f1 = 1) by exact f1_val. assert (R2 : real two64 = 2) by exact (proj1 two64_val). assert (R0 : real zero64 = 0) by reflexivity.
  assert (NQ : numbers face2) by (repeat split; repeat constructor). assert (BQ : every (fun z => Rabs z <= 2) (meaning face2)) by (unfold every, meaning, face2; cbn [fxup fxdown fyup fydown xup xdown yup ydown map]; rewrite R0, R1, R2; (split; [|split; [|split]]); apply Forall_cons; try (apply Rabs_le; lra); apply Forall_cons; try (apply Rabs_le; lra); apply Forall_nil).
  apply Forall_cons; [|apply Forall_cons; [|apply Forall_nil]]; unfold fits, slope, moderate_radius, moderate_ordinate; cbn [spitch sradius sskew srake ssection]; rewrite ?R0, ?R1, ?R2.
  - split; [split; [reflexivity|apply Rabs_le; lra]|]. split; [split; [reflexivity|lra]|]. split; [split; [reflexivity|apply Rabs_le; lra]|]. split; [reflexivity|]. split; [exact NQ|]. split; [apply D; lra|]. split; [exact BQ|]. split; [rewrite Rabs_pos_eq by lra; lra|]. split; [apply Rabs_le; lra|]. split; [apply Rabs_le; lra|exact P6].
  - split; [split; [reflexivity|apply Rabs_le; lra]|]. split; [split; [reflexivity|lra]|]. split; [split; [reflexivity|apply Rabs_le; lra]|]. split; [reflexivity|]. split; [exact NQ|]. split; [apply D; lra|]. split; [exact BQ|]. split; [rewrite Rabs_pos_eq by lra; lra|]. split; [apply Rabs_le; lra|]. split; [apply Rabs_le; lra|exact P6].
Qed.
