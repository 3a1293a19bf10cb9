(** C122: the chord line sampled at a given number of points in binary64 arithmetic. *)
From Coq Require Import Reals ZArith List Lra Lia Bool.
From Flocq Require Import Core BinarySingleNaN.
From Verif Require Import Base PpgFloatModel PpgFloatProofs FloatModel FloatSpec FloatProofs FloatProofs2 ShapeFloatModel ShapeFloatSpec ShapeFloatProofs SectionFloatModel SectionFloatProofs3 ChordFloatModel ChordSampleModel ChordSampleProofs.
Import ListNotations.
Open Scope R_scope.

(** [n] points from the leading to the trailing edge, whatever edges the profile has: abscissae in order
    and nearly evenly spread, both ends exact, ordinates on the straight line to a few roundings. *)
Theorem C122_sampled : forall p n xa ya xb yb, update_edges64 p = Ok ((xa, ya), (xb, yb)) -> is_number xa -> is_number ya -> is_number xb -> is_number yb -> length (fxdown p) = length (fxup p) ->
  (2 <= n)%nat -> (Z.of_nat n <= 2 ^ 30)%Z -> bpow radix2 (-300) <= real xb - real xa <= bpow radix2 300 -> Rabs (real xa) <= huge -> Rabs (real xb) <= huge ->
  let D := real xb - real xa in let Y := real yb - real ya in let W := Rmax (Rabs (real ya)) (Rabs (real yb)) in W <= bpow radix2 300 ->
  exists xs hs, chord_line64 (Some n) p = Ok (xs, hs) /\ length xs = n /\ length hs = n /\ Forall is_number xs /\ Forall is_number hs /\
  real (nth 0 xs zero64) = real xa /\ real (nth 0 hs zero64) = real ya /\ real (nth (n - 1) xs zero64) = real xb /\
  (forall i j, (i <= j < n)%nat -> real (nth i xs zero64) <= real (nth j xs zero64)) /\
  forall i, (i < n)%nat -> let x := real (nth i xs zero64) in
    Rabs (x - (real xa + INR i / INR (n - 1) * D)) <= 4 * eps * D + eps * Rmax (Rabs (real xa)) (Rabs (real xb)) + eta /\
    Rabs (real (nth i hs zero64) - (real ya + Y / D * (x - real xa))) <= 6 * eps * Rabs Y + 2 * eps * W + 2 * (1 + D) * eta.
Proof. exact sampled_line. Qed.
Print Assumptions C122_sampled.

(** One point is the leading edge, not the trailing one. *)
Theorem C122_single : forall p xa ya xb yb, update_edges64 p = Ok ((xa, ya), (xb, yb)) -> is_number xa -> is_number ya -> is_number xb -> is_number yb -> length (fxdown p) = length (fxup p) ->
  bpow radix2 (-300) <= real xb - real xa <= bpow radix2 300 -> Rabs (real xa) <= huge -> Rmax (Rabs (real ya)) (Rabs (real yb)) <= bpow radix2 300 ->
  exists x h, chord_line64 (Some 1%nat) p = Ok ([x], [h]) /\ is_number x /\ is_number h /\ real x = real xa /\ real h = real ya.
Proof. exact single_point. Qed.
Print Assumptions C122_single.

(** No number of points, or none asked for: the profile's own abscissae if the surfaces share them (C120). *)
Theorem C122_default : forall p, common_abscissae p -> same_sizes p -> chord_line64 None p = compute_chord_line64 p /\ chord_line64 (Some 0%nat) p = compute_chord_line64 p.
Proof. exact default_line. Qed.
Print Assumptions C122_default.

(** One differing abscissa is enough for 500 points. *)
Theorem C122_differing : forall p i x y, numbers p -> same_sizes p -> nth_error (fxup p) i = Some x -> nth_error (fxdown p) i = Some y -> real x <> real y -> chord_line64 None p = chord_line64 (Some 500%nat) p.
Proof. exact differing_line. Qed.
Print Assumptions C122_differing.

(** An inclined chord from (0, 0) to (2, 1) with different abscissae in the middle. *)
Definition bent : fprofile := mkF [zero64; f1; two64] [zero64; f01; two64] [zero64; two64; f1] [zero64; zero64; f1].
Example C122_example : update_edges64 bent = Ok ((zero64, zero64), (two64, f1)) /\ length (fxdown bent) = length (fxup bent) /\
  is_number zero64 /\ is_number two64 /\ is_number f1 /\
  bpow radix2 (-300) <= real two64 - real zero64 <= bpow radix2 300 /\ Rabs (real zero64) <= huge /\ Rabs (real two64) <= huge /\
  Rmax (Rabs (real zero64)) (Rabs (real f1)) <= bpow radix2 300 /\ numbers bent /\ same_sizes bent /\ real f1 <> real f01.
Proof.
  split; [vm_compute; reflexivity|]. pose proof huge_big as HB. pose proof f1_val as V1. destruct two64_val as (V2 & _). pose proof f01_val as V3. assert (V0 : val zero64 = 0) by reflexivity. unfold real. rewrite V0, V1, V2.
  assert (P : 2 <= bpow radix2 300) by (change 2 with (bpow radix2 1); apply bpow_le; lia). assert (Q : bpow radix2 (-300) <= 1) by (change 1 with (bpow radix2 0); apply bpow_le; lia).
  split; [reflexivity|]. do 3 (split; [reflexivity|]). split; [lra|]. split; [apply Rabs_le; lra|]. split; [apply Rabs_le; lra|]. split; [apply Rmax_lub; apply Rabs_le; lra|]. split; [repeat split; repeat constructor|]. split; [repeat split|]. lra.
Qed.
(** Five points; the middle one is (1, 1/2) exactly. *)
Example C122_example_values : match chord_line64 (Some 5%nat) bent with
  | Ok (xs, hs) => B2SF (nth 2 xs zero64) = B2SF f1 /\ B2SF (nth 2 hs zero64) = SpecFloat.S754_finite false 4503599627370496 (-53) /\ B2SF (nth 4 hs zero64) = B2SF f1 /\ length xs = 5%nat
  | Err _ => False end.
Proof. vm_compute. repeat split. Qed.
