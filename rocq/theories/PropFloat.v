(** C85 - C88: the motions of a profile in binary64 arithmetic. *)
From Coq Require Import Reals ZArith List Lra Lia Bool Sorted.
From Flocq Require Import Core BinarySingleNaN.
From Verif Require Import Base PpgFloatModel PpgFloatProofs ProfileModel FloatModel FloatSpec FloatProofs FloatProofs2.
Import ListNotations.
Open Scope R_scope.

(** ** C85 *)
Theorem C85_reflect_twice : forall p, reflect64 (reflect64 p) = p.
Proof. exact reflect64_twice. Qed.
Print Assumptions C85_reflect_twice.

Theorem C85_reflect_is_exact : forall p, meaning (reflect64 p) = reflect (meaning p) /\ (numbers (reflect64 p) <-> numbers p).
Proof. exact reflect64_meaning. Qed.
Print Assumptions C85_reflect_is_exact.

Example C85_example : numbers (mkF [f01; f07] [f01] [nan64; f1] []) -> False.
Proof. intros (_ & _ & H & _). inversion H. discriminate. Qed.
Example C85_example2 : numbers (mkF [f01; f07] [f01; f07] [f1; zero64] [f1; zero64]) /\
  reflect64 (mkF [nan64; f1] [] [zero64] []) = mkF [nan64; minus_one] [] [@B754_zero 53 1024 true] [].
Proof. split; [repeat split; repeat constructor|]. unfold reflect64, scale_coords64. cbn [map fxup fxdown fyup fydown]. rewrite !times_minus_one. reflexivity. Qed.

(** ** C86 *)
Theorem C86_translate_error : forall v p, numbers p -> is_number (fst v) -> is_number (snd v) ->
  every (fun z => Rabs z <= huge) (translate (real (fst v), real (snd v)) (meaning p)) ->
  numbers (translate64 v p) /\
  pointwise (fun got exact => Rabs (got - exact) <= eps * Rabs exact)
    (meaning (translate64 v p)) (translate (real (fst v), real (snd v)) (meaning p)).
Proof. exact translate64_error. Qed.
Print Assumptions C86_translate_error.

Theorem C86_exact_on_a_grid : forall e v p, (-1074 <= e <= 970)%Z -> numbers p -> is_number (fst v) -> is_number (snd v) ->
  every (on_grid e) (meaning p) -> on_grid e (real (fst v)) -> on_grid e (real (snd v)) ->
  meaning (translate64 v p) = translate (real (fst v), real (snd v)) (meaning p) /\
  meaning (translate64 (fneg (fst v), fneg (snd v)) (translate64 v p)) = meaning p.
Proof. exact translate64_grid. Qed.
Print Assumptions C86_exact_on_a_grid.

Theorem C86_there_and_back : forall v p, numbers p -> is_number (fst v) -> is_number (snd v) ->
  every (fun z => Rabs z <= huge / 4) (meaning p) -> Rabs (real (fst v)) <= huge / 4 -> Rabs (real (snd v)) <= huge / 4 ->
  let back := meaning (translate64 (fneg (fst v), fneg (snd v)) (translate64 v p)) in
  let bound w := fun got x : R => Rabs (got - x) <= 2 * eps * (Rabs x + Rabs (x + w)) in
  Forall2 (bound (real (fst v))) (xup back) (xup (meaning p)) /\ Forall2 (bound (real (fst v))) (xdown back) (xdown (meaning p)) /\
  Forall2 (bound (real (snd v))) (yup back) (yup (meaning p)) /\ Forall2 (bound (real (snd v))) (ydown back) (ydown (meaning p)).
Proof. exact translate64_back. Qed.
Print Assumptions C86_there_and_back.

Theorem C86_order_kept : forall v p, numbers p -> is_number (fst v) ->
  Forall (fun z => Rabs z <= huge) (xup (translate (real (fst v), real (snd v)) (meaning p))) ->
  StronglySorted Rle (map real (fxup p)) -> StronglySorted Rle (map real (fxup (translate64 v p))).
Proof. exact translate64_sorted. Qed.
Print Assumptions C86_order_kept.

Theorem C86_there_and_back_refuted : exists x v : b64, is_number x /\ is_number v /\ 0 < real x < 1 /\ 0 < real v < 1 /\
  real (fadd (fadd x v) (fneg v)) <> real x.
Proof. exact back_refuted. Qed.
Print Assumptions C86_there_and_back_refuted.

Theorem C86_distinct_points_refuted : exists x y v : b64, is_number x /\ is_number y /\ is_number v /\ real x < real y /\ fadd x v = fadd y v.
Proof. exact strict_refuted. Qed.
Print Assumptions C86_distinct_points_refuted.

Local Ltac each := unfold every, meaning; cbn [xup xdown yup ydown fxup fxdown fyup fydown map translate scale_coords vshift vscale]; repeat split; repeat (apply Forall_cons; [|]); try apply Forall_nil.
Lemma small_numbers : real f1 = 1 /\ real two64 = 2 /\ real zero64 = 0 /\ 8 <= huge.
Proof.
  split; [unfold real, f1, B2R, F2R; cbn; lra|]. split; [apply two64_val|]. split; [reflexivity|].
  unfold huge. change 8 with (bpow radix2 3). apply bpow_le. lia.
Qed.
Example C86_example : let p := mkF [zero64; f1] [zero64; f1] [zero64; f1] [zero64; zero64] in
  numbers p /\ is_number f1 /\ every (on_grid 0) (meaning p) /\ on_grid 0 (real f1) /\
  every (fun z => Rabs z <= huge) (translate (real f1, real f1) (meaning p)) /\ every (fun z => Rabs z <= huge / 4) (meaning p) /\
  StronglySorted Rle (map real (fxup p)).
Proof.
  destruct small_numbers as (A & _ & Z & H). cbv zeta.
  assert (G0 : on_grid 0 (real zero64)) by (exists 0%Z; rewrite Z; split; [ring|lia]).
  assert (G1 : on_grid 0 (real f1)) by (exists 1%Z; rewrite A; split; [cbn; ring|lia]).
  split; [repeat split; repeat constructor|]. split; [reflexivity|].
  split; [each; auto|]. split; auto.
  split; [each; cbn [fst snd]; rewrite ?A, ?Z; rewrite Rabs_pos_eq; lra|].
  split; [each; rewrite ?A, ?Z; rewrite Rabs_pos_eq; lra|].
  cbn [fxup map]. rewrite A, Z. repeat constructor. lra.
Qed.

(** ** C87 *)
Theorem C87_edges : forall p le te, update_edges64 p = Ok (le, te) ->
  first (fxup p) = Ok (fst le) /\ first (fyup p) = Ok (snd le) /\ final (fxup p) = Ok (fst te) /\
  exists yun ydn, final (fyup p) = Ok yun /\ final (fydown p) = Ok ydn /\
  (is_number yun -> is_number ydn -> Rabs (real yun + real ydn) <= huge ->
   is_number (snd te) /\ Rmin (real yun) (real ydn) <= real (snd te) <= Rmax (real yun) (real ydn)).
Proof. exact edges64. Qed.
Print Assumptions C87_edges.

Theorem C87_tolerance : forall p xu0 xd0 xun xdn yu0 yun ydn, numbers p ->
  first (fxup p) = Ok xu0 -> first (fxdown p) = Ok xd0 -> final (fxup p) = Ok xun -> final (fxdown p) = Ok xdn ->
  first (fyup p) = Ok yu0 -> final (fyup p) = Ok yun -> final (fydown p) = Ok ydn ->
  is_number xu0 -> is_number xd0 -> is_number xun -> is_number xdn ->
  Rabs (real xu0 - real xd0) <= huge -> Rabs (real xun - real xdn) <= huge ->
  (Rabs (real xu0 - real xd0) <= 1 / 10000 -> Rabs (real xun - real xdn) <= 1 / 10000 -> exists e, update_edges64 p = Ok e) /\
  (forall e, update_edges64 p = Ok e -> Rabs (real xu0 - real xd0) <= 1 / 10000 + / 10 ^ 15 /\ Rabs (real xun - real xdn) <= 1 / 10000 + / 10 ^ 15) /\
  (forall e, update_edges64 p = Err e -> e = ValueError).
Proof. exact edges64_accept. Qed.
Print Assumptions C87_tolerance.

(** The tolerance compared with is the double nearest to 1e-4. *)
Theorem C87_tolerance_literal : forall z : b64, is_number z -> Rabs (real tol64 - 1 / 10000) <= Rabs (real z - 1 / 10000).
Proof. exact tol64_nearest. Qed.
Print Assumptions C87_tolerance_literal.

(** The reference point is the middle of the edges up to rounding. *)
Theorem C87_reference_point : forall p le te, update_edges64 p = Ok (le, te) ->
  is_number (fst le) -> is_number (snd le) -> is_number (fst te) -> is_number (snd te) ->
  Rabs (real (fst le) + real (fst te)) <= huge -> Rabs (real (snd le) + real (snd te)) <= huge ->
  exists r, reference_point64 p = Ok r /\ is_number (fst r) /\ is_number (snd r) /\
    (let mx := (real (fst le) + real (fst te)) / 2 in Rabs (real (fst r) - mx) <= 3 * eps * Rabs mx + eta) /\
    (let my := (real (snd le) + real (snd te)) / 2 in Rabs (real (snd r) - my) <= 3 * eps * Rabs my + eta).
Proof. exact reference64. Qed.
Print Assumptions C87_reference_point.

Theorem C87_nan_passes : forall p, first (fxup p) = Ok nan64 -> final (fxup p) = Ok nan64 -> fxdown p <> [] -> fyup p <> [] -> fydown p <> [] ->
  exists e, update_edges64 p = Ok e.
Proof. exact nan_accepted. Qed.
Print Assumptions C87_nan_passes.

Theorem C87_scale_error : forall k p, numbers p -> is_number k -> every (fun z => Rabs z <= huge) (scale_coords (real k) (meaning p)) ->
  exists q, scale64 k false p = Ok q /\ numbers q /\
  pointwise (fun got exact => Rabs (got - exact) <= eps * Rabs exact + eta) (meaning q) (scale_coords (real k) (meaning p)).
Proof. exact scale64_error. Qed.
Print Assumptions C87_scale_error.

Theorem C87_power_of_two : forall k j p, numbers p -> is_number k -> real k = bpow radix2 j ->
  every (fun z => z = 0 \/ bpow radix2 (-1022) <= Rabs z <= huge) (scale_coords (real k) (meaning p)) ->
  exists q, scale64 k false p = Ok q /\ numbers q /\ meaning q = scale_coords (real k) (meaning p).
Proof. exact scale64_power. Qed.
Print Assumptions C87_power_of_two.

Theorem C87_scale_about_error : forall k p r, numbers p -> is_number k -> reference_point64 p = Ok r -> is_number (fst r) -> is_number (snd r) ->
  every (fun z => Rabs z <= huge / 4) (meaning p) -> Rabs (real (fst r)) <= huge / 4 -> Rabs (real (snd r)) <= huge / 4 ->
  (let spread c := fun z => Rabs (real k * (z - c)) <= huge / 4 in
   Forall (spread (real (fst r))) (xup (meaning p)) /\ Forall (spread (real (fst r))) (xdown (meaning p)) /\
   Forall (spread (real (snd r))) (yup (meaning p)) /\ Forall (spread (real (snd r))) (ydown (meaning p))) ->
  exists q, scale64 k true p = Ok q /\ numbers q /\
  let bound c := fun got x : R => Rabs (got - (c + real k * (x - c))) <=
                    eps * Rabs (c + real k * (x - c)) + 3 * eps * Rabs (real k * (x - c)) + 2 * eta in
  Forall2 (bound (real (fst r))) (xup (meaning q)) (xup (meaning p)) /\ Forall2 (bound (real (fst r))) (xdown (meaning q)) (xdown (meaning p)) /\
  Forall2 (bound (real (snd r))) (yup (meaning q)) (yup (meaning p)) /\ Forall2 (bound (real (snd r))) (ydown (meaning q)) (ydown (meaning p)).
Proof. exact scale64_about. Qed.
Print Assumptions C87_scale_about_error.

Example C87_example : let p := mkF [zero64; two64] [zero64; two64] [zero64; zero64] [zero64; zero64] in
  (exists e, update_edges64 p = Ok e) /\ reference_point64 p = Ok (f1, zero64) /\ numbers p /\
  every (fun z => Rabs z <= huge / 4) (meaning p) /\
  every (fun z => z = 0 \/ bpow radix2 (-1022) <= Rabs z <= huge) (scale_coords (real two64) (meaning p)) /\
  Forall (fun z => Rabs (real two64 * (z - real f1)) <= huge / 4) (xup (meaning p)).
Proof.
  destruct small_numbers as (A & B & Z & H). cbv zeta.
  assert (E : update_edges64 (mkF [zero64; two64] [zero64; two64] [zero64; zero64] [zero64; zero64]) = Ok ((zero64, zero64), (two64, zero64))) by (vm_compute; reflexivity).
  split; [eauto|]. split.
  { unfold reference_point64. rewrite E. cbn [bind fst snd]. do 2 f_equal. apply B2SF_inj. vm_compute. reflexivity. }
  split; [repeat split; repeat constructor|].
  split; [each; rewrite ?B, ?Z; rewrite Rabs_pos_eq; lra|].
  assert (B4 : bpow radix2 (-1022) <= 4) by (change 4 with (bpow radix2 2); apply bpow_le; lia).
  split; [each; rewrite ?B, ?Z; rewrite ?Rmult_0_l; try (left; reflexivity); right; rewrite Rabs_pos_eq; lra|].
  each; rewrite ?A, ?B, ?Z; unfold Rabs; destruct Rcase_abs; lra.
Qed.

(** ** C88 *)
Theorem C88_rotate_error : forall how c s p theta delta M, numbers p -> is_number c -> is_number s -> Rabs (real c) <= 1 -> Rabs (real s) <= 1 ->
  Rabs (real c - cos theta) <= delta -> Rabs (real s - sin theta) <= delta -> every (fun z => Rabs z <= M) (meaning p) -> M <= huge / 8 ->
  match rotate64 how c s p, rotate (Some theta) None (meaning p) with
  | Ok q, Ok exact => numbers q /\ pointwise (fun got z => Rabs (got - z) <= 2 * M * (delta + 3 * eps) + 3 * eta) (meaning q) exact
  | Err e, Err e' => e = e'
  | _, _ => False
  end.
Proof. exact rotate64_error. Qed.
Print Assumptions C88_rotate_error.

Example C88_example : is_number f1 /\ Rabs (real f1) <= 1 /\ Rabs (real f1 - cos 0) <= 0 /\ Rabs (real zero64 - sin 0) <= 0 /\
  every (fun z => Rabs z <= 1) (meaning (mkF [zero64; f1] [zero64; f1] [zero64; f1] [zero64; zero64])) /\ 1 <= huge / 8.
Proof.
  destruct small_numbers as (A & _ & Z & H). rewrite cos_0, sin_0. split; [reflexivity|].
  split; [rewrite A, Rabs_R1; lra|]. split; [rewrite A, Rminus_diag_eq, Rabs_R0 by lra; lra|]. split; [rewrite Z, Rminus_diag_eq, Rabs_R0 by lra; lra|].
  split; [each; rewrite ?A, ?Z; rewrite Rabs_pos_eq; lra|]. lra.
Qed.
