(** C123: planar sections wrapped around cylinders in binary64 arithmetic. *)
From Coq Require Import Reals ZArith List Lra Lia Bool.
From Flocq Require Import Core BinarySingleNaN.
From Verif Require Import Base PpgFloatModel PpgFloatProofs FloatModel FloatSpec FloatProofs FloatProofs2 ShapeFloatModel ShapeFloatSpec ShapeFloatProofs SectionFloatModel SectionFloatProofs3 ChordFloatModel ChordSampleModel ChordSampleProofs WrapFloatModel WrapFloatSpec WrapFloatProofs.
Import ListNotations.
Open Scope R_scope.

(** Sections from the last one back, each with its own radius: every point of either surface keeps its
    abscissa and lies on the cylinder of its section, at the arc its ordinate measures. *)
Theorem C123_on_cylinders : forall sn cs sections radii up down, accurate sn sin -> accurate cs cos -> cylinder64 sn cs sections radii = Ok (up, down) ->
  length up = Nat.min (length sections) (length radii) /\ length down = length up /\
  forall i, (i < length up)%nat -> exists s r U V, nth_error (rev sections) i = Some s /\ nth_error (rev radii) i = Some r /\ nth_error up i = Some U /\ nth_error down i = Some V /\
  length U = length (fxup s) /\ length V = length (fxdown s) /\
  (moderate_radius r -> (forall j x y, nth_error (fxup s) j = Some x -> nth_error (fyup s) j = Some y -> moderate_ordinate y -> exists q, nth_error U j = Some q /\ laid_on r x y q) /\
    (forall j x y, nth_error (fxdown s) j = Some x -> nth_error (fydown s) j = Some y -> moderate_ordinate y -> exists q, nth_error V j = Some q /\ laid_on r x y q)).
Proof. exact on_cylinders. Qed.
Print Assumptions C123_on_cylinders.

(** Sections of equal sizes are wrapped whatever the numbers, a zero radius included. *)
Theorem C123_built : forall sn cs sections radii n m, sections <> [] -> radii <> [] ->
  Forall (fun s => length (fxup s) = n /\ length (fyup s) = n /\ length (fxdown s) = m /\ length (fydown s) = m) sections ->
  exists up down, cylinder64 sn cs sections radii = Ok (up, down).
Proof. exact cylinders_built. Qed.
Print Assumptions C123_built.

(** Two sections of different sizes, or one whose arrays differ in length, raise ValueError. *)
Theorem C123_uneven : forall sn cs sections radii i j s t, nth_error (rev sections) i = Some s -> nth_error (rev sections) j = Some t -> (i < length radii)%nat -> (j < length radii)%nat ->
  (length (fxup s) <> length (fxup t) \/ length (fxdown s) <> length (fxdown t) \/ length (fxup s) <> length (fyup s) \/ length (fxdown s) <> length (fydown s)) ->
  cylinder64 sn cs sections radii = Err ValueError.
Proof. exact uneven. Qed.
Print Assumptions C123_uneven.

(** So does having no section or no radius. *)
Theorem C123_nothing : forall sn cs sections radii, sections = [] \/ radii = [] -> cylinder64 sn cs sections radii = Err ValueError.
Proof. exact nothing_to_wrap. Qed.
Print Assumptions C123_nothing.

(** Sections of two points on radii 1 and 2, the sine and cosine rounded to multiples of 2^-54; [thin] has one abscissa too few below. *)
Definition thin : fprofile := mkF [zero64; f1] [zero64; f1] [zero64; f01] [zero64; zero64; f01].
Definition even_thin : fprofile := mkF [zero64; f1] [zero64; f1] [zero64; f01] [zero64; f01].
Example C123_example : accurate (nearest54 sin) sin /\ accurate (nearest54 cos) cos /\ moderate_radius f1 /\ moderate_radius two64 /\ moderate_ordinate f01 /\
  exists up down, cylinder64 (nearest54 sin) (nearest54 cos) [even_thin; even_thin] [f1; two64] = Ok (up, down).
Proof.
  split; [apply nearest54_good, sine_bound|]. split; [apply nearest54_good, cosine_bound|]. pose proof f1_val as V1. destruct two64_val as (V2 & _). pose proof f01_val as V3.
  assert (P : 2 <= bpow radix2 300) by (change 2 with (bpow radix2 1); apply bpow_le; lia). assert (Q : bpow radix2 (-300) <= 1) by (change 1 with (bpow radix2 0); apply bpow_le; lia).
  unfold moderate_radius, moderate_ordinate, real. rewrite V1, V2. split; [split; [reflexivity|lra]|]. split; [split; [reflexivity|lra]|]. split; [split; [reflexivity|apply Rabs_le; lra]|].
  apply (cylinders_built _ _ _ _ 2 2); [discriminate|discriminate|repeat constructor].
Qed.
Example C123_example_uneven : cylinder64 (nearest54 sin) (nearest54 cos) [even_thin; thin] [f1; two64] = Err ValueError.
Proof. apply (uneven _ _ _ _ 0 0 thin thin); [reflexivity|reflexivity|cbn; lia|cbn; lia|]. cbn. right. right. right. lia. Qed.
