(** C118: four-digit NACA foils in binary64 arithmetic. *)
From Coq Require Import Reals ZArith List Lra Lia Bool.
From Flocq Require Import Core BinarySingleNaN.
From Verif Require Import Base PpgFloatModel PpgFloatProofs FloatModel FloatSpec ShapeFloatModel ShapeFloatSpec SectionFloatModel SectionFloatSpec NacaModel NacaFloatModel NacaFloatSpec NacaFloatProofs5 NacaFloatProofs6 NacaFloatProofs7.
Import ListNotations.
Open Scope R_scope.

Theorem C118_foil : forall L a b c d n cosine, naca_input L a b c d n ->
  exists p, naca_foil64 L a b c d cosine n = Ok p /\ length (fxup p) = n /\ same_sizes p /\ numbers p.
Proof. exact produced. Qed.
Print Assumptions C118_foil.

Theorem C118_leading_edge : forall L a b c d n cosine p, naca_input L a b c d n -> naca_foil64 L a b c d cosine n = Ok p ->
  real (fst (up64 p 0)) = 0 /\ real (snd (up64 p 0)) = 0 /\ real (fst (down64 p 0)) = 0 /\ real (snd (down64 p 0)) = 0.
Proof. exact leading. Qed.
Print Assumptions C118_leading_edge.

Theorem C118_interior : forall L a b c d n cosine p, naca_input L a b c d n -> naca_foil64 L a b c d cosine n = Ok p -> (1 <= 10 * c + d)%nat ->
  forall i, (0 < i < n - 1)%nat -> real (snd (down64 p i)) < real (snd (up64 p i)).
Proof. exact ordered. Qed.
Print Assumptions C118_interior.

(** The rounded coefficients do not add up to 0: the surfaces cross before the trailing edge. *)
Theorem C118_trailing_edge_crossed : forall L a b c d n cosine p, naca_input L a b c d n -> naca_foil64 L a b c d cosine n = Ok p -> (1 <= 10 * c + d)%nat ->
  let u := up64 p (n - 1) in let w := down64 p (n - 1) in
  real (snd u) < 0 < real (snd w) /\ real (snd w) = - real (snd u) /\ real (snd w) <= 2 * eps /\ Rabs (real (fst u) - 1) <= 4 * eps /\ Rabs (real (fst w) - 1) <= 4 * eps.
Proof. exact crossed. Qed.
Print Assumptions C118_trailing_edge_crossed.

Theorem C118_trailing_edge_linear : forall L a b c d n cosine p, naca_input L a b c d n -> naca_foil64 L a b c d cosine n = Ok p -> (1 <= 10 * c + d)%nat ->
  cosine = false \/ b = 0%nat -> let u := up64 p (n - 1) in let T := INR (10 * c + d) / 100 in
  real (fst u) = 1 /\ Rabs (real (snd u) + 5 * T * bpow radix2 (-55)) <= 3 * eps * (5 * T * bpow radix2 (-55)).
Proof. exact trailing_linear. Qed.
Print Assumptions C118_trailing_edge_linear.

Theorem C118_stations : forall L a b c d n cosine p, naca_input L a b c d n -> naca_foil64 L a b c d cosine n = Ok p -> cosine = false \/ b = 0%nat ->
  fxdown p = fxup p /\ (forall i, (i < n)%nat -> Rabs (real (nth i (fxup p) zero64) - INR i / INR (n - 1)) <= 3 * eps) /\
  (forall i j, (i < j < n)%nat -> real (nth i (fxup p) zero64) < real (nth j (fxup p) zero64)).
Proof. exact stations. Qed.
Print Assumptions C118_stations.

Theorem C118_thickness : forall L a b c d n cosine p, naca_input L a b c d n -> naca_foil64 L a b c d cosine n = Ok p -> cosine = false \/ b = 0%nat ->
  forall i, (i < n)%nat -> let u := up64 p i in
  Rabs ((real (snd u) - real (snd (down64 p i))) / 2 - half_thickness (INR (10 * c + d) / 100) (real (fst u))) <= 91 * eps.
Proof. exact thickness_error. Qed.
Print Assumptions C118_thickness.

(** Every coordinate of a foil is the exact one at a station within 3 roundings of the ideal place. *)
Theorem C118_coordinates : forall L a b c d n cosine p, naca_input L a b c d n -> naca_foil64 L a b c d cosine n = Ok p -> forall i, (i < n)%nat ->
  exists x, Rabs (x - INR i / INR (n - 1)) <= 3 * eps /\ 0 <= x <= 1 /\ (i = 0%nat -> x = 0) /\ (i = (n - 1)%nat -> x = 1) /\
  let h := half4 c d x in let C := camber4 a b x in let th := angle4 a b cosine x in
  Rabs (real (fst (up64 p i)) - (x - h * sin th)) <= 420 * eps /\ Rabs (real (fst (down64 p i)) - (x + h * sin th)) <= 420 * eps /\
  Rabs (real (snd (up64 p i)) - (C + h * cos th)) <= 1060 * eps /\ Rabs (real (snd (down64 p i)) - (C - h * cos th)) <= 1060 * eps.
Proof. exact coordinates. Qed.
Print Assumptions C118_coordinates.

(** The coordinates pass the checks of [CustomProfile], crossed as they are at the trailing edge. *)
Theorem C118_accepted : forall L a b c d n cosine p, naca_input L a b c d n -> naca_foil64 L a b c d cosine n = Ok p -> (1 <= 10 * c + d)%nat ->
  check_coordinates64 p = Ok tt.
Proof. exact accepted. Qed.
Print Assumptions C118_accepted.

Theorem C118_constructor : forall L o a b c d n cosine, naca_input L a b c d n -> (1 <= 10 * c + d)%nat \/ cosine = false \/ b = 0%nat ->
  exists p s, naca_profile64 L o a b c d cosine n = Ok (p, s) /\ naca_foil64 L a b c d cosine n = Ok p /\ same_lengths s /\ length (pchord s) = n.
Proof. exact constructed. Qed.
Print Assumptions C118_constructor.

Theorem C118_no_points : forall L o a b c d cosine, naca_profile64 L o a b c d cosine 0 = Err IndexError.
Proof. exact no_points. Qed.
Print Assumptions C118_no_points.

(** NACA 4412 on five points, with a library meeting the hypotheses. *)
Example C118_example : naca_input plain_library 4 4 1 2 5 /\ (1 <= 10 * 1 + 2)%nat.
Proof. split; [|lia]. split; [exact plain_good|]. unfold digit. repeat split; lia. Qed.
Example C118_example_4412 : forall p, naca_foil64 plain_library 4 4 1 2 true 5 = Ok p ->
  real (snd (down64 p 2)) < real (snd (up64 p 2)) /\ real (snd (up64 p 4)) < real (snd (down64 p 4)) /\ check_coordinates64 p = Ok tt.
Proof.
  intros p E. destruct C118_example as (K & T). split; [apply (C118_interior _ 4 4 1 2 5 true p K E T); lia|]. split; [|exact (C118_accepted _ 4 4 1 2 5 true p K E T)].
  destruct (C118_trailing_edge_crossed _ 4 4 1 2 5 true p K E T) as (H & _). cbn [Nat.sub] in H. lra.
Qed.
(** The highest camber, 4/100, of the foil 4412 is found at two fifths of the chord: with six
    linearly spaced points, the mean ordinate of the third pair is 0.04 but for rounding. *)
Example C118_example_camber : forall p, naca_foil64 plain_library 4 4 1 2 false 6 = Ok p ->
  Rabs ((real (snd (up64 p 2)) + real (snd (down64 p 2))) / 2 - 4 / 100) <= 1070 * eps.
Proof.
  intros p E. assert (K : naca_input plain_library 4 4 1 2 6) by (split; [exact plain_good|]; unfold digit; repeat split; lia).
  destruct (C118_coordinates _ 4 4 1 2 6 false p K E 2 ltac:(lia)) as (x & X & B & _ & _ & _ & _ & U & D). revert X U D. unfold camber4, angle4, NacaSpec.camber_line4. cbn [Nat.eqb orb negb Nat.sub]. rewrite cos_0.
  replace (INR 2 / INR 5) with (2 / 5) by (cbn; field). replace (INR 4 / 100) with (4 / 100) by (cbn; field). replace (INR 4 / 10) with (2 / 5) by (cbn; field). intros X U D.
  pose proof FloatProofs.eps_bounds as (e0 & _). pose proof ShapeFloatProofs.eps_val as ev. apply Rabs_le_inv in X.
  assert (S : forall r, Rabs r <= 10 * eps -> 0 <= 4 / 100 * r ^ 2 <= eps). { intros r R. assert (0 <= r ^ 2 <= (10 * eps) ^ 2) by (split; [apply pow2_ge_0|rewrite <- (pow2_abs r); apply pow_incr; split; [apply Rabs_pos|exact R]]). assert (eps * eps <= eps * (1 / 100)) by (apply Rmult_le_compat_l; [lra|rewrite ev; lra]). lra. }
  assert (Q : exists e, 0 <= e <= eps /\ (if Rle_dec x (2 / 5) then 4 / 100 * (1 - ((2 / 5 - x) / (2 / 5)) ^ 2) else 4 / 100 * (1 - ((x - 2 / 5) / (1 - 2 / 5)) ^ 2)) = 4 / 100 - e).
  { destruct (Rle_dec x (2 / 5)).
    - exists (4 / 100 * ((2 / 5 - x) / (2 / 5)) ^ 2). split; [apply S; apply Rabs_le; lra|ring].
    - exists (4 / 100 * ((x - 2 / 5) / (1 - 2 / 5)) ^ 2). split; [apply S; replace ((x - 2 / 5) / (1 - 2 / 5)) with ((x - 2 / 5) * 5 / 3) by field; apply Rabs_le; lra|ring]. }
  destruct Q as (e & Be & Q). rewrite Q in U, D. apply Rabs_le_inv in U. apply Rabs_le_inv in D. apply Rabs_le. lra.
Qed.
(** NACA 0012: the last ordinate of the upper surface is -0.6 * 2^-55. *)
Example C118_example_0012 : match naca_foil64 plain_library 0 0 1 2 true 3 with
  | Ok p => B2SF (snd (up64 p 2)) = SpecFloat.S754_finite true 5404319552844595 (-108) /\ B2SF (fst (up64 p 1)) = SpecFloat.S754_finite false 4503599627370496 (-53)
  | Err _ => False end.
Proof. vm_compute. split; reflexivity. Qed.
