(** C119: five-digit NACA foils in binary64 arithmetic. *)
From Coq Require Import Reals ZArith List Lra Lia Bool.
From Flocq Require Import Core BinarySingleNaN.
From Verif Require Import Base PpgFloatModel PpgFloatProofs FloatModel FloatSpec ShapeFloatModel ShapeFloatSpec SectionFloatModel SectionFloatSpec NacaModel NacaSpec NacaFloatModel NacaFloatSpec NacaFloatProofs6 NacaFiveModel NacaFiveSpec NacaFiveProofs3.
Import ListNotations.
Open Scope R_scope.

Theorem C119_foil : forall L S a b reflex c d n cosine, naca5_input L S a b reflex c d n ->
  exists p, naca_foil5_64 L S a b (third reflex) c d cosine n = Ok p /\ length (fxup p) = n /\ same_sizes p /\ numbers p.
Proof. exact produced5. Qed.
Print Assumptions C119_foil.

Theorem C119_leading_edge : forall L S a b reflex c d n cosine, naca5_input L S a b reflex c d n -> forall p, naca_foil5_64 L S a b (third reflex) c d cosine n = Ok p ->
  real (fst (up64 p 0)) = 0 /\ real (snd (up64 p 0)) = 0 /\ real (fst (down64 p 0)) = 0 /\ real (snd (down64 p 0)) = 0.
Proof. exact leading5. Qed.
Print Assumptions C119_leading_edge.

Theorem C119_interior : forall L S a b reflex c d n cosine, naca5_input L S a b reflex c d n -> forall p, naca_foil5_64 L S a b (third reflex) c d cosine n = Ok p -> (1 <= 10 * c + d)%nat ->
  forall i, (0 < i < n - 1)%nat -> real (snd (down64 p i)) < real (snd (up64 p i)).
Proof. exact ordered5. Qed.
Print Assumptions C119_interior.

(** As with four digits the surfaces cross before the trailing edge. *)
Theorem C119_trailing_edge_crossed : forall L S a b reflex c d n cosine, naca5_input L S a b reflex c d n -> forall p, naca_foil5_64 L S a b (third reflex) c d cosine n = Ok p -> (1 <= 10 * c + d)%nat ->
  let u := up64 p (n - 1) in let w := down64 p (n - 1) in
  real (snd u) < 0 < real (snd w) /\ real (snd w) = - real (snd u) /\ real (snd w) <= 2 * eps /\ Rabs (real (fst u) - 1) <= 4 * eps /\ Rabs (real (fst w) - 1) <= 4 * eps.
Proof. exact crossed5. Qed.
Print Assumptions C119_trailing_edge_crossed.

Theorem C119_stations : forall L S a b reflex c d n cosine, naca5_input L S a b reflex c d n -> forall p, naca_foil5_64 L S a b (third reflex) c d cosine n = Ok p -> cosine = false \/ b = 0%nat ->
  fxdown p = fxup p /\ (forall i, (i < n)%nat -> Rabs (real (nth i (fxup p) zero64) - INR i / INR (n - 1)) <= 3 * eps) /\
  (forall i j, (i < j < n)%nat -> real (nth i (fxup p) zero64) < real (nth j (fxup p) zero64)).
Proof. exact stations5. Qed.
Print Assumptions C119_stations.

(** Every coordinate is the exact one at a station within 3 roundings of the ideal place, for the
    junction and the strength the splines return. *)
Theorem C119_coordinates : forall L S a b reflex c d n cosine, naca5_input L S a b reflex c d n -> forall p, naca_foil5_64 L S a b (third reflex) c d cosine n = Ok p ->
  exists m k, (b <> 0%nat -> Rabs (m - junction5 reflex b) <= / 2 ^ 30 /\ Rabs (k - strength5 reflex b) <= / 2 ^ 10) /\ forall i, (i < n)%nat ->
  exists x, Rabs (x - INR i / INR (n - 1)) <= 3 * eps /\ 0 <= x <= 1 /\ (i = 0%nat -> x = 0) /\ (i = (n - 1)%nat -> x = 1) /\
  let h := half4 c d x in let C := camber5 a b cosine k m x in let th := angle5 b cosine k m x in
  Rabs (real (fst (up64 p i)) - (x - h * sin th)) <= 90 * eps /\ Rabs (real (fst (down64 p i)) - (x + h * sin th)) <= 90 * eps /\
  Rabs (real (snd (up64 p i)) - (C + h * cos th)) <= 160 * eps /\ Rabs (real (snd (down64 p i)) - (C - h * cos th)) <= 160 * eps.
Proof. exact coordinates5. Qed.
Print Assumptions C119_coordinates.

Theorem C119_accepted : forall L S a b reflex c d n cosine, naca5_input L S a b reflex c d n -> forall p, naca_foil5_64 L S a b (third reflex) c d cosine n = Ok p -> (1 <= 10 * c + d)%nat ->
  check_coordinates64 p = Ok tt.
Proof. exact accepted5. Qed.
Print Assumptions C119_accepted.

Theorem C119_constructor : forall L S o a b reflex c d n cosine, naca5_input L S a b reflex c d n -> (1 <= 10 * c + d)%nat \/ cosine = false \/ b = 0%nat ->
  exists p s, naca_profile5_64 L S o a b (third reflex) c d cosine n = Ok (p, s) /\ naca_foil5_64 L S a b (third reflex) c d cosine n = Ok p /\ same_lengths s /\ length (pchord s) = n.
Proof. exact constructed5. Qed.
Print Assumptions C119_constructor.

Theorem C119_no_points : forall L S o a b s c d cosine, (s <= 1)%nat -> naca_profile5_64 L S o a b s c d cosine 0 = Err IndexError.
Proof. exact no_points5. Qed.
Print Assumptions C119_no_points.

Theorem C119_other_digit : forall L S a b s c d cosine n, (2 <= s <= 9)%nat -> naca_foil5_64 L S a b s c d cosine n = Err ValueError.
Proof. exact other_kind. Qed.
Print Assumptions C119_other_digit.

(** NACA 23012 and the reflex 23112 with a library meeting the hypotheses. *)
Example C119_example : forall reflex n, (2 <= n <= 100)%nat -> naca5_input plain_library plain_splines 2 3 reflex 1 2 n.
Proof.
  intros reflex n N. split; [exact plain_good|]. split; [exact plain_splines_good|]. unfold digit, tabulated. split; [lia|]. split; [right; destruct reflex; lia|]. repeat split; lia.
Qed.
Example C119_example_23112 : forall p, naca_foil5_64 plain_library plain_splines 2 3 1 1 2 true 5 = Ok p ->
  real (snd (down64 p 2)) < real (snd (up64 p 2)) /\ real (snd (up64 p 4)) < real (snd (down64 p 4)) /\ check_coordinates64 p = Ok tt.
Proof.
  intros p E. pose proof (C119_example true 5 ltac:(lia)) as K. assert (T : (1 <= 10 * 1 + 2)%nat) by lia. split; [apply (C119_interior _ _ 2 3 true 1 2 5 true K p E T); lia|]. split; [|exact (C119_accepted _ _ 2 3 true 1 2 5 true K p E T)].
  destruct (C119_trailing_edge_crossed _ _ 2 3 true 1 2 5 true K p E T) as (H & _). cbn [Nat.sub] in H. lra.
Qed.
Example C119_example_values : match naca_foil5_64 plain_library plain_splines 2 3 0 1 2 false 3 with
  | Ok p => B2SF (fst (up64 p 1)) = SpecFloat.S754_finite false 4503599627370496 (-53) /\ Bltb zero64 (snd (up64 p 1)) = true /\ Bltb (snd (up64 p 2)) zero64 = true
  | Err _ => False end.
Proof. vm_compute. repeat split. Qed.
