(** Vocabulary for five-digit NACA foils in binary64. *)
From Coq Require Import Reals ZArith List Bool.
From Flocq Require Import Core BinarySingleNaN.
From Verif Require Import PpgFloatModel FloatModel FloatSpec ShapeFloatModel SectionFloatModel NacaModel NacaSpec NacaFloatModel NacaFloatSpec NacaFiveModel.
Open Scope R_scope.

(** The position digits of the tables: 1 to 5 for standard camber, 2 to 5 for reflex camber. *)
Definition tabulated (reflex : bool) (b : nat) : Prop := if reflex then (2 <= b <= 5)%nat else (1 <= b <= 5)%nat.
(** The junction and the strength of the camber line, exact. *)
Definition junction5 (reflex : bool) (b : nat) : R := naca5_m reflex (5 * INR b / 100).
Definition strength5 (reflex : bool) (b : nat) : R := naca5_k reflex (junction5 reflex b).
(** Splines that come close to the tables near their places. *)
Definition good_splines (S : splines) : Prop := forall reflex b, tabulated reflex b ->
  (forall p, is_number p -> Rabs (real p - 5 * INR b / 100) <= / 2 ^ 50 ->
    is_number (junction64 S reflex p) /\ Rabs (real (junction64 S reflex p) - junction5 reflex b) <= / 2 ^ 30) /\
  (forall m, is_number m -> Rabs (real m - junction5 reflex b) <= / 2 ^ 30 ->
    is_number (strength64 S reflex m) /\ Rabs (real (strength64 S reflex m) - strength5 reflex b) <= / 2 ^ 10).

(** A code of five digits, tabulated or symmetric, and a number of points between 2 and 2^30. *)
Definition naca5_input (L : mathlib) (S : splines) (a b : nat) (reflex : bool) (c d n : nat) : Prop :=
  good_library L /\ good_splines S /\ digit a /\ (b = 0%nat \/ tabulated reflex b) /\ digit c /\ digit d /\ (2 <= n)%nat /\ (Z.of_nat n <= 2 ^ 30)%Z.
(** The third digit. *)
Definition third (reflex : bool) : nat := if reflex then 1%nat else 0%nat.

(** The slope of the camber line of junction [m] and strength [k]. *)
Definition slope_line5 (k m x : R) : R :=
  if Rle_dec x m then k / 6 * (3 * x ^ 2 - 6 * m * x + m ^ 2 * (3 - m)) else - (k / 6 * m ^ 3).
(** Camber and inclination at [x], exact for the junction and strength; the camber is
    scaled by the first digit with cosine spacing only. *)
Definition camber5 (a b : nat) (cosine : bool) (k m x : R) : R :=
  if Nat.eqb b 0 then 0 else (if cosine then INR a / 2 else 1) * camber_line5 k m x.
Definition angle5 (b : nat) (cosine : bool) (k m x : R) : R :=
  if (Nat.eqb b 0 || negb cosine)%bool then 0 else atan (slope_line5 k m x).

(** Splines meeting the hypotheses: the nearest entry of the table. *)
Definition plain_splines : splines := {|
  junction64 := fun reflex p => if reflex
    then if Bleb p (@B754_finite 53 1024 false 4503599627370496 (-55) eq_refl) then @B754_finite 53 1024 false 4683743612465316 (-55) eq_refl else if Bleb p (@B754_finite 53 1024 false 6305039478318694 (-55) eq_refl) then @B754_finite 53 1024 false 7818248953115181 (-55) eq_refl else if Bleb p (@B754_finite 53 1024 false 8106479329266893 (-55) eq_refl) then @B754_finite 53 1024 false 5728578726015271 (-54) eq_refl else @B754_finite 53 1024 false 7944349742681555 (-54) eq_refl
    else if Bleb p (@B754_finite 53 1024 false 5404319552844595 (-56) eq_refl) then @B754_finite 53 1024 false 8358680908399641 (-57) eq_refl else if Bleb p (@B754_finite 53 1024 false 4503599627370496 (-55) eq_refl) then @B754_finite 53 1024 false 4539628424389460 (-55) eq_refl else if Bleb p (@B754_finite 53 1024 false 6305039478318694 (-55) eq_refl) then @B754_finite 53 1024 false 7295831396340204 (-55) eq_refl else if Bleb p (@B754_finite 53 1024 false 8106479329266893 (-55) eq_refl) then @B754_finite 53 1024 false 5224175567749775 (-54) eq_refl else @B754_finite 53 1024 false 7043629817207456 (-54) eq_refl;
  strength64 := fun reflex m => if reflex
    then if Bleb m (@B754_finite 53 1024 false 6124895493223875 (-55) eq_refl) then @B754_finite 53 1024 false 7316942019593503 (-47) eq_refl else if Bleb m (@B754_finite 53 1024 false 4683743612465316 (-54) eq_refl) then @B754_finite 53 1024 false 8890668614382780 (-49) eq_refl else if Bleb m (@B754_finite 53 1024 false 6845471433603154 (-54) eq_refl) then @B754_finite 53 1024 false 7340867392613908 (-50) eq_refl else @B754_finite 53 1024 false 7185493205469626 (-51) eq_refl
    else if Bleb m (@B754_finite 53 1024 false 6485183463413514 (-56) eq_refl) then @B754_finite 53 1024 false 6357816036451942 (-44) eq_refl else if Bleb m (@B754_finite 53 1024 false 5764607523034235 (-55) eq_refl) then @B754_finite 53 1024 false 7267683898669138 (-47) eq_refl else if Bleb m (@B754_finite 53 1024 false 4503599627370496 (-54) eq_refl) then @B754_finite 53 1024 false 8982992406743876 (-49) eq_refl else if Bleb m (@B754_finite 53 1024 false 6124895493223875 (-54) eq_refl) then @B754_finite 53 1024 false 7479353081155551 (-50) eq_refl else @B754_finite 53 1024 false 7273313398203351 (-51) eq_refl |}.
