(** Properties C17 - C21 and C68: NACA profiles.  [american] is the unmodelled
    American thickness routine, never called here. *)
From Coq Require Import Reals List ZArith String Ascii Lra Lia.
From Coquelicot Require Import Coquelicot.
From Verif Require Import Base ProfileModel ProfileSpec CustomSpec NacaModel NacaSpec NacaProofs2 NacaProofs4 NacaProofs5.
Import ListNotations.
Open Scope R_scope.

(** ** C17 *)
Theorem C17_four_digit_foils : forall american a b c d cosine n,
  is_digit a -> is_digit b -> is_digit c -> is_digit d -> (2 <= n)%nat ->
  exists p q, naca_profile american (DStr (code [a; b; c; d])) (NInt (Z.of_nat n)) cosine = Ok (p, q) /\
    sized n p /\ closed_unit n p /\ chord_length q = 1 /\
    forall i, (i < n)%nat -> snd (down_i p i) <= snd (up_i p i).
Proof. exact naca4_constructed. Qed.
Print Assumptions C17_four_digit_foils.

Example C17_example : forall american, exists p q,
  naca_profile american (DStr "2412") (NInt 240) true = Ok (p, q) /\ sized 240 p.
Proof.
  intros. destruct (C17_four_digit_foils american 2 4 1 2 true 240) as (p & q & E & S & _); try (unfold is_digit; lia); try lia.
  exists p, q. auto.
Qed.

(** ** C18 *)
Theorem C18_thickness_distribution : forall t x, 0 <= t -> 0 <= x <= 1 ->
  0 <= 2 * half_thickness t x <= 1.0002 * t /\ half_thickness t 0 = 0 /\ half_thickness t 1 = 0 /\
  t <= 2 * half_thickness t 0.3 /\ (0 < t -> 0 < x < 1 -> 0 < half_thickness t x).
Proof. exact distribution. Qed.
Print Assumptions C18_thickness_distribution.

Theorem C18_four_digit_thickness : forall american a b c d cosine n p q i,
  is_digit a -> is_digit b -> is_digit c -> is_digit d -> (2 <= n)%nat ->
  naca_profile american (DStr (code [a; b; c; d])) (NInt (Z.of_nat n)) cosine = Ok (p, q) -> (i < n)%nat ->
  let t := (10 * INR c + INR d) / 100 in
  pdist (up_i p i) (down_i p i) = 2 * half_thickness t (station n i) /\
  pdist (up_i p i) (down_i p i) <= 1.0002 * t.
Proof. exact naca4_thickness. Qed.
Print Assumptions C18_four_digit_thickness.

Theorem C18_five_digit_thickness : forall american a b (reflex : bool) c d cosine n p q i,
  is_digit a -> is_digit b -> is_digit c -> is_digit d -> (2 <= n)%nat ->
  naca_profile american (DStr (code [a; b; (if reflex then 1 else 0)%nat; c; d])) (NInt (Z.of_nat n)) cosine = Ok (p, q) ->
  (i < n)%nat ->
  let t := (10 * INR c + INR d) / 100 in
  pdist (up_i p i) (down_i p i) = 2 * half_thickness t (station n i) /\
  pdist (up_i p i) (down_i p i) <= 1.0002 * t.
Proof. exact naca5_thickness. Qed.
Print Assumptions C18_five_digit_thickness.

Theorem C18_symmetric_foils : forall american a c d cosine n p q, is_digit a -> is_digit c -> is_digit d ->
  naca_profile american (DStr (code [a; 0; c; d]%nat)) (NInt (Z.of_nat n)) cosine = Ok (p, q) ->
  xup p = xdown p /\ ydown p = map Ropp (yup p).
Proof. exact naca4_symmetric. Qed.
Print Assumptions C18_symmetric_foils.

Example C18_example : forall american, exists p q,
  naca_profile american (DStr "0012") (NInt 11) false = Ok (p, q) /\
  12 / 100 <= pdist (up_i p 3) (down_i p 3) <= 1.0002 * (12 / 100).
Proof.
  intros. destruct (C17_four_digit_foils american 0 0 1 2 false 11) as (p & q & E & S & _); try (unfold is_digit; lia); try lia.
  exists p, q. split; [exact E|].
  destruct (C18_four_digit_thickness american 0 0 1 2 false 11 p q 3) as [A B]; try (unfold is_digit; lia); try lia; auto.
  destruct (C18_thickness_distribution (12/100) 0.3) as (_ & _ & _ & H & _); try lra.
  cbv zeta in A, B.
  replace ((10 * INR 1 + INR 2) / 100) with (12 / 100) in A, B by (simpl; lra).
  replace (station 11 3) with 0.3 in A by (unfold station; simpl; lra). rewrite A in *. lra.
Qed.

(** ** C19 *)
Theorem C19_camber_line_of_foil : forall american a b c d cosine n p q i,
  is_digit a -> is_digit b -> is_digit c -> is_digit d -> (2 <= n)%nat ->
  naca_profile american (DStr (code [a; b; c; d])) (NInt (Z.of_nat n)) cosine = Ok (p, q) -> (i < n)%nat -> (b <> 0)%nat ->
  mid_i p i = (station n i, camber_line4 (INR a / 100) (INR b / 10) (station n i)) /\
  (cosine = false -> fst (up_i p i) = station n i /\ fst (down_i p i) = station n i) /\
  (cosine = true -> forall s, is_derive (camber_line4 (INR a / 100) (INR b / 10)) (station n i) s ->
     pdot (psub (up_i p i) (down_i p i)) (1, s) = 0).
Proof. exact naca4_camber. Qed.
Print Assumptions C19_camber_line_of_foil.

Theorem C19_camber_line_smooth : forall m p, 0 < p < 1 -> exists D : R -> R,
  (forall x, is_derive (camber_line4 m p) x (D x)) /\ (forall x, continuous D x) /\ D p = 0.
Proof. exact camber4_smooth. Qed.
Print Assumptions C19_camber_line_smooth.

Theorem C19_camber_line_bounded : forall m p, 0 <= m -> 0 < p < 1 ->
  camber_line4 m p 0 = 0 /\ camber_line4 m p 1 = 0 /\ camber_line4 m p p = m /\
  forall x, 0 <= x <= 1 -> 0 <= camber_line4 m p x <= m.
Proof. exact camber4_shape. Qed.
Print Assumptions C19_camber_line_bounded.

Example C19_example : forall american, exists p q,
  naca_profile american (DStr "4412") (NInt 11) true = Ok (p, q) /\ mid_i p 4 = (4/10, 4/100).
Proof.
  intros. destruct (C17_four_digit_foils american 4 4 1 2 true 11) as (p & q & E & S & _); try (unfold is_digit; lia); try lia.
  exists p, q. split; [exact E|].
  destruct (C19_camber_line_of_foil american 4 4 1 2 true 11 p q 4) as [A _]; try (unfold is_digit; lia); try lia; auto.
  rewrite A. replace (station 11 4) with (INR 4 / 10) by (unfold station; simpl; lra).
  destruct (C19_camber_line_bounded (INR 4 / 100) (INR 4 / 10)) as (_ & _ & P & _); try (simpl; lra).
  rewrite P. apply injective_projections; simpl; lra.
Qed.

(** ** C20 *)
Theorem C20_linear_spacing_ignores_lift_digit : forall american a a' b s c d na,
  is_digit a -> is_digit a' -> is_digit b -> is_digit s -> is_digit c -> is_digit d ->
  naca_profile american (DStr (code [a; b; s; c; d])) na false = naca_profile american (DStr (code [a'; b; s; c; d])) na false.
Proof. exact linear_ignores_lift. Qed.
Print Assumptions C20_linear_spacing_ignores_lift_digit.

Theorem C20_cosine_spacing_scales_camber : forall american a a' b (reflex : bool) c d n,
  let s := (if reflex then 1 else 0)%nat in
  is_digit a -> is_digit a' -> is_digit b -> is_digit c -> is_digit d -> (2 <= n)%nat ->
  exists p q p' q',
    naca_profile american (DStr (code [a; b; s; c; d])) (NInt (Z.of_nat n)) true = Ok (p, q) /\
    naca_profile american (DStr (code [a'; b; s; c; d])) (NInt (Z.of_nat n)) true = Ok (p', q') /\
    forall i, (i < n)%nat ->
      psub (up_i p i) (down_i p i) = psub (up_i p' i) (down_i p' i) /\ fst (mid_i p i) = fst (mid_i p' i) /\
      INR a' * snd (mid_i p i) = INR a * snd (mid_i p' i).
Proof. exact cosine_scales_lift. Qed.
Print Assumptions C20_cosine_spacing_scales_camber.

(** The thickness is laid along the normal of the unscaled camber line: it is
    orthogonal to the foil's own camber line only for lift digit 2 (or where
    the slope vanishes). *)
Theorem C20_thickness_orthogonal_iff_lift_two : forall american a b (reflex : bool) c d n p q i s,
  is_digit a -> is_digit b -> is_digit c -> is_digit d ->
  (2 <= n)%nat -> (0 < i < n - 1)%nat -> (b <> 0)%nat -> (0 < c + d)%nat ->
  naca_profile american (DStr (code [a; b; (if reflex then 1 else 0)%nat; c; d])) (NInt (Z.of_nat n)) true = Ok (p, q) ->
  let m := naca5_m reflex (5 * INR b / 100) in let k := naca5_k reflex m in
  is_derive (fun x => INR a / 2 * camber_line5 k m x) (station n i) s ->
  (pdot (psub (up_i p i) (down_i p i)) (1, s) = 0 <-> a = 2%nat \/ is_derive (camber_line5 k m) (station n i) 0).
Proof. exact orthogonal_iff_lift_two. Qed.
Print Assumptions C20_thickness_orthogonal_iff_lift_two.

Example C20_example : forall american, exists p q p' q',
  naca_profile american (DStr "23012") (NInt 240) true = Ok (p, q) /\
  naca_profile american (DStr "43012") (NInt 240) true = Ok (p', q') /\
  forall i, (i < 240)%nat -> 4 * snd (mid_i p i) = 2 * snd (mid_i p' i).
Proof.
  intros. destruct (C20_cosine_spacing_scales_camber american 2 4 3 false 1 2 240) as (p & q & p' & q' & E & E' & H);
    try (unfold is_digit; lia); try lia.
  exists p, q, p', q'. split; [exact E|]. split; [exact E'|]. intros i Hi. destruct (H i Hi) as (_ & _ & K).
  replace (INR 4) with 4 in K by (simpl; lra). replace (INR 2) with 2 in K by (simpl; lra). exact K.
Qed.

(** ** C21 *)
Theorem C21_types : forall american na cosine s, naca_profile american DOther na cosine = Err TypeError /\
  naca_profile american (DStr s) NOther cosine = Err TypeError.
Proof. exact types_rejected. Qed.
Print Assumptions C21_types.

Theorem C21_negative_sizes : forall american s cosine,
  (forall z, (z < 0)%Z -> naca_profile american (DStr s) (NInt z) cosine = Err ValueError) /\
  (forall x, x <= -1 -> naca_profile american (DStr s) (NFloat x) cosine = Err ValueError).
Proof. exact npoints_negative. Qed.
Print Assumptions C21_negative_sizes.

Theorem C21_float_sizes_truncate : forall american s x n cosine, INR n <= x < INR n + 1 ->
  naca_profile american (DStr s) (NFloat x) cosine = naca_profile american (DStr s) (NInt (Z.of_nat n)) cosine.
Proof. exact npoints_float. Qed.
Print Assumptions C21_float_sizes_truncate.

Theorem C21_small_negative_float_passes_check : forall american s x cosine, -1 < x < 0 ->
  naca_profile american (DStr s) (NFloat x) cosine = naca_profile american (DStr s) (NInt (Z.of_nat 0)) cosine.
Proof. exact npoints_float_small. Qed.
Print Assumptions C21_small_negative_float_passes_check.

Theorem C21_zero_or_one_point_fails : forall american a b c d cosine,
  is_digit a -> is_digit b -> is_digit c -> is_digit d ->
  naca_profile american (DStr (code [a; b; c; d])) (NInt (Z.of_nat 0)) cosine = Err IndexError /\
  naca_profile american (DStr (code [a; b; c; d])) (NInt (Z.of_nat 1)) cosine = Err NonFinite.
Proof. exact small_sizes. Qed.
Print Assumptions C21_zero_or_one_point_fails.

Theorem C21_other_lengths : forall american s n cosine, (String.length s <> 4)%nat -> (String.length s <> 5)%nat ->
  naca_profile american (DStr s) (NInt (Z.of_nat n)) cosine = Err OtherException.
Proof. exact other_length. Qed.
Print Assumptions C21_other_lengths.

Theorem C21_non_digit : forall american s c n cosine i, (String.length s = 4 \/ String.length s = 5)%nat ->
  String.get i s = Some c -> (i <= 1)%nat -> (forall d, is_digit d -> c <> digit_char d) ->
  naca_profile american (DStr s) (NInt (Z.of_nat n)) cosine = Err ValueError.
Proof. exact bad_digit. Qed.
Print Assumptions C21_non_digit.

(** The two characters of the thickness are read as a number; only the number matters. *)
Theorem C21_thickness_characters : forall american pre a b n cosine, (List.length pre = 2 \/ List.length pre = 3)%nat ->
  let foil a b := naca_profile american (DStr (string_of_list_ascii (pre ++ [a; b]))) (NInt (Z.of_nat n)) cosine in
  (forall a' b' x, two_chars a b x -> two_chars a' b' x -> foil a b = foil a' b') /\
  ((forall x, ~ two_chars a b x) -> foil a b = Err ValueError).
Proof.
  exact (fun american pre a b n cosine L => conj (fun a' b' x => thickness_spelled american pre a b a' b' x n cosine L) (thickness_unreadable american pre a b n cosine L)).
Qed.
Print Assumptions C21_thickness_characters.
Example C21_example_spelling : forall american, naca_profile american (DStr "24 9") (NInt (Z.of_nat 5)) true = naca_profile american (DStr "2409") (NInt (Z.of_nat 5)) true.
Proof.
  intros. apply (proj1 (C21_thickness_characters american ["2"; "4"]%char " "%char "9"%char 5 true (or_introl eq_refl)) "0"%char "9"%char 9).
  - right. right. exists 9%nat. split; [unfold is_digit; lia|]. split; [reflexivity|]. right. left. split; [right; unfold space_char; cbn [In]; tauto|simpl; lra].
  - left. exists 0%nat, 9%nat. unfold is_digit. split; [lia|]. split; [lia|]. split; [reflexivity|]. split; [reflexivity|simpl; lra].
Qed.

Theorem C21_third_digit_of_five : forall american a b s c d n cosine,
  is_digit a -> is_digit b -> is_digit s -> is_digit c -> is_digit d -> (2 <= s)%nat ->
  naca_profile american (DStr (code [a; b; s; c; d])) (NInt (Z.of_nat n)) cosine = Err ValueError.
Proof. exact bad_s. Qed.
Print Assumptions C21_third_digit_of_five.

(** Not every accepted code is made of digits: a sign is taken as part of the
    thickness and turns the foil inside out. *)
Theorem C21_accepted_codes_are_digits_refuted : forall american, exists p q,
  naca_profile american (DStr "00-5") (NInt (Z.of_nat 3)) false = Ok (p, q) /\ snd (up_i p 1) < snd (down_i p 1).
Proof. exact negative_thickness. Qed.
Print Assumptions C21_accepted_codes_are_digits_refuted.

Example C21_example : forall american, naca_profile american (DStr "2412") (NFloat (1/2)) true = Err IndexError.
Proof.
  intros. rewrite (C21_float_sizes_truncate american "2412" (1/2) 0) by (simpl; lra).
  apply (C21_zero_or_one_point_fails american 2 4 1 2 true); unfold is_digit; lia.
Qed.
Example C21_example_digit : forall american, naca_profile american (DStr "a412") (NInt (Z.of_nat 5)) true = Err ValueError.
Proof. intros. apply C21_non_digit with "a"%char 0%nat; auto. intros d D. do 10 (destruct d as [|d]; [discriminate|]). unfold is_digit in D. lia. Qed.

(** ** C68 *)
Theorem C68_five_digit_foils : forall american a b (reflex : bool) c d cosine n,
  is_digit a -> is_digit b -> is_digit c -> is_digit d -> (2 <= n)%nat ->
  exists p q, naca_profile american (DStr (code [a; b; (if reflex then 1 else 0)%nat; c; d])) (NInt (Z.of_nat n)) cosine = Ok (p, q) /\
    sized n p /\ ((reflex = true -> (b <= 7)%nat) -> closed_unit n p) /\
    forall i, (i < n)%nat -> snd (down_i p i) <= snd (up_i p i) /\
      mid_i p i = (station n i,
        if Nat.eqb b 0 then 0 else
        let m := naca5_m reflex (5 * INR b / 100) in
        (if cosine then INR a / 2 else 1) * camber_line5 (naca5_k reflex m) m (station n i)).
Proof. exact naca5_constructed. Qed.
Print Assumptions C68_five_digit_foils.

Theorem C68_standard_table : forall b, (1 <= b <= 5)%nat ->
  let m := naca5_m false (5 * INR b / 100) in
  m = nth (b - 1) [58/1000; 126/1000; 2025/10000; 29/100; 391/1000] 0 /\
  naca5_k false m = nth (b - 1) [3614/10; 5164/100; 15957/1000; 6643/1000; 323/100] 0.
Proof. exact table5. Qed.
Print Assumptions C68_standard_table.

Theorem C68_reflex_table : forall b, (2 <= b <= 5)%nat ->
  let m := naca5_m true (5 * INR b / 100) in
  m = nth (b - 2) [13/100; 217/1000; 318/1000; 441/1000] 0 /\
  naca5_k true m = nth (b - 2) [5199/100; 15793/1000; 652/100; 3191/1000] 0.
Proof. exact table5r. Qed.
Print Assumptions C68_reflex_table.

Theorem C68_camber_line_smooth : forall k m, exists D : R -> R, (forall x, is_derive (camber_line5 k m) x (D x)) /\
  (0 <= m < 1 -> camber_line5 k m 0 = 0 /\ camber_line5 k m 1 = 0).
Proof. exact camber5_smooth. Qed.
Print Assumptions C68_camber_line_smooth.

(** Codes beyond the published tables are accepted and extrapolated. *)
Theorem C68_reflex_closure_refuted : forall american a b c d n,
  is_digit a -> (b = 8 \/ b = 9)%nat -> is_digit c -> is_digit d -> (2 <= n)%nat ->
  exists p q, naca_profile american (DStr (code [a; b; 1; c; d]%nat)) (NInt (Z.of_nat n)) false = Ok (p, q) /\ ~ closed_unit n p.
Proof. exact naca5_reflex_open. Qed.
Print Assumptions C68_reflex_closure_refuted.

Theorem C68_camber_below_chord_refuted : forall american, exists p q,
  naca_profile american (DStr (code [2; 6; 0; 1; 2]%nat)) (NInt (Z.of_nat 3)) true = Ok (p, q) /\ 1 < snd (mid_i p 1).
Proof. exact extrapolated_camber. Qed.
Print Assumptions C68_camber_below_chord_refuted.

Example C68_example : forall american, exists p q, naca_profile american (DStr "23012") (NInt 240) true = Ok (p, q) /\ closed_unit 240 p.
Proof.
  intros. destruct (C68_five_digit_foils american 2 3 false 1 2 true 240) as (p & q & E & _ & C & _); try (unfold is_digit; lia); try lia.
  exists p, q. split; [exact E|]. apply C. discriminate.
Qed.
