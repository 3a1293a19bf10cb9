(** C120: chord line and largest camber of a profile in binary64 arithmetic, without interpolation.
    C121: the largest thickness of NACA foils. *)
From Coq Require Import Reals ZArith List Lra Lia Bool.
From Flocq Require Import Core BinarySingleNaN.
From Verif Require Import Base PpgFloatModel PpgFloatProofs ProfileModel ProfileSpec FloatModel FloatSpec FloatProofs FloatProofs2 ShapeFloatModel ShapeFloatSpec ShapeFloatProofs ShapeFloatProofs6 SectionFloatModel SectionFloatProofs3 NacaModel NacaSpec NacaFloatModel NacaFloatSpec NacaFloatProofs6 NacaFiveModel NacaFiveSpec NacaFiveProofs3 ChordFloatModel ChordFloatProofs ChordFloatProofs2 ChordFloatProofs3 ChordFloatProofs4 ChordFloatProofs5 ChordFloatProofs6.
Import ListNotations.
Open Scope R_scope.

(** With the edges at one height the chord line is that height, exactly. *)
Theorem C120_level_line : forall p, numbers p -> common_abscissae p -> same_sizes p -> fxup p <> [] ->
  real (last (fyup p) zero64) + real (last (fydown p) zero64) = 2 * real (hd zero64 (fyup p)) -> Rabs (real (hd zero64 (fyup p))) <= huge / 2 ->
  real (hd zero64 (fxup p)) <> real (last (fxup p) zero64) -> Forall (fun x => Rabs x <= huge / 2) (xup (meaning p)) ->
  exists hs, compute_chord_line64 p = Ok (fxup p, hs) /\ length hs = length (fxup p) /\ Forall (fun h => is_number h /\ real h = real (hd zero64 (fyup p))) hs.
Proof. exact level_line. Qed.
Print Assumptions C120_level_line.

(** Otherwise it is the straight line through the edges to a few roundings, and passes through the leading edge exactly. *)
Theorem C120_chord_line : forall p, let a := real (hd zero64 (fxup p)) in let b := real (last (fxup p) zero64) in let ya := real (hd zero64 (fyup p)) in let yb := real (last (fyup p) zero64) in
  let W := Rmax (Rabs ya) (Rabs yb) in
  numbers p -> common_abscissae p -> same_sizes p -> fxup p <> [] -> yb = real (last (fydown p) zero64) -> Forall (fun x => a <= x <= b) (xup (meaning p)) ->
  bpow radix2 (-300) <= b - a <= bpow radix2 300 -> W <= bpow radix2 300 ->
  exists hs, compute_chord_line64 p = Ok (fxup p, hs) /\ length hs = length (fxup p) /\ Forall is_number hs /\
  forall i x, nth_error (fxup p) i = Some x -> exists h, nth_error hs i = Some h /\
    Rabs (real h - (ya + (yb - ya) / (b - a) * (real x - a))) <= 6 * eps * Rabs (yb - ya) + 2 * eps * W + 2 * (1 + (b - a)) * eta /\ (real x = a -> real h = ya).
Proof. exact inclined_line. Qed.
Print Assumptions C120_chord_line.

(** The largest camber over a level chord: the signed height of a camber point over it, none being further away. *)
Theorem C120_level : forall o p B, numbers p -> common_abscissae p -> same_sizes p -> fxup p <> [] ->
  real (last (fyup p) zero64) + real (last (fydown p) zero64) = 2 * real (hd zero64 (fyup p)) ->
  real (hd zero64 (fxup p)) <> real (last (fxup p) zero64) -> Forall (fun x => Rabs x <= huge / 2) (xup (meaning p)) -> B <= bpow radix2 300 ->
  Forall (fun y => Rabs y <= B) (yup (meaning p)) -> Forall (fun y => Rabs y <= B) (ydown (meaning p)) ->
  exists m, max_camber64 o p = Ok m /\ is_number m /\
  let camber i := (real (nth i (fyup p) zero64) + real (nth i (fydown p) zero64)) / 2 - real (hd zero64 (fyup p)) in
  let bound := 6 * eps * B + bpow radix2 (-500) in
  (exists i, (i < length (fxup p))%nat /\ Rabs (real m - camber i) <= bound) /\ (forall j, (j < length (fxup p))%nat -> Rabs (camber j) <= Rabs (real m) + bound).
Proof. exact level_measured. Qed.
Print Assumptions C120_level.

(** With both edges on the axis there is no error beyond that of the camber line: the first of the entries of largest magnitude is returned with its sign. *)
Theorem C120_on_axis : forall o p cs, numbers p -> common_abscissae p -> same_sizes p -> fxup p <> [] -> real (hd zero64 (fyup p)) = 0 -> real (last (fyup p) zero64) = - real (last (fydown p) zero64) ->
  real (hd zero64 (fxup p)) <> real (last (fxup p) zero64) -> Forall (fun x => Rabs x <= huge / 2) (xup (meaning p)) ->
  Forall (fun y => Rabs y <= bpow radix2 511) (yup (meaning p)) -> Forall (fun y => Rabs y <= bpow radix2 511) (ydown (meaning p)) ->
  compute_camber_line64 p = Ok (fxup p, cs) -> Forall (fun c => real c = 0 \/ bpow radix2 (-511) <= Rabs (real c)) cs ->
  exists m i c, max_camber64 o p = Ok m /\ is_number m /\ nth_error cs i = Some c /\ real m = real c /\
  (forall j c', nth_error cs j = Some c' -> Rabs (real c') <= Rabs (real m)) /\ (forall j c', (j < i)%nat -> nth_error cs j = Some c' -> Rabs (real c') < Rabs (real m)).
Proof. exact on_axis. Qed.
Print Assumptions C120_on_axis.

Theorem C120_max_camber : forall o p B, let a := real (hd zero64 (fxup p)) in let b := real (last (fxup p) zero64) in let ya := real (hd zero64 (fyup p)) in let yb := real (last (fyup p) zero64) in
  numbers p -> common_abscissae p -> same_sizes p -> fxup p <> [] -> yb = real (last (fydown p) zero64) -> Forall (fun x => a <= x <= b) (xup (meaning p)) ->
  bpow radix2 (-300) <= b - a <= bpow radix2 300 -> B <= bpow radix2 300 ->
  Forall (fun y => Rabs y <= B) (yup (meaning p)) -> Forall (fun y => Rabs y <= B) (ydown (meaning p)) ->
  exists m, max_camber64 o p = Ok m /\ is_number m /\
  let camber i := (real (nth i (fyup p) zero64) + real (nth i (fydown p) zero64)) / 2 - (ya + (yb - ya) / (b - a) * (real (nth i (fxup p) zero64) - a)) in
  let bound := 20 * eps * B + bpow radix2 (-500) in
  (exists i, (i < length (fxup p))%nat /\ Rabs (real m - camber i) <= bound) /\ (forall j, (j < length (fxup p))%nat -> Rabs (camber j) <= Rabs (real m) + bound).
Proof. exact inclined_measured. Qed.
Print Assumptions C120_max_camber.

(** Edges at one abscissa: no exception, the result is NaN. *)
Theorem C120_no_width : forall o p, common_abscissae p -> same_sizes p -> fxup p <> [] -> real (hd zero64 (fxup p)) = real (last (fxup p) zero64) -> exists m, max_camber64 o p = Ok m /\ is_nan64 m.
Proof. exact no_width. Qed.
Print Assumptions C120_no_width.

Theorem C120_nan : forall o p, common_abscissae p -> same_sizes p -> Exists is_nan64 (fyup p) \/ Exists is_nan64 (fydown p) -> exists m, max_camber64 o p = Ok m /\ is_nan64 m.
Proof. exact nan_ordinate. Qed.
Print Assumptions C120_nan.

(** The four-digit foils with linear spacing: the exact camber curve's largest value at the stations, which is at most a/100. *)
Theorem C120_four_digits : forall L o a b c d n cosine p, naca_input L a b c d n -> naca_foil64 L a b c d cosine n = Ok p -> (1 <= 10 * c + d)%nat -> cosine = false \/ b = 0%nat ->
  exists m, max_camber64 o p = Ok m /\ is_number m /\ - (1067 * eps) <= real m <= INR a / 100 + 1067 * eps /\
  (exists i x, (i < n)%nat /\ Rabs (x - INR i / INR (n - 1)) <= 3 * eps /\ 0 <= x <= 1 /\ Rabs (real m - camber4 a b x) <= 1067 * eps) /\
  (forall j, (j < n)%nat -> exists x, Rabs (x - INR j / INR (n - 1)) <= 3 * eps /\ 0 <= x <= 1 /\ camber4 a b x <= Rabs (real m) + 1067 * eps).
Proof. exact foil_camber. Qed.
Print Assumptions C120_four_digits.

(** Five digits, for the junction and the strength the splines return. *)
Theorem C120_five_digits : forall L S o a b reflex c d n cosine p, naca5_input L S a b reflex c d n -> naca_foil5_64 L S a b (third reflex) c d cosine n = Ok p -> (1 <= 10 * c + d)%nat -> cosine = false \/ b = 0%nat ->
  exists m k, (b <> 0%nat -> Rabs (m - junction5 reflex b) <= / 2 ^ 30 /\ Rabs (k - strength5 reflex b) <= / 2 ^ 10) /\
  exists M, max_camber64 o p = Ok M /\ is_number M /\
  (exists i x, (i < n)%nat /\ Rabs (x - INR i / INR (n - 1)) <= 3 * eps /\ 0 <= x <= 1 /\ Rabs (real M - camber5 a b cosine k m x) <= 167 * eps) /\
  (forall j, (j < n)%nat -> exists x, Rabs (x - INR j / INR (n - 1)) <= 3 * eps /\ 0 <= x <= 1 /\ Rabs (camber5 a b cosine k m x) <= Rabs (real M) + 167 * eps).
Proof. exact foil_camber5. Qed.
Print Assumptions C120_five_digits.

Local Ltac each := repeat (apply Forall_cons; [|]); try apply Forall_nil.

(** A section below its chord, with edges on the axis. *)
Definition sagging : fprofile := mkF [zero64; f1; two64] [zero64; f1; two64] [zero64; zero64; f1] [zero64; fneg two64; minus_one].
Example C120_example_level : numbers sagging /\ common_abscissae sagging /\ same_sizes sagging /\ fxup sagging <> [] /\
  real (hd zero64 (fyup sagging)) = 0 /\ real (last (fyup sagging) zero64) = - real (last (fydown sagging) zero64) /\
  real (last (fyup sagging) zero64) + real (last (fydown sagging) zero64) = 2 * real (hd zero64 (fyup sagging)) /\
  real (hd zero64 (fxup sagging)) <> real (last (fxup sagging) zero64) /\ Forall (fun x => Rabs x <= huge / 2) (xup (meaning sagging)) /\
  Forall (fun y => Rabs y <= 2) (yup (meaning sagging)) /\ Forall (fun y => Rabs y <= 2) (ydown (meaning sagging)) /\
  exists cs, compute_camber_line64 sagging = Ok (fxup sagging, cs) /\ Forall (fun c => real c = 0 \/ bpow radix2 (-511) <= Rabs (real c)) cs.
Proof.
  pose proof huge_big as HB. pose proof f1_val as V1. destruct two64_val as (V2 & _). destruct minus_one_val as (Vm & _). assert (V0 : val zero64 = 0) by reflexivity. assert (Vn : val (fneg two64) = -2) by (rewrite fneg_val, V2; ring).
  unfold meaning, sagging, real. cbn [xup yup ydown fxup fyup fydown map hd last]. unfold real. rewrite ?V0, ?V1, ?V2, ?Vm, ?Vn.
  split; [repeat split; repeat constructor|]. split; [repeat split; repeat constructor|]. split; [repeat split|]. split; [discriminate|]. split; [reflexivity|]. split; [lra|]. split; [lra|]. split; [lra|].
  split; [each; apply Rabs_le; lra|]. split; [each; apply Rabs_le; lra|]. split; [each; apply Rabs_le; lra|].
  exists (camber_list64 sagging). split; [apply camber_list; repeat split; repeat constructor|].
  assert (E : map (fun c => SF2R radix2 (B2SF c)) (camber_list64 sagging) = [0; -1; 0]).
  { rewrite <- map_map. replace (map (@B2SF 53 1024) (camber_list64 sagging)) with [SpecFloat.S754_zero false; SpecFloat.S754_finite true 4503599627370496 (-52); SpecFloat.S754_zero false] by (vm_compute; reflexivity).
    cbn [map]. unfold SF2R, F2R. cbn. repeat f_equal. lra. }
  apply Forall_forall. intros c I. apply (in_map (fun c => SF2R radix2 (B2SF c))) in I. rewrite E in I. cbv beta in I. rewrite SF2R_B2SF in I. unfold real. destruct I as [I|[I|[I|[]]]]; rewrite <- I; [left; reflexivity|right|left; reflexivity].
  replace (-1) with (- (1)) by ring. rewrite Rabs_Ropp, Rabs_R1. change 1 with (bpow radix2 0). apply bpow_le. lia.
Qed.
Example C120_example_sagging : forall o, match max_camber64 o sagging with Ok m => B2SF m = B2SF minus_one | Err _ => False end.
Proof. intros []; vm_compute; reflexivity. Qed.

(** An inclined chord: the camber is measured vertically, 1 - 1/2 in the middle. *)
Definition rising : fprofile := mkF [zero64; f1; two64] [zero64; f1; two64] [zero64; two64; f1] [zero64; zero64; f1].
Example C120_example_rising : numbers rising /\ common_abscissae rising /\ same_sizes rising /\ fxup rising <> [] /\ real (last (fyup rising) zero64) = real (last (fydown rising) zero64) /\
  Forall (fun x => real (hd zero64 (fxup rising)) <= x <= real (last (fxup rising) zero64)) (xup (meaning rising)) /\
  bpow radix2 (-300) <= real (last (fxup rising) zero64) - real (hd zero64 (fxup rising)) <= bpow radix2 300 /\
  Rmax (Rabs (real (hd zero64 (fyup rising)))) (Rabs (real (last (fyup rising) zero64))) <= bpow radix2 300 /\ 2 <= bpow radix2 300 /\
  Forall (fun y => Rabs y <= 2) (yup (meaning rising)) /\ Forall (fun y => Rabs y <= 2) (ydown (meaning rising)).
Proof.
  pose proof f1_val as V1. destruct two64_val as (V2 & _). assert (V0 : val zero64 = 0) by reflexivity.
  assert (P : 2 <= bpow radix2 300) by (change 2 with (bpow radix2 1); apply bpow_le; lia). assert (Q : bpow radix2 (-300) <= 1) by (change 1 with (bpow radix2 0); apply bpow_le; lia).
  unfold meaning, rising, real. cbn [xup yup ydown fxup fyup fydown map hd last]. unfold real. rewrite ?V0, ?V1, ?V2.
  split; [repeat split; repeat constructor|]. split; [repeat split; repeat constructor|]. split; [repeat split|]. split; [discriminate|]. split; [reflexivity|]. split; [each; lra|]. split; [lra|].
  split; [apply Rmax_lub; apply Rabs_le; lra|]. split; [exact P|]. split; each; apply Rabs_le; lra.
Qed.
Example C120_example_values : forall o, match max_camber64 o rising with Ok m => B2SF m = SpecFloat.S754_finite false 4503599627370496 (-53) | Err _ => False end.
Proof. intros []; vm_compute; reflexivity. Qed.

(** A closed loop of abscissae, and a missing ordinate. *)
Example C120_example_loop : let p := mkF [f1; zero64; f1] [f1; zero64; f1] [zero64; f1; f1] [zero64; zero64; f1] in
  common_abscissae p /\ same_sizes p /\ fxup p <> [] /\ real (hd zero64 (fxup p)) = real (last (fxup p) zero64).
Proof. cbv zeta. split; [repeat split; repeat constructor|]. split; [repeat split|]. split; [discriminate|reflexivity]. Qed.
Example C120_example_nan : let p := mkF [zero64; f1; two64] [zero64; f1; two64] [zero64; nan64; f1] [zero64; zero64; f1] in
  common_abscissae p /\ same_sizes p /\ Exists is_nan64 (fyup p).
Proof. cbv zeta. split; [repeat split; repeat constructor|]. split; [repeat split|]. right. left. reflexivity. Qed.

(** NACA 2412 on five stations: the largest station value is camber4 2 4 at x = 1/2, 7/360. *)
Example C120_example_2412 : forall o, naca_input plain_library 2 4 1 2 5 /\ match naca_foil64 plain_library 2 4 1 2 false 5 with
  | Ok p => match max_camber64 o p with Ok m => Bltb (fdiv64 f1 (fmul two64 (fmul two64 (fmul two64 (fmul two64 (fmul two64 two64)))))) m = true | Err _ => False end | Err _ => False end.
Proof. intros o. split; [split; [exact plain_good|]; unfold digit; repeat split; lia|]. destruct o; vm_compute; reflexivity. Qed.

(** ** C121 *)
(** The measured thickness is that of the exact foil at a station, none being thicker; it exceeds the
    nominal one by at most 1 in 5000, and reaches it when a station lies at 3/10 of the chord. *)
Theorem C121_four_digits : forall L a b c d n cosine p, naca_input L a b c d n -> naca_foil64 L a b c d cosine n = Ok p -> cosine = false \/ b = 0%nat ->
  let T := INR (10 * c + d) / 100 in
  exists t, max_thickness64 p = Ok t /\ is_number t /\ 0 <= real t <= 1.0002 * T + 2122 * eps /\
  (exists i x, (i < n)%nat /\ Rabs (x - INR i / INR (n - 1)) <= 3 * eps /\ 0 <= x <= 1 /\ Rabs (real t - 2 * half4 c d x) <= 2122 * eps) /\
  (forall j, (j < n)%nat -> exists x, Rabs (x - INR j / INR (n - 1)) <= 3 * eps /\ 0 <= x <= 1 /\ 2 * half4 c d x <= real t + 2122 * eps) /\
  (forall j, (j < n)%nat -> (10 * j = 3 * (n - 1))%nat -> T - 2122 * eps <= real t).
Proof. exact foil_thickness. Qed.
Print Assumptions C121_four_digits.

Theorem C121_five_digits : forall L S a b reflex c d n cosine p, naca5_input L S a b reflex c d n -> naca_foil5_64 L S a b (third reflex) c d cosine n = Ok p -> cosine = false \/ b = 0%nat ->
  let T := INR (10 * c + d) / 100 in
  exists t, max_thickness64 p = Ok t /\ is_number t /\ 0 <= real t <= 1.0002 * T + 322 * eps /\
  (exists i x, (i < n)%nat /\ Rabs (x - INR i / INR (n - 1)) <= 3 * eps /\ 0 <= x <= 1 /\ Rabs (real t - 2 * half4 c d x) <= 322 * eps) /\
  (forall j, (j < n)%nat -> exists x, Rabs (x - INR j / INR (n - 1)) <= 3 * eps /\ 0 <= x <= 1 /\ 2 * half4 c d x <= real t + 322 * eps) /\
  (forall j, (j < n)%nat -> (10 * j = 3 * (n - 1))%nat -> T - 322 * eps <= real t).
Proof. exact foil_thickness5. Qed.
Print Assumptions C121_five_digits.

(** NACA 2412 and the reflex 23112 on eleven stations are 12 per cent thick. *)
Example C121_example_2412 : forall p, naca_foil64 plain_library 2 4 1 2 false 11 = Ok p -> exists t, max_thickness64 p = Ok t /\ 11999 / 100000 <= real t <= 12003 / 100000.
Proof.
  intros p E. assert (K : naca_input plain_library 2 4 1 2 11) by (split; [exact plain_good|]; unfold digit; repeat split; lia).
  destruct (C121_four_digits _ 2 4 1 2 11 false p K E (or_introl eq_refl)) as (t & Et & _ & U & _ & _ & P). exists t. split; [exact Et|]. specialize (P 3%nat ltac:(lia) ltac:(lia)). replace (INR (10 * 1 + 2)) with 12 in * by (cbn; lra).
  assert (2122 * eps <= / 10 ^ 6). { unfold eps. change (bpow radix2 (-53)) with (/ 9007199254740992). lra. } lra.
Qed.
Example C121_example_23112 : forall p, naca_foil5_64 plain_library plain_splines 2 3 1 1 2 false 11 = Ok p -> exists t, max_thickness64 p = Ok t /\ 11999 / 100000 <= real t <= 12003 / 100000.
Proof.
  intros p E. assert (K : naca5_input plain_library plain_splines 2 3 true 1 2 11). { split; [exact plain_good|]. split; [exact plain_splines_good|]. unfold digit, tabulated. split; [lia|]. split; [right; lia|]. repeat split; lia. }
  destruct (C121_five_digits _ _ 2 3 true 1 2 11 false p K E (or_introl eq_refl)) as (t & Et & _ & U & _ & _ & P). exists t. split; [exact Et|]. specialize (P 3%nat ltac:(lia) ltac:(lia)). replace (INR (10 * 1 + 2)) with 12 in * by (cbn; lra).
  assert (322 * eps <= / 10 ^ 6). { unfold eps. change (bpow radix2 (-53)) with (/ 9007199254740992). lra. } lra.
Qed.
(** For C120: the largest camber of 23112 on five stations is positive. *)
Example C120_example_23112 : match naca_foil5_64 plain_library plain_splines 2 3 1 1 2 false 5 with
  | Ok p => match max_camber64 Unfused p with Ok m => Bltb zero64 m = true | Err _ => False end | Err _ => False end.
Proof. vm_compute. reflexivity. Qed.
