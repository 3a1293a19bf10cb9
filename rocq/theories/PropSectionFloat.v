(** C116 - C117: section parameters and coordinates in binary64 arithmetic. *)
From Coq Require Import Reals ZArith List Lra Lia Bool.
From Flocq Require Import Core BinarySingleNaN.
From Verif Require Import Base PpgFloatModel PpgFloatProofs ProfileModel ProfileSpec FloatModel FloatSpec FloatProofs FloatProofs2 ShapeFloatModel ShapeFloatSpec ShapeFloatProofs ShapeFloatProofs2 SectionFloatModel SectionFloatSpec SectionFloatProofs SectionFloatProofs2 SectionFloatProofs3 SectionFloatProofs5 SectionFloatProofs6 SectionFloatProofs7 SectionFloatProofs8.
Import ListNotations.
Open Scope R_scope.

(** ** C116 *)
Theorem C116_checked : forall s, is_number (pcmax s) -> is_number (ptmax s) ->
  ((exists q, from_parameters64 s = Ok q) <-> 0 <= real (pcmax s) /\ 0 <= real (ptmax s) /\ same_lengths s) /\
  ((forall q, from_parameters64 s <> Ok q) -> from_parameters64 s = Err ValueError).
Proof. exact checked. Qed.
Print Assumptions C116_checked.

Theorem C116_coordinates : forall s, number_parameters s -> same_lengths s -> moderate s -> 0 <= real (pcmax s) -> 0 <= real (ptmax s) ->
  exists q, from_parameters64 s = Ok q /\ numbers q /\ fxdown q = fxup q /\ same_sizes q /\ length (fxup q) = length (pchord s) /\
  forall i f c t, nth_error (pchord s) i = Some f -> nth_error (pcamber s) i = Some c -> nth_error (pthick s) i = Some t ->
    exists x u d, nth_error (fxup q) i = Some x /\ nth_error (fyup q) i = Some u /\ nth_error (fydown q) i = Some d /\
    (let e := real f * real (plen s) in Rabs (real x - e) <= eps * Rabs e + eta) /\
    (let m := real c * real (pcmax s) in let h := real t * (real (ptmax s) / 2) in let bound := 5 * eps * (Rabs m + Rabs h) + 3 * (2 + Rabs (real t)) * eta in
     Rabs (real u - (m + h)) <= bound /\ Rabs (real d - (m - h)) <= bound) /\
    (0 <= real t -> real d <= real u) /\ (real t = 0 -> real d = real u).
Proof. exact constructed. Qed.
Print Assumptions C116_coordinates.

Theorem C116_accepted : forall s, number_parameters s -> same_lengths s -> moderate s -> 0 <= real (pcmax s) -> 0 <= real (ptmax s) -> pchord s <> [] ->
  Forall (fun t => 0 <= real t) (pthick s) -> real (hd zero64 (pthick s)) = 0 -> real (last (pthick s) zero64) = 0 ->
  exists q, from_parameters64 s = Ok q /\ check_coordinates64 q = Ok tt.
Proof. exact accepted. Qed.
Print Assumptions C116_accepted.

Theorem C116_thickness : forall s K, number_parameters s -> same_lengths s -> moderate s -> 0 <= real (pcmax s) -> 0 <= real (ptmax s) ->
  Forall (fun t => 0 <= real t <= 1) (pthick s) -> Exists (fun t => real t = 1) (pthick s) -> Forall (fun c => Rabs (real c * real (pcmax s)) <= K) (pcamber s) ->
  exists q t, from_parameters64 s = Ok q /\ max_thickness64 q = Ok t /\ is_number t /\
    Rabs (real t - real (ptmax s)) <= 12 * eps * (K + real (ptmax s)) + 20 * eta.
Proof. exact fatness. Qed.
Print Assumptions C116_thickness.

(** Without camber the thickness asked for is measured exactly. *)
Theorem C116_symmetric : forall s, number_parameters s -> same_lengths s -> moderate s -> 0 <= real (pcmax s) -> bpow radix2 (-1021) <= real (ptmax s) ->
  Forall (fun c => real c * real (pcmax s) = 0) (pcamber s) ->
  Forall (fun t => 0 <= real t <= 1) (pthick s) -> Exists (fun t => real t = 1) (pthick s) ->
  exists q t, from_parameters64 s = Ok q /\ map real (fydown q) = map Ropp (map real (fyup q)) /\ max_thickness64 q = Ok t /\ is_number t /\ real t = real (ptmax s).
Proof. exact symmetric_section. Qed.
Print Assumptions C116_symmetric.

(** With camber it need not be. *)
Theorem C116_thickness_exact_refuted : exists s q t, number_parameters s /\ same_lengths s /\ moderate s /\ Forall (fun t => 0 <= real t <= 1) (pthick s) /\ Exists (fun t => real t = 1) (pthick s) /\
  from_parameters64 s = Ok q /\ max_thickness64 q = Ok t /\ real t <> real (ptmax s).
Proof. exact cambered_refuted. Qed.
Print Assumptions C116_thickness_exact_refuted.

(** NaN passes the sign checks. *)
Theorem C116_nan : forall s, same_lengths s -> 
  (is_nan64 (pcmax s) \/ is_number (pcmax s) /\ 0 <= real (pcmax s)) -> (is_nan64 (ptmax s) \/ is_number (ptmax s) /\ 0 <= real (ptmax s)) ->
  exists q, from_parameters64 s = Ok q /\
    (is_nan64 (pcmax s) \/ is_nan64 (ptmax s) -> Forall is_nan64 (fyup q) /\ Forall is_nan64 (fydown q)) /\
    (is_nan64 (plen s) -> Forall is_nan64 (fxup q) /\ Forall is_nan64 (fxdown q)).
Proof. exact nan_section. Qed.
Print Assumptions C116_nan.

Example C116_example : number_parameters cambered /\ same_lengths cambered /\ moderate cambered /\ 0 <= real (pcmax cambered) /\ 0 <= real (ptmax cambered) /\
  Forall (fun t => 0 <= real t <= 1) (pthick cambered) /\ Exists (fun t => real t = 1) (pthick cambered) /\
  real (hd zero64 (pthick cambered)) = 0 /\ real (last (pthick cambered) zero64) = 0 /\ Forall (fun c => Rabs (real c * real (pcmax cambered)) <= 1) (pcamber cambered).
Proof. exact cambered_fine. Qed.
Local Ltac each := repeat (apply Forall_cons; [|]); try apply Forall_nil.
(** The same without camber. *)
Example C116_example_symmetric : let s := mkFP [zero64; f1; two64] [zero64; f1; zero64] [zero64; f1; zero64] zero64 f01 f1 in
  number_parameters s /\ same_lengths s /\ moderate s /\ 0 <= real (pcmax s) /\ bpow radix2 (-1021) <= real (ptmax s) /\
  Forall (fun c => real c * real (pcmax s) = 0) (pcamber s) /\ Forall (fun t => 0 <= real t <= 1) (pthick s) /\ Exists (fun t => real t = 1) (pthick s).
Proof.
  cbv zeta. pose proof huge_big as HB. pose proof f01_val as V. pose proof f1_val as V1. destruct two64_val as (V2 & _). assert (V0 : val zero64 = 0) by reflexivity.
  unfold number_parameters, same_lengths, moderate, real in *. cbn [pchord pcamber pthick pcmax ptmax plen hd last].
  split; [repeat split; repeat constructor|]. split; [split; reflexivity|].
  split; [split; [|split]; each; rewrite ?V0, ?V1, ?V2, Rabs_pos_eq; lra|].
  split; [lra|]. split; [apply Rle_trans with (bpow radix2 (-4)); [apply bpow_le; lia|change (bpow radix2 (-4)) with (/ 16); lra]|].
  split; [each; rewrite ?V0; lra|]. split; [each; rewrite ?V0, ?V1; lra|]. right. left. exact V1.
Qed.
Example C116_example_nan : let s := mkFP [zero64; f1] [zero64; f1] [zero64; f1] nan64 f01 f1 in
  same_lengths s /\ is_nan64 (pcmax s) /\ is_number (ptmax s) /\ 0 <= real (ptmax s).
Proof. cbv zeta. pose proof f01_val as V. unfold real. cbn [pcmax ptmax]. split; [split; reflexivity|]. split; [reflexivity|]. split; [reflexivity|lra]. Qed.
Example C116_example_rejected : from_parameters64 (mkFP [zero64; f1] [zero64; f1] [zero64; f1] (fneg f1) f01 f1) = Err ValueError /\
  from_parameters64 (mkFP [zero64; f1] [zero64; f1] [zero64; f1] f1 (fneg f01) f1) = Err ValueError /\
  from_parameters64 (mkFP [zero64; f1] [zero64] [zero64; f1] f1 f01 f1) = Err ValueError /\
  from_parameters64 (mkFP [zero64; f1] [zero64; f1] [zero64] f1 f01 f1) = Err ValueError.
Proof. vm_compute. auto. Qed.

(** ** C117 *)
Theorem C117_thickness : forall o p s, numbers p -> same_sizes p ->
  Forall (fun y => Rabs y <= huge / 4) (yup (meaning p)) -> Forall (fun y => Rabs y <= huge / 4) (ydown (meaning p)) -> parameters_british64 o p = Ok s ->
  is_number (ptmax s) /\ length (pthick s) = length (fxup p) /\ Forall (fun t => is_number t /\ 0 <= real t <= 1) (pthick s) /\
  (real (ptmax s) = 0 <-> yup (meaning p) = ydown (meaning p)) /\
  (real (ptmax s) = 0 -> Forall (fun t => real t = 0) (pthick s)) /\ (real (ptmax s) <> 0 -> Exists (fun t => real t = 1) (pthick s)) /\
  (common_abscissae p -> max_thickness64 p = Ok (ptmax s)).
Proof. exact thickness_parameters. Qed.
Print Assumptions C117_thickness.

Theorem C117_camber : forall o p s, numbers p -> same_sizes p ->
  Forall (fun y => Rabs y <= huge / 4) (yup (meaning p)) -> Forall (fun y => Rabs y <= huge / 4) (ydown (meaning p)) -> parameters_british64 o p = Ok s ->
  real (pcmax s) = 0 \/ Forall (fun m => Rabs m <= huge / 8 * real (pcmax s)) (mean (yup (meaning p)) (ydown (meaning p))) ->
  is_number (pcmax s) /\ 0 <= real (pcmax s) /\ length (pcamber s) = length (fxup p) /\ Forall is_number (pcamber s) /\
  (real (pcmax s) = 0 -> Forall (fun c => real c = 0) (pcamber s)) /\
  (real (pcmax s) <> 0 -> Exists (fun m => 0 < m) (mean (yup (meaning p)) (ydown (meaning p))) -> Forall (fun c => real c <= 1) (pcamber s) /\ Exists (fun c => real c = 1) (pcamber s)) /\
  (real (pcmax s) <> 0 -> Forall (fun m => m <= 0) (mean (yup (meaning p)) (ydown (meaning p))) -> Forall (fun c => real c <= -1) (pcamber s) /\ Exists (fun c => real c = -1) (pcamber s)).
Proof. exact camber_parameters. Qed.
Print Assumptions C117_camber.

(** A horizontal chord. *)
Theorem C117_chord : forall o p, let a := real (hd zero64 (fxup p)) in let b := real (last (fxup p) zero64) in
  numbers p -> common_abscissae p -> same_sizes p -> fxup p <> [] -> Forall (fun x => a <= x <= b) (xup (meaning p)) -> bpow radix2 (-511) <= b - a <= bpow radix2 511 ->
  real (hd zero64 (fyup p)) = real (last (fyup p) zero64) -> real (last (fyup p) zero64) = real (last (fydown p) zero64) ->
  Forall (fun y => Rabs y <= huge / 4) (yup (meaning p)) -> Forall (fun y => Rabs y <= huge / 4) (ydown (meaning p)) ->
  exists s, parameters_british64 o p = Ok s /\ is_number (plen s) /\ Rabs (real (plen s) - (b - a)) <= eps * (b - a) /\
    length (pchord s) = length (fxup p) /\ Forall (fun f => is_number f /\ 0 <= real f <= 1) (pchord s) /\
    real (hd zero64 (pchord s)) = 0 /\ real (last (pchord s) zero64) = 1 /\
    (forall i j x y f g, nth_error (fxup p) i = Some x -> nth_error (fxup p) j = Some y -> nth_error (pchord s) i = Some f -> nth_error (pchord s) j = Some g ->
       real x <= real y -> real f <= real g).
Proof. exact flat_chord. Qed.
Print Assumptions C117_chord.

Theorem C117_chord_any : forall o p s, numbers p -> common_abscissae p -> same_sizes p -> fxup p <> [] -> real (last (fyup p) zero64) = real (last (fydown p) zero64) ->
  let dx := real (hd zero64 (fxup p)) - real (last (fxup p) zero64) in let dy := real (hd zero64 (fyup p)) - real (last (fyup p) zero64) in
  bpow radix2 (-300) <= sqrt (dx * dx + dy * dy) <= bpow radix2 300 -> parameters_british64 o p = Ok s ->
  is_number (plen s) /\ Rabs (real (plen s) - sqrt (dx * dx + dy * dy)) <= 7 * eps * sqrt (dx * dx + dy * dy).
Proof. exact any_chord. Qed.
Print Assumptions C117_chord_any.

Theorem C117_round_trip : forall o p s B, numbers p -> same_sizes p -> B <= huge / 16 ->
  Forall (fun y => Rabs y <= B) (yup (meaning p)) -> Forall (fun y => Rabs y <= B) (ydown (meaning p)) ->
  (forall i u d, nth_error (yup (meaning p)) i = Some u -> nth_error (ydown (meaning p)) i = Some d -> d <= u) ->
  parameters_british64 o p = Ok s -> is_number (plen s) -> 0 < real (plen s) ->
  (forall x y, In x (xup (meaning p)) -> In y (xup (meaning p)) -> Rabs (x - y) <= huge / 8 /\ Rabs (x - y) <= huge / 8 * real (plen s)) ->
  (real (pcmax s) = 0 /\ Forall (fun m => m = 0) (mean (yup (meaning p)) (ydown (meaning p))) \/
   real (pcmax s) <> 0 /\ Forall (fun m => Rabs m <= huge / 8 * real (pcmax s)) (mean (yup (meaning p)) (ydown (meaning p)))) ->
  exists q, from_parameters64 s = Ok q /\ numbers q /\ same_sizes q /\ length (fxup q) = length (fxup p) /\
  exists x0, In x0 (xup (meaning p)) /\ (forall x, In x (xup (meaning p)) -> x0 <= x) /\
  (forall i x u d, nth_error (xup (meaning p)) i = Some x -> nth_error (yup (meaning p)) i = Some u -> nth_error (ydown (meaning p)) i = Some d ->
    exists x' u' d', nth_error (xup (meaning q)) i = Some x' /\ nth_error (yup (meaning q)) i = Some u' /\ nth_error (ydown (meaning q)) i = Some d' /\
    Rabs (x' - (x - x0)) <= 4 * eps * (x - x0) + (1 + 2 * real (plen s)) * eta /\
    Rabs (u' - u) <= 20 * eps * B + 12 * eta /\ Rabs (d' - d) <= 20 * eps * B + 12 * eta).
Proof. exact there_and_back. Qed.
Print Assumptions C117_round_trip.

(** Shared abscissae, whatever the values. *)
Theorem C117_always : forall o p, same_sizes p -> fxdown p = fxup p -> (fxup p <> [] -> exists s, parameters_british64 o p = Ok s /\ same_lengths s /\ length (pchord s) = length (fxup p)) /\
  (fxup p = [] -> parameters_british64 o p = Err IndexError).
Proof. exact always. Qed.
Print Assumptions C117_always.

(** One NaN is enough. *)
Theorem C117_nan : forall o p s, same_sizes p -> parameters_british64 o p = Ok s ->
  (Exists is_nan64 (fxup p) -> Forall is_nan64 (pchord s)) /\
  (Exists is_nan64 (fyup p) \/ Exists is_nan64 (fydown p) -> is_nan64 (pcmax s) /\ is_nan64 (ptmax s) /\ Forall is_nan64 (pcamber s) /\ Forall is_nan64 (pthick s)).
Proof. exact nan_parameters. Qed.
Print Assumptions C117_nan.

(** A horizontal chord of at most 2^-539 measures 0. *)
Theorem C117_short_chord : forall o p s, numbers p -> common_abscissae p -> same_sizes p -> fxup p <> [] ->
  Rabs (real (hd zero64 (fxup p)) - real (last (fxup p) zero64)) <= bpow radix2 (-539) ->
  real (hd zero64 (fyup p)) = real (last (fyup p) zero64) -> real (last (fyup p) zero64) = real (last (fydown p) zero64) -> parameters_british64 o p = Ok s ->
  is_number (plen s) /\ real (plen s) = 0 /\ Forall (fun f => ~ is_number f) (pchord s).
Proof. exact short_chord. Qed.
Print Assumptions C117_short_chord.

(** A flat bottom, chord 2, height 1. *)
Definition foil : fprofile := mkF [zero64; f1; two64] [zero64; f1; two64] [zero64; f1; zero64] [zero64; zero64; zero64].
Definition shown (s : fparams) := (map B2SF (pchord s), map B2SF (pcamber s), map B2SF (pthick s), (B2SF (pcmax s), B2SF (ptmax s), B2SF (plen s))).
Definition one := SpecFloat.S754_finite false 4503599627370496 (-52).
Definition zero := SpecFloat.S754_zero false.
Example C117_example : forall o, match parameters_british64 o foil with Ok s => Some (shown s) | Err _ => None end =
  Some ([zero; SpecFloat.S754_finite false 4503599627370496 (-53); one], [zero; one; zero], [zero; one; zero],
        (SpecFloat.S754_finite false 4503599627370496 (-53), one, SpecFloat.S754_finite false 4503599627370496 (-51))).
Proof. intros []; vm_compute; reflexivity. Qed.
Lemma foil_values : xup (meaning foil) = [0; 1; 2] /\ yup (meaning foil) = [0; 1; 0] /\ ydown (meaning foil) = [0; 0; 0] /\ mean [0; 1; 0] [0; 0; 0] = [0; 1 / 2; 0].
Proof.
  pose proof f1_val as V1. destruct two64_val as (V2 & _). assert (V0 : val zero64 = 0) by reflexivity. unfold meaning, foil. cbn [xup yup ydown fxup fyup fydown map]. unfold real. rewrite V0, V1, V2.
  repeat split. unfold mean. cbn [map2]. repeat f_equal; field.
Qed.
Example C117_example_chord : numbers foil /\ common_abscissae foil /\ same_sizes foil /\ fxup foil <> [] /\ Forall (fun x => 0 <= x <= 2) (xup (meaning foil)) /\
  real (hd zero64 (fxup foil)) = 0 /\ real (last (fxup foil) zero64) = 2 /\ bpow radix2 (-511) <= 2 - 0 <= bpow radix2 511 /\
  real (hd zero64 (fyup foil)) = 0 /\ real (last (fyup foil) zero64) = 0 /\ real (last (fydown foil) zero64) = 0 /\
  Forall (fun y => Rabs y <= huge / 4) (yup (meaning foil)) /\ Forall (fun y => Rabs y <= huge / 4) (ydown (meaning foil)) /\
  bpow radix2 (-300) <= sqrt ((0 - 2) * (0 - 2) + (0 - 0) * (0 - 0)) <= bpow radix2 300.
Proof.
  destruct foil_values as (X & U & D & _). pose proof huge_big as HB. destruct two64_val as (V2 & _). rewrite X, U, D.
  split; [repeat split; repeat constructor|]. split; [repeat split; repeat constructor|]. split; [repeat split|]. split; [discriminate|]. split; [each; lra|].
  split; [reflexivity|]. split; [exact V2|]. replace (2 - 0) with (bpow radix2 1) by (cbn; lra). split; [split; apply bpow_le; lia|].
  split; [reflexivity|]. split; [reflexivity|]. split; [reflexivity|]. split; [each; rewrite Rabs_pos_eq; lra|]. split; [each; rewrite Rabs_pos_eq; lra|].
  replace ((0 - 2) * (0 - 2) + (0 - 0) * (0 - 0)) with (bpow radix2 1 * bpow radix2 1) by (cbn; lra). rewrite sqrt_square by apply bpow_ge_0. split; apply bpow_le; lia.
Qed.
Example C117_example_round_trip : forall o, exists s, parameters_british64 o foil = Ok s /\ is_number (plen s) /\ real (plen s) = 2 /\ real (pcmax s) = 1 / 2 /\
  Forall (fun y => Rabs y <= 1) (yup (meaning foil)) /\ Forall (fun y => Rabs y <= 1) (ydown (meaning foil)) /\ 1 <= huge / 16 /\
  (forall i u d, nth_error (yup (meaning foil)) i = Some u -> nth_error (ydown (meaning foil)) i = Some d -> d <= u) /\
  (forall x y, In x (xup (meaning foil)) -> In y (xup (meaning foil)) -> Rabs (x - y) <= huge / 8 /\ Rabs (x - y) <= huge / 8 * real (plen s)) /\
  Forall (fun m => Rabs m <= huge / 8 * real (pcmax s)) (mean (yup (meaning foil)) (ydown (meaning foil))).
Proof.
  intros o. pose proof (C117_example o) as E. destruct (parameters_british64 o foil) as [s|]; [|discriminate]. exists s. split; [reflexivity|]. injection E as _ _ _ C _ L.
  assert (F : finite (plen s) = true) by (destruct (plen s); cbn in L; try discriminate L; reflexivity).
  apply sf_val in C. apply sf_val in L. unfold F2R in C, L. cbn [Fnum Fexp] in C, L.
  assert (VC : real (pcmax s) = 1 / 2). { unfold real. rewrite C. cbn. lra. } assert (VL : real (plen s) = 2). { unfold real. rewrite L. cbn. lra. }
  destruct foil_values as (X & U & D & M). pose proof huge_big as HB. rewrite X, U, D, M, VC, VL. split; [exact F|]. split; [reflexivity|]. split; [reflexivity|].
  split; [each; rewrite Rabs_pos_eq; lra|]. split; [each; rewrite Rabs_pos_eq; lra|]. split; [lra|]. split.
  { intros [|[|[|i]]] u d Hu Hd; cbn in Hu, Hd; try (destruct i; discriminate); injection Hu as <-; injection Hd as <-; lra. }
  split.
  { assert (K : forall x y, In x [0; 1; 2] -> In y [0; 1; 2] -> Rabs (x - y) <= 2) by (cbn; intros x y [<-|[<-|[<-|[]]]] [<-|[<-|[<-|[]]]]; apply Rabs_le; lra).
    intros x y I J. pose proof (K x y I J). lra. }
  each; rewrite Rabs_pos_eq; lra.
Qed.
Example C117_example_nan : let p := mkF [zero64; nan64; two64] [zero64; nan64; two64] [zero64; f1; zero64] [zero64; zero64; nan64] in
  same_sizes p /\ fxdown p = fxup p /\ fxup p <> [] /\ Exists is_nan64 (fxup p) /\ Exists is_nan64 (fydown p).
Proof. cbv zeta. split; [repeat split|]. split; [reflexivity|]. split; [discriminate|]. split; [right; left; reflexivity|]. right. right. left. reflexivity. Qed.
(** A chord of 2^-540. *)
Definition speck : b64 := @B754_finite 53 1024 false 4503599627370496 (-592) eq_refl.
Example C117_example_short : let p := mkF [zero64; speck] [zero64; speck] [zero64; zero64] [zero64; zero64] in
  numbers p /\ common_abscissae p /\ same_sizes p /\ real (last (fxup p) zero64) = bpow radix2 (-540) /\
  Rabs (real (hd zero64 (fxup p)) - real (last (fxup p) zero64)) <= bpow radix2 (-539).
Proof.
  cbv zeta. split; [repeat split; repeat constructor|]. split; [repeat split; repeat constructor|]. split; [repeat split|]. cbn [fxup hd last].
  assert (V : real speck = bpow radix2 (-540)).
  { unfold real, speck. cbn [B2R SpecFloat.cond_Zopp]. unfold F2R. cbn [Fnum Fexp]. change (IZR 4503599627370496) with (bpow radix2 52). rewrite <- bpow_plus. reflexivity. }
  split; [exact V|]. rewrite V. change (real zero64) with 0. rewrite Rminus_0_l, Rabs_Ropp, Rabs_pos_eq by apply bpow_ge_0. apply bpow_le. lia.
Qed.
