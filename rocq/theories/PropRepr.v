(** Properties C110 - C112: the texts of binary64 numbers and parameter files of such numbers. *)
From Coq Require Import Reals String List ZArith Ascii Bool Lra Lia.
From Flocq Require Import Core BinarySingleNaN.
From Verif Require Import Base TextModel TextSpec ParamsModel ParamsSpec PpgFloatModel FloatModel ReprModel ReprSpec.
From Verif Require Import ReprProofs3 ReprProofs4 ReprProofs5 ReprProofs6.
Import ListNotations.

(** ** C110 *)
Theorem C110_read_back : forall x : b64, float_of_text (float_repr x) = Some x.
Proof. exact repr_reads. Qed.
Print Assumptions C110_read_back.

Theorem C110_printed : forall x : b64, is_finite x = true -> B2R x <> 0%R ->
  exists w m q d k, float_repr x = (if Bsign x then ["-"%char] else []) ++ w /\ numeral w m q /\ dec m q = dec d k /\
    (0 < d < 10 ^ 17)%Z /\ (d mod 10 <> 0)%Z /\
    ((dec 1 (-4) <= dec d k < dec 1 16)%R /\ fixed_form w \/ ((dec d k < dec 1 (-4))%R \/ (dec 1 16 <= dec d k)%R) /\ exponent_form w) /\
    rounded (Bsign x) d k x /\
    forall m' q', (0 < m')%Z -> rounded (Bsign x) m' q' x -> (digits10 d <= digits10 m')%Z /\
      ((digits10 m' <= digits10 d)%Z -> (Rabs (dec d k - Rabs (B2R x)) <= Rabs (dec m' q' - Rabs (B2R x)))%R).
Proof. exact printed. Qed.
Print Assumptions C110_printed.

(** The nearest double to m * 10^q, as a text and back. *)
Definition shown (neg : bool) (m q : Z) : string := string_of_list_ascii (float_repr (of_decimal neg m q)).
Example C110_example : map (fun mq => shown false (fst mq) (snd mq))
    [(3, -1); (6000000000000001, -16); (5684341886080802, -29); (123456789, 0); (1, 16); (9999999999999998, 0); (1, -4); (9, -5);
     (5, -324); (17976931348623157, 292); (2, 308); (123, 300)]%Z =
  ["0.3"; "0.6000000000000001"; "5.684341886080802e-14"; "123456789.0"; "1e+16"; "9999999999999998.0"; "0.0001"; "9e-05";
   "5e-324"; "1.7976931348623157e+308"; "inf"; "1.23e+302"]%string.
Proof. vm_compute. reflexivity. Qed.
(** 1.23 has 52 significant bits after the point; 3 digits are enough. *)
Example C110_digits : exists x : b64, is_finite x = true /\ B2R x <> 0%R /\ float_repr x = L "-1.23".
Proof.
  exists (of_decimal true 123 (-2)). split; [vm_compute; reflexivity|]. split; [|vm_compute; reflexivity].
  destruct (of_decimal true 123 (-2)) as [s|s| |s m e H] eqn:E; [vm_compute in E; discriminate..|].
  unfold B2R. intros Z. apply eq_0_F2R in Z. destruct s; discriminate.
Qed.

(** ** C111 *)
Theorem C111_accepted_texts : forall s y, float_of_text s = Some y <-> number_text s y.
Proof. exact float_of_text_iff. Qed.
Print Assumptions C111_accepted_texts.

Theorem C111_nearest : forall neg m q y, rounded neg m q y -> is_finite y = true -> forall z : b64, is_finite z = true ->
  let v := (if neg then - dec m q else dec m q)%R in (Rabs (B2R y - v) <= Rabs (B2R z - v))%R.
Proof. exact rounded_nearest. Qed.
Print Assumptions C111_nearest.

Theorem C111_unique : forall neg m q x y, rounded neg m q x -> rounded neg m q y -> x = y.
Proof. exact rounded_unique. Qed.
Print Assumptions C111_unique.

Definition reread (s : string) : option string := option_map (fun x => string_of_list_ascii (float_repr x)) (float_of_text (L s)).
Example C111_example : map reread [" 1_0.5 "; ".5"; "5."; "-0"; "1E3"; "+1e-3"; "iNf"; "-Infinity"; "nan"; "1e400"; "1e-400";
    "9007199254740993"; "9007199254740995"; "0.1000000000000000055511151231257827"]%string =
  [Some "10.5"; Some "0.5"; Some "5.0"; Some "-0.0"; Some "1000.0"; Some "0.001"; Some "inf"; Some "-inf"; Some "nan"; Some "inf"; Some "0.0";
   Some "9007199254740992.0"; Some "9007199254740996.0"; Some "0.1"]%string.
Proof. vm_compute. reflexivity. Qed.
Example C111_rejected : map reread [""; "."; "1__0"; "_1"; "1_"; "1e"; "e5"; "1 2"; "0x10"; "1,5"; "--1"; "infin"]%string = repeat None 12.
Proof. vm_compute. reflexivity. Qed.
(** The numeral of one of them. *)
Example C111_numeral : numeral (L "10.5e-3") 105 (-4).
Proof.
  exists (L "10"), (L ".5"), (L "5"), (L "e-3"), (-3)%Z. split; [reflexivity|].
  assert (D : forall n : nat, (n < 10)%nat -> digit (ascii_of_nat (48 + n))) by (intros n H; do 10 (destruct n as [|n]; [split; vm_compute; lia|]); lia).
  split; [constructor; [exact (D 1%nat ltac:(lia))|constructor; [exact (D 0%nat ltac:(lia))|constructor]]|].
  split; [constructor; [exact (D 5%nat ltac:(lia))|constructor]|]. split; [discriminate|]. split; [right; reflexivity|].
  split; [|split; reflexivity]. right. exists "e"%char, ["-"%char], true, ["3"%char]. split; [reflexivity|]. split; [left; reflexivity|].
  split; [reflexivity|]. split; [discriminate|]. split; [constructor; [exact (D 3%nat ltac:(lia))|constructor]|reflexivity].
Qed.

(** ** C112 *)
Theorem C112_round_trip : forall fs p f fs' p' q, write_parameters b64 codec64 fs p (AStr f) = (fs', (p', Ok tt)) ->
  populated p' -> read_parameters b64 codec64 fs' q (AStr f) = (fs', (p', Ok tt)).
Proof. exact round_trip64. Qed.
Print Assumptions C112_round_trip.

Theorem C112_copy : forall fs f q fs1 p, read_parameters b64 codec64 fs q (AStr f) = (fs1, (p, Ok tt)) -> forall g q', exists fs2,
  write_parameters b64 codec64 fs1 p (AStr g) = (fs2, (p, Ok tt)) /\ read_parameters b64 codec64 fs2 q' (AStr g) = (fs2, (p, Ok tt)).
Proof. exact copy64. Qed.
Print Assumptions C112_copy.

Theorem C112_missing_file : forall fs f, fs f = None ->
  exists fs' p, read_parameters b64 codec64 fs (new_params b64 codec64) (AStr f) = (fs', (p, Ok tt)) /\ fs' f <> None /\
    radii b64 p = Some (c_arange codec64) /\ forall k, at_key (parameters b64 p) k = Some (repeat (c_zero codec64) (List.length (c_arange codec64))) /\
      at_key (nbasis b64 p) k = 10%Z /\ at_key (degree b64 p) k = 3%Z /\ at_key (npoints b64 p) k = 500%Z /\
      at_key (deformations b64 p) k = repeat (c_zero codec64) 10.
Proof. exact default_file64. Qed.
Print Assumptions C112_missing_file.

(** The default radii are not 0.3, 0.4, ..., 1.0: the last one is larger than 1. *)
Theorem C112_default_radii : map float_repr (c_arange codec64) =
  [L "0.3"; L "0.4"; L "0.5"; L "0.6000000000000001"; L "0.7000000000000002"; L "0.8000000000000003"; L "0.9000000000000001"; L "1.0000000000000002"].
Proof. exact default_radii_texts. Qed.
Print Assumptions C112_default_radii.

Definition tiny_params : params b64 :=
  Build_params b64 (Some [of_decimal false 3 (-1); of_decimal false 1 (-300)])
    (Build_dict None (Some [of_decimal true 2 (-1); B754_infinity true]) None (Some [B754_nan; B754_zero true]) None)
    (same_for_all 1%Z) (same_for_all 3%Z) (same_for_all 500%Z) (same_for_all [of_decimal false 1 (-1)]).
Example C112_example : forall fs f q, exists fs' p', write_parameters b64 codec64 fs tiny_params (AStr f) = (fs', (p', Ok tt)) /\
  read_parameters b64 codec64 fs' q (AStr f) = (fs', (p', Ok tt)) /\ radii b64 p' = radii b64 tiny_params.
Proof.
  intros fs f q.
  assert (W : write_parameters b64 codec64 fs tiny_params (AStr f) =
    (put fs f (show_params b64 codec64 (zero_filled codec64 tiny_params)), (zero_filled codec64 tiny_params, Ok tt))) by reflexivity.
  eexists. eexists. split; [exact W|]. split; [|reflexivity]. apply (C112_round_trip _ _ _ _ _ _ W). split; [discriminate|]. intros []; discriminate.
Qed.
