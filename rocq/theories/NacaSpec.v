(** Vocabulary of the NACA properties; nothing here occurs in the model. *)
From Coq Require Import Reals List ZArith String Ascii.
From Verif Require Import Base ProfileModel ProfileSpec.
Import ListNotations.
Open Scope R_scope.

(** The code written with the given decimal digits. *)
Definition digit_char (d : nat) : ascii := ascii_of_nat (48 + d).
Definition code (ds : list nat) : string := string_of_list_ascii (map digit_char ds).
Definition is_digit (d : nat) : Prop := (d <= 9)%nat.

(** Python's white space in ASCII. *)
Definition space_char (c : ascii) : Prop :=
  In c ["009"; "010"; "011"; "012"; "013"; "028"; "029"; "030"; "031"; " "]%char.
(** The number two characters denote: two digits, a digit before a point or white
    space, or a digit after a point, a sign or white space. *)
Definition two_chars (a b : ascii) (x : R) : Prop :=
  (exists c d, is_digit c /\ is_digit d /\ a = digit_char c /\ b = digit_char d /\ x = 10 * INR c + INR d) \/
  (exists c, is_digit c /\ a = digit_char c /\ (b = "."%char \/ space_char b) /\ x = INR c) \/
  (exists d, is_digit d /\ b = digit_char d /\
     ((a = "."%char /\ x = INR d / 10) \/ ((a = "+"%char \/ space_char a) /\ x = INR d) \/ (a = "-"%char /\ x = - INR d))).

(** The i-th of n equally spaced stations of [0, 1]. *)
Definition station (n i : nat) : R := INR i / INR (n - 1).

(** Surface points at index i. *)
Definition up_i (p : profile) (i : nat) : pt := (nth i (xup p) 0, nth i (yup p) 0).
Definition down_i (p : profile) (i : nat) : pt := (nth i (xdown p) 0, nth i (ydown p) 0).
Definition mid_i (p : profile) (i : nat) : pt := pscale (1/2) (padd (up_i p i) (down_i p i)).

(** n points on either surface. *)
Definition sized (n : nat) (p : profile) : Prop :=
  List.length (xup p) = n /\ List.length (yup p) = n /\ List.length (xdown p) = n /\ List.length (ydown p) = n.
(** Both surfaces run from (0, 0) to (1, 0). *)
Definition closed_unit (n : nat) (p : profile) : Prop :=
  up_i p 0 = (0, 0) /\ down_i p 0 = (0, 0) /\ up_i p (n - 1) = (1, 0) /\ down_i p (n - 1) = (1, 0).

(** The textbook camber line of a 4-digit foil: two parabolas. *)
Definition camber_line4 (m p x : R) : R :=
  if Rle_dec x p then m * (1 - ((p - x) / p) ^ 2) else m * (1 - ((x - p) / (1 - p)) ^ 2).
(** The textbook camber line of a standard 5-digit foil with junction m. *)
Definition camber_line5 (k1 m x : R) : R :=
  if Rle_dec x m then k1 / 6 * (x ^ 3 - 3 * m * x ^ 2 + m ^ 2 * (3 - m) * x)
  else k1 / 6 * (m ^ 3 * (1 - x)).
