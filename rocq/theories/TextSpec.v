(** Vocabulary of the statements about the grammar of parameter files. *)
From Coq Require Import String List ZArith Ascii Bool.
From Verif Require Import TextModel.
Import ListNotations.

(** White space: tab, line feed, vertical tab, form feed, carriage return, the four
    ASCII separators and blank. *)
Definition blank (a : ascii) : Prop :=
  In a ["009"; "010"; "011"; "012"; "013"; "028"; "029"; "030"; "031"; " "]%char%list.
Definition white (s : list ascii) : Prop := Forall blank s.
(** A line holds no line end. *)
Definition one_line (l : list ascii) : Prop := ~ In nl l /\ ~ In "013"%char l.

(** ** Integers *)
Definition digit (a : ascii) : Prop := 48 <= nat_of_ascii a <= 57.
(** The number written in base ten. *)
Definition decimal (s : list ascii) : Z :=
  fold_left (fun n a => 10 * n + (Z.of_nat (nat_of_ascii a) - 48))%Z s 0%Z.
(** Groups of digits separated by single underscores. *)
Fixpoint grouped (gs : list (list ascii)) : list ascii :=
  match gs with
  | [] => []
  | [g] => g
  | g :: gs' => g ++ "_"%char :: grouped gs'
  end.
(** White space, an optional sign, groups of digits, white space. *)
Definition integer_text (s : list ascii) (n : Z) : Prop :=
  exists l sign gs r, s = l ++ sign ++ grouped gs ++ r /\ white l /\ white r /\
    gs <> [] /\ Forall (fun g => g <> [] /\ Forall digit g) gs /\
    ((sign = [] \/ sign = ["+"%char]) /\ n = decimal (List.concat gs) \/
     sign = ["-"%char] /\ n = (- decimal (List.concat gs))%Z).

(** ** Lines *)
(** The same letter, the case left aside. *)
Definition same_letter (a b : ascii) : Prop :=
  a = b \/ exists i, i < 26 /\ (a = ascii_of_nat (65 + i) /\ b = ascii_of_nat (97 + i) \/
                                b = ascii_of_nat (65 + i) /\ a = ascii_of_nat (97 + i)).
(** A line that starts an option: its first character is in the first column
    and is neither "#", ";", nor "["; [n] is what comes before the first "=" or
    ":", [v] what comes after it. *)
Definition option_line (l n v : list ascii) : Prop :=
  exists d, l = n ++ d :: v /\ (d = "="%char \/ d = ":"%char) /\ ~ In "="%char n /\ ~ In ":"%char n /\
    (exists a t, n = a :: t /\ ~ blank a /\ a <> "#"%char /\ a <> ";"%char /\ a <> "["%char).
(** Equal but for the case of the letters and white space at the end. *)
Definition same_name (n m : list ascii) : Prop :=
  exists n' m' s t, n = n' ++ s /\ m = m' ++ t /\ white s /\ white t /\ Forall2 same_letter n' m'.
(** Equal but for white space around them. *)
Definition same_value (v w : list ascii) : Prop :=
  exists x l r l' r', v = l ++ x ++ r /\ w = l' ++ x ++ r' /\ white l /\ white r /\ white l' /\ white r'.
(** The header of a section. *)
Definition header_line (h : list ascii) : list ascii := "["%char :: h ++ ["]"%char].
(** The first character of the line that is not white space is "[". *)
Definition bracket_line (l : list ascii) : Prop := exists sp t, l = sp ++ "["%char :: t /\ white sp.
(** A line without any meaning: in the first column, not a comment, no "=" or
    ":", and "[]" or not of the form of a header. *)
Definition junk_line (l : list ascii) : Prop :=
  (exists a t, l = a :: t /\ ~ blank a /\ a <> "#"%char /\ a <> ";"%char /\
     (a <> "["%char \/ ~ In "]"%char t \/ t = ["]"%char])) /\ ~ In "="%char l /\ ~ In ":"%char l.
