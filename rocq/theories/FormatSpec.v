(** Reading back a number in scientific notation, and words of a line. *)
From Coq Require Import Reals List ZArith Ascii String.
From Verif Require Import Base TextModel.
Import ListNotations.
Open Scope R_scope.

(** What stands before and after the first [c]. *)
Fixpoint cut (c : ascii) (s : str) : option (str * str) :=
  match s with
  | [] => None
  | a :: t => if ascii_dec a c then Some ([], t) else
              match cut c t with Some (u, v) => Some (a :: u, v) | None => None end
  end.
Definition read_exponent (s : str) : option Z :=
  match s with
  | "-"%char :: t => option_map Z.opp (parse_digits 0 false t)
  | "+"%char :: t => parse_digits 0 false t
  | _ => None
  end.
(** ddd.ddde+dd *)
Definition read_unsigned (s : str) : option R :=
  match cut "e"%char s with
  | None => None
  | Some (mant, ex) =>
      match cut "."%char mant with
      | None => None
      | Some (ip, fp) =>
          match parse_digits 0 false (ip ++ fp), read_exponent ex with
          | Some m, Some e => Some (IZR m * powerRZ 10 (e - Z.of_nat (List.length fp)))
          | _, _ => None
          end
      end
  end.
Definition read_number (s : str) : option R :=
  match s with
  | "-"%char :: t => option_map Ropp (read_unsigned t)
  | _ => read_unsigned s
  end.

(** [s.split()]; [acc] is the word being read, reversed. *)
Fixpoint words_from (acc : str) (s : str) : list str :=
  match s with
  | [] => match acc with [] => [] | _ => [rev acc] end
  | a :: t =>
      if is_ws a then match acc with [] => words_from [] t | _ => rev acc :: words_from [] t end
      else words_from (a :: acc) t
  end.
Definition words (s : str) : list str := words_from [] s.

(** [v] is [x] to nine significant digits. *)
Definition nine_digits (x v : R) : Prop := Rabs (v - x) <= 5 / 1000000000 * Rabs x.
