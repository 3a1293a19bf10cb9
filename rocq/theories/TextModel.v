(** Text primitives and the part of Python's configparser used by
    params.py 122-201.  Text is ASCII; a line end is the character 10. *)
From Coq Require Import List ZArith Ascii String Bool Arith.
From Verif Require Import Base.
Import ListNotations.
Open Scope nat_scope.

Notation str := (list ascii).
(** String literals of params.py. *)
Definition L (s : string) : str := list_ascii_of_string s.
Definition nl : ascii := "010"%char.

Definition eqb_str (a b : str) : bool := if list_eq_dec ascii_dec a b then true else false.

(** [str.isspace] on ASCII (used by strip, split, the regular expressions of
    configparser and float()). *)
Definition is_ws (a : ascii) : bool :=
  let n := nat_of_ascii a in (Nat.leb 9 n && Nat.leb n 13) || (Nat.leb 28 n && Nat.leb n 32).

(** [str.strip], [str.rstrip]. *)
Fixpoint lstrip (s : str) : str :=
  match s with
  | a :: t => if is_ws a then lstrip t else s
  | [] => []
  end.
Definition rstrip (s : str) : str := rev (lstrip (rev s)).
Definition strip (s : str) : str := rstrip (lstrip s).

(** [s.split('\n')] (params.py 142, 155, 188). *)
Fixpoint split_nl (s : str) : list str :=
  match s with
  | [] => [[]]
  | a :: t =>
      if ascii_dec a nl then [] :: split_nl t else
      match split_nl t with
      | w :: ws => (a :: w) :: ws
      | [] => [[a]]
      end
  end.
(** ['\n'.join(l)]. *)
Fixpoint join_nl (l : list str) : str :=
  match l with
  | [] => []
  | [w] => w
  | w :: ws => w ++ nl :: join_nl ws
  end.

(** [len(s.split())] (params.py 145, 159, 191); [inside]: within a word. *)
Fixpoint count_words (inside : bool) (s : str) : nat :=
  match s with
  | [] => 0
  | a :: t => if is_ws a then count_words false t
              else if inside then count_words true t else S (count_words true t)
  end.

(** Text-mode reading translates line ends (open() in configparser.read). *)
Fixpoint newlines (s : str) : str :=
  match s with
  | [] => []
  | "013"%char :: t =>
      match t with
      | "010"%char :: u => nl :: newlines u
      | _ => nl :: newlines t
      end
  | a :: t => a :: newlines t
  end.

(** Iteration over the lines of a file; no line follows the last line end. *)
Definition file_lines (s : str) : list str :=
  let l := split_nl (newlines s) in
  if eqb_str (last l []) [] then removelast l else l.

(** [str.lower] on ASCII (optionxform). *)
Definition lower1 (a : ascii) : ascii :=
  let n := nat_of_ascii a in
  if (Nat.leb 65 n && Nat.leb n 90)%bool then ascii_of_nat (n + 32) else a.
Definition lower (s : str) : str := map lower1 s.

(** ** Integers: [str(n)] (params.py 249-257) and [int(s)] (getint) *)
Definition digit_char (d : Z) : ascii := ascii_of_nat (48 + Z.to_nat d).
Fixpoint digits (fuel : nat) (n : Z) : str :=
  match fuel with
  | O => []
  | S f => if (n <? 10)%Z then [digit_char n] else digits f (n / 10)%Z ++ [digit_char (n mod 10)%Z]
  end.
Definition show_nat (n : Z) : str := digits (S (Z.to_nat (Z.log2 n))) n.
Definition show_int (n : Z) : str := if (n <? 0)%Z then "-"%char :: show_nat (- n) else show_nat n.

Definition digit_value (a : ascii) : option Z :=
  let n := nat_of_ascii a in
  if (Nat.leb 48 n && Nat.leb n 57)%bool then Some (Z.of_nat (n - 48)) else None.
(** Digits, single underscores allowed between two digits. *)
Fixpoint parse_digits (acc : Z) (after_digit : bool) (s : str) : option Z :=
  match s with
  | [] => if after_digit then Some acc else None
  | a :: t =>
      match digit_value a with
      | Some d => parse_digits (10 * acc + d)%Z true t
      | None => if (Ascii.eqb a "_" && after_digit)%bool then parse_digits acc false t else None
      end
  end.
Definition parse_int (s : str) : option Z :=
  match strip s with
  | "-"%char :: t => option_map Z.opp (parse_digits 0 false t)
  | "+"%char :: t => parse_digits 0 false t
  | t => parse_digits 0 false t
  end.

(** ** configparser.RawConfigParser (Python 3.11, [_read]) *)

(** One section: options in order, each with the list of its value's lines. *)
Notation section := (list (str * list str)).
Notation config := (list (str * section)).

Fixpoint lookup {A} (k : str) (l : list (str * A)) : option A :=
  match l with
  | [] => None
  | (k', v) :: l' => if list_eq_dec ascii_dec k k' then Some v else lookup k l'
  end.
Fixpoint replace_key {A} (k : str) (v : A) (l : list (str * A)) : list (str * A) :=
  match l with
  | [] => []
  | (k', v') :: l' => if list_eq_dec ascii_dec k k' then (k', v) :: l' else (k', v') :: replace_key k v l'
  end.
(** [cursect\[optname\].append(line)]. *)
Definition append_line (sect opt line : str) (c : config) : config :=
  match lookup sect c with
  | None => c
  | Some s =>
      match lookup opt s with
      | None => c
      | Some v => replace_key sect (replace_key opt (v ++ [line]) s) c
      end
  end.
Definition add_option (sect opt value : str) (c : config) : config :=
  match lookup sect c with
  | None => c
  | Some s => replace_key sect (s ++ [(opt, [value])]) c
  end.

(** Section header: "[", the longest non-empty name, "]"; anything may follow. *)
Fixpoint before_last_bracket (s : str) : option str :=
  match s with
  | [] => None
  | a :: t =>
      match before_last_bracket t with
      | Some h => Some (a :: h)
      | None => if Ascii.eqb a "]" then Some [] else None
      end
  end.
Definition header_of (value : str) : option str :=
  match value with
  | "["%char :: t =>
      match before_last_bracket t with
      | Some (a :: h) => Some (a :: h)
      | _ => None
      end
  | _ => None
  end.
(** Option line: the name ends at the first "=" or ":". *)
Definition is_delim (a : ascii) : bool := Ascii.eqb a "=" || Ascii.eqb a ":".
Fixpoint option_of (value : str) : option (str * str) :=
  match value with
  | [] => None
  | a :: t =>
      if is_delim a then Some ([], t) else
      match option_of t with
      | Some (n, v) => Some (a :: n, v)
      | None => None
      end
  end.

(** Parser state: current section, current option, its indentation, what has
    been read, and whether some line was malformed. *)
Record pstate := { p_sect : option str; p_opt : option str; p_indent : nat; p_conf : config; p_bad : bool }.
Definition indentation (line : str) : nat := List.length line - List.length (lstrip line).
Definition is_comment (line : str) : bool :=
  match lstrip line with a :: _ => (Ascii.eqb a "#" || Ascii.eqb a ";")%bool | [] => false end.
Definition default_section : str := L "DEFAULT".

(** A line that is neither empty, nor a comment, nor a continuation.  [value]
    is the stripped line. *)
Definition read_header (st : pstate) (indent : nat) (value : str) : res pstate :=
  match header_of value with
  | Some h =>
      match lookup h (p_conf st) with
      | Some _ =>
          if eqb_str h default_section then Ok (Build_pstate (Some h) None indent (p_conf st) (p_bad st))
          else Err ConfigError (* DuplicateSectionError *)
      | None => Ok (Build_pstate (Some h) None indent (p_conf st ++ [(h, [])]) (p_bad st))
      end
  | None =>
      match p_sect st with
      | None => Err ConfigError (* MissingSectionHeaderError *)
      | Some sect =>
          match option_of value with
          | None => Ok (Build_pstate (Some sect) (p_opt st) indent (p_conf st) true)
          | Some (n, v) =>
              let name := lower (rstrip n) in
              let s := match lookup sect (p_conf st) with Some s => s | None => [] end in
              match lookup name s with
              | Some _ => Err ConfigError (* DuplicateOptionError *)
              | None =>
                  Ok (Build_pstate (Some sect) (Some name) indent (add_option sect name (strip v) (p_conf st))
                    (p_bad st || match rstrip n with [] => true | _ => false end)%bool)
              end
          end
      end
  end.
Definition read_line (st : pstate) (line : str) : res pstate :=
  if is_comment line then Ok st else
  let value := strip line in
  match value, p_sect st, p_opt st with
  | [], Some sect, Some ((_ :: _) as opt) =>
      Ok (Build_pstate (p_sect st) (p_opt st) (p_indent st) (append_line sect opt [] (p_conf st)) (p_bad st))
  | [], _, _ => Ok st
  | _, Some sect, Some ((_ :: _) as opt) =>
      if Nat.ltb (p_indent st) (indentation line) then
        Ok (Build_pstate (p_sect st) (p_opt st) (p_indent st) (append_line sect opt value (p_conf st)) (p_bad st))
      else read_header st (indentation line) value
  | _, _, _ => read_header st (indentation line) value
  end.
Fixpoint read_lines (st : pstate) (ls : list str) : res pstate :=
  match ls with
  | [] => Ok st
  | l :: ls' => let* st' := read_line st l in read_lines st' ls'
  end.
(** [config.read(filename)] on a fresh parser; ParsingError comes at the end. *)
Definition parse_config (text : str) : res config :=
  let* st := read_lines (Build_pstate None None 0 [] false) (file_lines text) in
  if p_bad st then Err ConfigError else Ok (p_conf st).
(** [config.get(section, option)]: NoSectionError / NoOptionError, with the
    default section as a fallback; the lines are joined and stripped on the
    right ([_join_multiline_values]). *)
Definition get (c : config) (sect opt : str) : res str :=
  match lookup sect c with
  | None => Err ConfigError
  | Some s =>
      match lookup (lower opt) s with
      | Some v => Ok (rstrip (join_nl v))
      | None =>
          match lookup default_section c with
          | None => Err ConfigError
          | Some d =>
              match lookup (lower opt) d with
              | Some v => Ok (rstrip (join_nl v))
              | None => Err ConfigError
              end
          end
      end
  end.
(** [config.getint(section, option)]. *)
Definition getint (c : config) (sect opt : str) : res Z :=
  let* s := get c sect opt in
  match parse_int s with Some n => Ok n | None => Err ValueError end.
