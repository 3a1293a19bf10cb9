(** Text of binary64 numbers: [str(x)] of a numpy float (params.py 230, 240, 266)
    and [float(s)] (params.py 149, 164, 199), and the default radii
    (params.py 136).

    [str] prints the shortest decimal numeral that is read back as the same
    number, the closest one if there are several; [float] rounds to nearest,
    ties to even.  Both are computed here with integers, not assumed. *)
From Coq Require Import List ZArith Ascii String Bool.
From Flocq Require Import Core Div BinarySingleNaN.
From Verif Require Import Base TextModel FormatModel ParamsModel PpgFloatModel FloatModel.
Import ListNotations.
Open Scope Z_scope.

(** ** float(s) *)
Definition exp64 : Z -> Z := SpecFloat.fexp 53 1024.
(** A number from sign, mantissa and exponent; the test never fails
    (ReprProofs.v). *)
Definition to_b64 (z : SpecFloat.spec_float) : b64 :=
  match bool_dec (SpecFloat.valid_binary 53 1024 z) true with
  | left H => SF2B z H
  | right _ => B754_nan
  end.
(** The binary64 number nearest to m * 10^q, ties to even, with sign [s]
    (params.py 149). *)
Definition of_decimal (s : bool) (m q : Z) : b64 :=
  if m =? 0 then B754_zero s else
  let '(d, e, l) := Fdiv exp64 (Float radix2 (m * 10 ^ Z.max q 0) 0) (Float radix2 (10 ^ Z.max (- q) 0) 0) in
  to_b64 (binary_round_aux 53 1024 mode_NE s d e l).

Definition is_digit (a : ascii) : bool := match digit_value a with Some _ => true | None => false end.
(** Underscores are removed; each must stand between two digits (params.py 149). *)
Fixpoint drop_underscores (after_digit : bool) (s : str) : option str :=
  match s with
  | [] => Some []
  | a :: t =>
      if Ascii.eqb a "_" then
        match t with
        | b :: _ => if (after_digit && is_digit b)%bool then drop_underscores false t else None
        | [] => None
        end
      else option_map (cons a) (drop_underscores (is_digit a) t)
  end.
(** Leading digits: their value after [acc], how many, and the rest (params.py 149). *)
Fixpoint take_digits (acc n : Z) (s : str) : Z * Z * str :=
  match s with
  | a :: t =>
      match digit_value a with
      | Some d => take_digits (10 * acc + d) (n + 1) t
      | None => (acc, n, s)
      end
  | [] => (acc, n, [])
  end.
(** Sign and digits after the letter e (params.py 149). *)
Definition parse_exponent (s : str) : option Z :=
  let '(neg, t) := match s with
                   | "-"%char :: t => (true, t)
                   | "+"%char :: t => (false, t)
                   | _ => (false, s)
                   end in
  match take_digits 0 0 t with
  | (k, n, []) => if n =? 0 then None else Some (if neg : bool then - k else k)
  | _ => None
  end.
(** Digits, optionally a point and digits, optionally an exponent: mantissa and
    decimal exponent (params.py 149). *)
Definition parse_decimal (s : str) : option (Z * Z) :=
  let '(m1, n1, r1) := take_digits 0 0 s in
  let '(m2, n2, r2) := match r1 with
                       | "."%char :: t => take_digits m1 0 t
                       | _ => (m1, 0, r1)
                       end in
  if (n1 + n2 =? 0) then None else
  match r2 with
  | [] => Some (m2, - n2)
  | c :: t =>
      if (Ascii.eqb c "e" || Ascii.eqb c "E")%bool then
        match parse_exponent t with Some k => Some (m2, k - n2) | None => None end
      else None
  end.
(** [float(s)] (params.py 149, 164, 199); None: ValueError. *)
Definition float_of_text (s : str) : option b64 :=
  match drop_underscores false (strip s) with
  | None => None
  | Some t =>
      let '(neg, u) := match t with
                       | "-"%char :: u => (true, u)
                       | "+"%char :: u => (false, u)
                       | _ => (false, t)
                       end in
      if (eqb_str (lower u) (L "inf") || eqb_str (lower u) (L "infinity"))%bool then Some (B754_infinity neg)
      else if eqb_str (lower u) (L "nan") then Some B754_nan
      else option_map (fun mq => of_decimal neg (fst mq) (snd mq)) (parse_decimal u)
  end.

(** ** str(x) *)
Definition radix10 : radix := Build_radix 10 eq_refl.
(** m * 2^e as an integer times a power of ten (params.py 230). *)
Definition exact_decimal (m : positive) (e : Z) : Z * Z :=
  if 0 <=? e then (Zpos m * 2 ^ e, 0) else (Zpos m * 5 ^ (- e), e).
(** Is d * 10^q read as [a]? (params.py 230). *)
Definition reads_as (a : b64) (d q : Z) : bool := Beqb (of_decimal false d q) a.
(** The [n]-digit numeral for [a] = N * 10^q: of the two next to [a] the one that is
    read back, or the closer one (params.py 230). *)
Definition candidate (a : b64) (N q n : Z) : option (Z * Z) :=
  let k := Zdigits radix10 N - n in
  if k <=? 0 then Some (N, q) else
  let p := 10 ^ k in
  let d := N / p in
  let r := N mod p in
  match reads_as a d (q + k), reads_as a (d + 1) (q + k) with
  | true, true => Some (if 2 * r <? p then d else if p <? 2 * r then d + 1 else if Z.even d then d else d + 1, q + k)
  | true, false => Some (d, q + k)
  | false, true => Some (d + 1, q + k)
  | false, false => None
  end.
(** The first number of digits for which there is one; at most 17 are tried
    (params.py 230). *)
Fixpoint search (a : b64) (N q n : Z) (fuel : nat) : Z * Z :=
  match fuel with
  | O => (N, q)
  | S f => match candidate a N q n with
           | Some mq => mq
           | None => search a N q (n + 1) f
           end
  end.
(** Without zeros at the end (params.py 230). *)
Fixpoint strip_zeros (fuel : nat) (m q : Z) : Z * Z :=
  match fuel with
  | O => (m, q)
  | S f => if m mod 10 =? 0 then strip_zeros f (m / 10) (q + 1) else (m, q)
  end.
Definition shortest (m : positive) (e : Z) (H : SpecFloat.bounded 53 1024 m e = true) : Z * Z :=
  let '(N, q) := exact_decimal m e in
  let '(d, k) := search (B754_finite false m e H) N q 1 17 in
  strip_zeros (Z.to_nat (Zdigits radix10 d)) d k.
(** Layout of m * 10^q: with a point for 1e-4 <= x < 1e16, else with an exponent
    (params.py 230). *)
Definition layout (m q : Z) : str :=
  let ds := show_nat m in
  let n := Z.of_nat (List.length ds) in
  let point := n + q in
  if ((-4 <? point) && (point <=? 16))%bool then
    if point <=? 0 then L "0." ++ repeat "0"%char (Z.to_nat (- point)) ++ ds
    else if n <=? point then ds ++ repeat "0"%char (Z.to_nat (point - n)) ++ L ".0"
    else firstn (Z.to_nat point) ds ++ "."%char :: skipn (Z.to_nat point) ds
  else
    match ds with
    | [] => []
    | d :: rest => d :: match rest with [] => [] | _ => "."%char :: rest end ++ "e"%char :: exponent (point - 1)
    end.
Definition sign_text (s : bool) : str := if s then ["-"%char] else [].
(** [str(x)] (params.py 230, 240, 266). *)
Definition float_repr (x : b64) : str :=
  match x with
  | B754_zero s => sign_text s ++ L "0.0"
  | B754_infinity s => sign_text s ++ L "inf"
  | B754_nan => L "nan"
  | B754_finite s m e H => let '(d, q) := shortest m e H in sign_text s ++ layout d q
  end.

(** ** The default radii *)
(** An integer as a float (params.py 136). *)
Definition int64 (n : Z) : b64 := binary_normalize 53 1024 prec64 emax64 mode_NE n 0 false.
(** [np.arange(start, stop, step)]: ceil((stop - start) / step) elements: start,
    start + step, and start + i * delta where delta is the difference of those two
    (params.py 136).  Simplification: an empty array where numpy refuses (a step of
    0, NaN). *)
Definition ceiling (x : b64) : Z :=
  match x with
  | B754_finite s m e _ =>
      let v := if s then Zneg m else Zpos m in
      if 0 <=? e then v * 2 ^ e else - (- v / 2 ^ (- e))
  | _ => 0
  end.
Definition arange (start stop step : b64) : list b64 :=
  let next := fadd start step in
  let delta := fsub next start in
  map (fun i => match i with
                | O => start
                | S O => next
                | _ => fadd start (fmul (int64 (Z.of_nat i)) delta)
                end)
    (seq 0 (Z.to_nat (ceiling (fdiv64 (fsub stop start) step)))).
(** The literals 0.3, 1.1, 0.1 (params.py 136). *)
Definition dec1 (n : Z) : b64 := of_decimal false n (-1).
(** Arrays of binary64 numbers (params.py 136-266). *)
Definition codec64 : codec b64 := Build_codec b64 float_repr float_of_text zero64 (arange (dec1 3) (dec1 11) (dec1 1)).
