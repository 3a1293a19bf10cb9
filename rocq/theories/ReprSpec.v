(** Vocabulary of the statements on number texts. *)
From Coq Require Import Reals List ZArith Ascii.
From Flocq Require Import Core BinarySingleNaN.
From Verif Require Import TextSpec PpgFloatModel ReprModel.
Import ListNotations.
Open Scope R_scope.

(** The number m * 10^q. *)
Definition dec (m q : Z) : R := IZR m * powerRZ 10 q.
(** The binary64 grid without an upper bound, to nearest, ties to even. *)
Definition round64 (r : R) : R := round radix2 (FLT_exp (-1074) 53) ZnearestE r.
(** [y] is m * 10^q with sign [neg], rounded; infinity when that is 2^1024 or more. *)
Definition rounded (neg : bool) (m q : Z) (y : b64) : Prop :=
  let r := round64 (dec m q) in
  (r < IZR (2 ^ 1024) -> is_finite y = true /\ Bsign y = neg /\ B2R y = if neg then - r else r) /\
  (IZR (2 ^ 1024) <= r -> y = B754_infinity neg).

(** The number of digits of an integer without leading zeros. *)
Definition digits10 (m : Z) : Z := Zdigits radix10 m.

(** The second text is the first one without its underscores, each of which
    stands between two digits. *)
Inductive ungrouped : list ascii -> list ascii -> Prop :=
| ug_nil : ungrouped [] []
| ug_keep : forall a s t, a <> "_"%char -> ungrouped s t -> ungrouped (a :: s) (a :: t)
| ug_drop : forall a b s t, digit a -> digit b -> ungrouped (b :: s) t -> ungrouped (a :: "_"%char :: b :: s) (a :: t).
(** A sign that may be left out. *)
Definition sign_of (sg : list ascii) (neg : bool) : Prop :=
  if neg then sg = ["-"%char] else sg = [] \/ sg = ["+"%char].
Definition exponent_of (ex : list ascii) (k : Z) : Prop :=
  ex = [] /\ k = 0%Z \/
  exists c sg neg w, ex = c :: sg ++ w /\ (c = "e"%char \/ c = "E"%char) /\ sign_of sg neg /\
    w <> [] /\ Forall digit w /\ k = (if neg then - decimal w else decimal w)%Z.
(** [t] is a numeral without sign for m * 10^q: digits with at most one point among
    them, then an optional exponent. *)
Definition numeral (t : list ascii) (m q : Z) : Prop :=
  exists u fr v ex k, t = u ++ fr ++ ex /\ Forall digit u /\ Forall digit v /\ u ++ v <> [] /\
    (fr = [] /\ v = [] \/ fr = "."%char :: v) /\ exponent_of ex k /\
    m = decimal (u ++ v) /\ q = (k - Z.of_nat (length v))%Z.
Definition any_case (w v : list ascii) : Prop := Forall2 same_letter w v.
(** What the text [w], without sign, stands for. *)
Definition stands_for (neg : bool) (w : list ascii) (y : b64) : Prop :=
  (any_case w ["i"; "n"; "f"]%char \/ any_case w ["i"; "n"; "f"; "i"; "n"; "i"; "t"; "y"]%char) /\ y = B754_infinity neg \/
  any_case w ["n"; "a"; "n"]%char /\ y = B754_nan \/
  exists m q, numeral w m q /\ rounded neg m q y.
(** The texts of numbers. *)
Definition number_text (s : list ascii) (y : b64) : Prop :=
  exists l t r sg neg w, s = l ++ t ++ r /\ white l /\ white r /\ ungrouped t (sg ++ w) /\ sign_of sg neg /\ stands_for neg w y.

(** ** The layout of printed numbers *)
(** Digits, a point, digits; no needless zero at either end. *)
Definition fixed_form (w : list ascii) : Prop :=
  exists u v, w = u ++ "."%char :: v /\ Forall digit u /\ Forall digit v /\ u <> [] /\ v <> [] /\
    (hd_error u = Some "0"%char -> u = ["0"%char]) /\ (forall v', v = v' ++ ["0"%char] -> v' = []).
(** A digit other than 0, more digits after a point if there are more, the letter e, a
    sign, and at least two digits. *)
Definition exponent_form (w : list ascii) : Prop :=
  exists a v sg e, w = a :: (match v with [] => [] | _ => "."%char :: v end) ++ "e"%char :: sg :: e /\
    digit a /\ a <> "0"%char /\ Forall digit v /\ (forall v', v <> v' ++ ["0"%char]) /\
    (sg = "+"%char \/ sg = "-"%char) /\ Forall digit e /\ (2 <= length e)%nat /\
    (3 <= length e -> hd_error e <> Some "0"%char)%nat.
