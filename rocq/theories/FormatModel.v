(** Model of the number format ["%.8e" % x] (blade.py 1006-1061). *)
From Coq Require Import Reals List ZArith Ascii String.
From Verif Require Import Base TextModel.
Import ListNotations.
Open Scope R_scope.

(** Rounding to the nearest integer, ties to even: the digits printed by C's
    and Python's ["%.8e"] are those of the exact value, correctly rounded
    (blade.py 1006). *)
Definition round_half_even (x : R) : Z :=
  let n := Int_part x in
  let f := x - IZR n in
  if Rlt_dec f (1 / 2) then n else
  if Rlt_dec (1 / 2) f then (n + 1)%Z else
  if Z.even n then n else (n + 1)%Z.

(** Nine significant decimal digits and the decimal exponent of a positive
    number; a mantissa rounded up to 10^9 is renormalised (blade.py 1006). *)
Definition sci_parts (a : R) : Z * Z :=
  let e := Int_part (ln a / ln 10) in
  let m := round_half_even (a * powerRZ 10 (8 - e)) in
  if (m =? 1000000000)%Z then (100000000%Z, (e + 1)%Z) else (m, e).

(** d.dddddddd *)
Definition mantissa (m : Z) : str :=
  match show_nat m with
  | d :: ds => d :: "."%char :: ds
  | [] => []
  end.
(** Sign and at least two digits. *)
Definition exponent (e : Z) : str :=
  (if (e <? 0)%Z then "-"%char else "+"%char) ::
  match show_nat (Z.abs e) with
  | [d] => ["0"%char; d]
  | ds => ds
  end.

(** ["%.8e" % x] (blade.py 1006-1061).  Simplification: exact reals, so that
    there is no -0.0, inf or nan. *)
Definition sci (x : R) : str :=
  if Req_EM_T x 0 then L "0.00000000e+00" else
  let '(m, e) := sci_parts (Rabs x) in
  (if Rlt_dec x 0 then ["-"%char] else []) ++ mantissa m ++ "e"%char :: exponent e.
