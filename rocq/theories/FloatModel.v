(** The rigid motions of a profile in binary64 arithmetic, rounding to nearest
    even, as numpy performs them on float64 arrays (profile/baseprofile.py
    188-217, 491-504, 640-760).  NaN payloads are not distinguished. *)
From Coq Require Import Reals ZArith List Bool.
From Flocq Require Import Core BinarySingleNaN.
From Verif Require Import Base PpgFloatModel.
Import ListNotations.

Definition fadd : b64 -> b64 -> b64 := @Bplus 53 1024 prec64 emax64 mode_NE.
Definition fsub : b64 -> b64 -> b64 := @Bminus 53 1024 prec64 emax64 mode_NE.
Definition ffma : b64 -> b64 -> b64 -> b64 := @Bfma 53 1024 prec64 emax64 mode_NE.
Definition fneg : b64 -> b64 := @Bopp 53 1024.
Definition fabs64 : b64 -> b64 := @Babs 53 1024.
(** The literals -1, 0.5 and 1e-4 as converted by numpy. *)
Definition minus_one : b64 := @B754_finite 53 1024 true 4503599627370496 (-52) eq_refl.
Definition half64 : b64 := @B754_finite 53 1024 false 4503599627370496 (-53) eq_refl.
Definition tol64 : b64 := @B754_finite 53 1024 false 7378697629483821 (-66) eq_refl.
Definition zero64 : b64 := @B754_zero 53 1024 false.

(** baseprofile.py 21-30 *)
Record fprofile : Type := mkF { fxup : list b64; fxdown : list b64; fyup : list b64; fydown : list b64 }.

(** baseprofile.py 714-723 *)
Definition translate64 (v : b64 * b64) (p : fprofile) : fprofile :=
  mkF (map (fun x => fadd x (fst v)) (fxup p)) (map (fun x => fadd x (fst v)) (fxdown p))
      (map (fun y => fadd y (snd v)) (fyup p)) (map (fun y => fadd y (snd v)) (fydown p)).

(** baseprofile.py 750-753, 756-759 *)
Definition scale_coords64 (k : b64) (p : fprofile) : fprofile :=
  mkF (map (fun x => fmul x k) (fxup p)) (map (fun x => fmul x k) (fxdown p))
      (map (fun x => fmul x k) (fyup p)) (map (fun x => fmul x k) (fydown p)).

(** baseprofile.py 725-733 *)
Definition reflect64 (p : fprofile) : fprofile := scale_coords64 minus_one p.

(** baseprofile.py 188-217.  Comparisons with NaN are false. *)
Definition update_edges64 (p : fprofile) : res ((b64 * b64) * (b64 * b64)) :=
  let* xu0 := first (fxup p) in
  let* xd0 := first (fxdown p) in
  if Bltb tol64 (fabs64 (fsub xu0 xd0)) then Err ValueError else
  let* xun := final (fxup p) in
  let* xdn := final (fxdown p) in
  if Bltb tol64 (fabs64 (fsub xun xdn)) then Err ValueError else
  let* yu0 := first (fyup p) in
  let* yun := final (fyup p) in
  let* ydn := final (fydown p) in
  Ok ((xu0, yu0), (xun, if Beqb yun ydn then yun else fmul half64 (fadd yun ydn))).

(** baseprofile.py 491-504 *)
Definition reference_point64 (p : fprofile) : res (b64 * b64) :=
  let* e := update_edges64 p in
  Ok (fmul half64 (fadd (fst (fst e)) (fst (snd e))), fmul half64 (fadd (snd (fst e)) (snd (snd e)))).

(** baseprofile.py 735-760 *)
Definition scale64 (k : b64) (translate_ : bool) (p : fprofile) : res fprofile :=
  if translate_ then
    let* r := reference_point64 p in
    Ok (translate64 r (scale_coords64 k (translate64 (fneg (fst r), fneg (snd r)) p)))
  else Ok (scale_coords64 k p).

(** [np.dot] of a row with a column of two entries (baseprofile.py 704-707).
    The linear algebra library may fuse either product with the addition. *)
Inductive dot_order := Unfused | FuseFirst | FuseSecond.
Definition dot2 (o : dot_order) (a b x y : b64) : b64 :=
  match o with
  | Unfused => fadd (fmul a x) (fmul b y)
  | FuseFirst => ffma a x (fmul b y)
  | FuseSecond => ffma b y (fmul a x)
  end.

(** baseprofile.py 693-712 with [cosine] and [sine] as computed by numpy; the
    order used for output row [r] of point [i] of the upper or lower surface is
    arbitrary.  Surfaces of unequal length as in ProfileModel.rotate. *)
Definition dots (how : nat -> dot_order) (a b : b64) (xs ys : list b64) (n : nat) : list b64 :=
  map (fun i => dot2 (how i) a b (nth i xs zero64) (nth i ys zero64)) (seq 0 n).
Definition rotate64 (how : bool -> bool -> nat -> dot_order) (c s : b64) (p : fprofile) : res fprofile :=
  if negb (Nat.eqb (length (fxup p)) (length (fyup p))) then Err ValueError else
  if negb (Nat.eqb (length (fxdown p)) (length (fydown p))) then Err ValueError else
  let n := length (fxup p) in
  if Nat.ltb (length (fxdown p)) n then Err IndexError else
  let pad := repeat zero64 (length (fxdown p) - n) in
  Ok (mkF (dots (how true true) c (fneg s) (fxup p) (fyup p) n)
          (dots (how false true) c (fneg s) (fxdown p) (fydown p) n ++ pad)
          (dots (how true false) s c (fxup p) (fyup p) n)
          (dots (how false false) s c (fxdown p) (fydown p) n ++ pad)).
