(** Coordinate checks, thickness and camber of a profile in binary64
    arithmetic (profile/customprofile.py 242-268, profile/baseprofile.py
    319-413, 447-457, 582-598), rounding to nearest even. *)
From Coq Require Import Reals ZArith List Bool.
From Flocq Require Import Core BinarySingleNaN.
From Verif Require Import Base PpgFloatModel FloatModel CustomModel.
Import ListNotations.

(** The literals 1e-6 and 100., and numpy's default rtol 1e-5
    (customprofile.py 258, baseprofile.py 391). *)
Definition atol64 : b64 := @B754_finite 53 1024 false 4722366482869645 (-72) eq_refl.
Definition rtol64 : b64 := @B754_finite 53 1024 false 5902958103587057 (-69) eq_refl.
Definition hundred64 : b64 := @B754_finite 53 1024 false 7036874417766400 (-46) eq_refl.
Definition one64 : b64 := @B754_finite 53 1024 false 4503599627370496 (-52) eq_refl.

(** [np.isclose(a, b, atol=1e-6)] (customprofile.py 257-268): numbers are
    compared up to the tolerance, infinities and NaN by [==]. *)
Definition isclose64 (a b : b64) : bool :=
  if @is_finite 53 1024 a && @is_finite 53 1024 b
  then Bleb (fabs64 (fsub a b)) (fadd atol64 (fmul rtol64 (fabs64 b)))
  else Beqb a b.

(** [np.greater_equal] with broadcasting of one-element arrays
    (customprofile.py 253-255); false on NaN. *)
Definition greater_equal64 (a b : list b64) : res (list bool) :=
  match a, b with
  | [x], _ => Ok (map (fun y => Bleb y x) b)
  | _, [y] => Ok (map (fun x => Bleb y x) a)
  | _, _ => vzip (fun x y => Bleb y x) a b
  end.

(** customprofile.py 242-268, after the None checks and conversions. *)
Definition check_coordinates64 (p : fprofile) : res unit :=
  if negb (Nat.eqb (List.length (fxup p)) (List.length (fyup p))) then Err ValueError else
  if negb (Nat.eqb (List.length (fxdown p)) (List.length (fydown p))) then Err ValueError else
  let* ge := greater_equal64 (interior (fyup p)) (interior (fydown p)) in
  if negb (forallb (fun b => b) ge) then Err ValueError else
  let* xd0 := first (fxdown p) in let* xu0 := first (fxup p) in
  if negb (isclose64 xd0 xu0) then Err ValueError else
  let* xdn := final (fxdown p) in let* xun := final (fxup p) in
  if negb (isclose64 xdn xun) then Err ValueError else
  let* yd0 := first (fydown p) in let* yu0 := first (fyup p) in
  if negb (isclose64 yd0 yu0) then Err ValueError else
  let* ydn := final (fydown p) in let* yun := final (fyup p) in
  if negb (isclose64 ydn yun) then Err ValueError else Ok tt.

(** [(xup == xdown).all()] (baseprofile.py 339, 394, 582).  The calls below are
    modelled without number of interpolated points and, since the interpolation
    is left out, for surfaces that pass this test. *)
Definition same_abscissae64 (p : fprofile) : res unit :=
  let* eq := vzip (fun a b : b64 => Beqb a b) (fxup p) (fxdown p) in
  if forallb (fun b => b) eq then Ok tt else Err Unmodelled.

(** [a.max()] (baseprofile.py 598): a NaN anywhere is the result. *)
Definition maximum64 (a b : b64) : b64 := if Bleb b a || @is_nan 53 1024 a then a else b.
Definition vmax64 (l : list b64) : res b64 :=
  match l with
  | [] => Err ValueError
  | x :: l' => Ok (fold_left maximum64 l' x)
  end.

(** baseprofile.py 582-598 *)
Definition max_thickness64 (p : fprofile) : res b64 :=
  let* _ := same_abscissae64 p in
  let* t := vzip (fun a b => fabs64 (fsub a b)) (fyup p) (fydown p) in
  vmax64 t.

(** baseprofile.py 447-457 *)
Definition set_thickness_max64 (thickness_max : b64) (p : fprofile) : res fprofile :=
  let* old := max_thickness64 p in
  let ratio := if Beqb old zero64 then zero64 else fdiv64 thickness_max old in
  Ok (mkF (fxup p) (fxdown p) (map (fun y => fmul y ratio) (fyup p)) (map (fun y => fmul y ratio) (fydown p))).

(** baseprofile.py 319-356 *)
Definition compute_camber_line64 (p : fprofile) : res (list b64 * list b64) :=
  let* _ := same_abscissae64 p in
  let* ys := vzip (fun a b => fmul half64 (fadd a b)) (fydown p) (fyup p) in
  if Nat.eqb (List.length (fxup p)) (List.length ys) then Ok (fxup p, ys) else Err ValueError.

(** baseprofile.py 388-413 *)
Definition deform_camber_line64 (percent : b64) (p : fprofile) : res fprofile :=
  let* cl := compute_camber_line64 p in
  let scaling := fadd (fdiv64 percent hundred64) one64 in
  let cy := map (fun c => fmul c scaling) (snd cl) in
  let* half := vzip (fun a b => fmul half64 (fabs64 (fsub a b))) (fyup p) (fydown p) in
  let* yu := vzip fadd cy half in
  let* yd := vzip fsub cy half in
  Ok (mkF (fxup p) (fxdown p) yu yd).
