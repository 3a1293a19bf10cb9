(** Four-digit NACA foils in binary64 arithmetic (profile/nacaprofile.py
    65-72, 90-149), rounding to nearest even.  The digits are given as numbers. *)
From Coq Require Import Reals ZArith List Bool.
From Flocq Require Import Core BinarySingleNaN.
From Verif Require Import Base PpgFloatModel FloatModel ShapeFloatModel SectionFloatModel.
Import ListNotations.

(** [np.power], [np.arctan], [np.sin], [np.cos] (nacaprofile.py 110-111, 125-126, 133-141).
    Simplification: functions of the number alone, not of its place in the array. *)
Record mathlib : Type := { pow64 : b64 -> Z -> b64; atan64 : b64 -> b64; sin64 : b64 -> b64; cos64 : b64 -> b64 }.

(** An integer as a float; exact up to 2^53 (nacaprofile.py 105-107). *)
Definition of_int (z : Z) : b64 := @binary_normalize 53 1024 prec64 emax64 mode_NE z 0 false.
(** The literals 10.0 and 5 (nacaprofile.py 106, 110). *)
Definition ten64 : b64 := @B754_finite 53 1024 false 5629499534213120 (-49) eq_refl.
Definition five64 : b64 := @B754_finite 53 1024 false 5629499534213120 (-50) eq_refl.
(** nacaprofile.py 96-100: the literals 0.2969, -0.1260, -0.3516, 0.2843, -0.1036. *)
Definition a0_64 : b64 := @B754_finite 53 1024 false 5348474917465201 (-54) eq_refl.
Definition a1_64 : b64 := @B754_finite 53 1024 true 4539628424389460 (-55) eq_refl.
Definition a2_64 : b64 := @B754_finite 53 1024 true 6333862515933866 (-54) eq_refl.
Definition a3_64 : b64 := @B754_finite 53 1024 false 5121493496245728 (-54) eq_refl.
Definition a4_64 : b64 := @B754_finite 53 1024 true 7465166742329334 (-56) eq_refl.

(** [np.linspace(0.0, 1.0, num=n)] (nacaprofile.py 102): the integers times the rounded
    step, plus the start; the last entry is overwritten by the stop. *)
Definition linspace64 (n : nat) : list b64 :=
  let step := if Nat.leb n 1 then one64 else fdiv64 one64 (of_int (Z.of_nat (n - 1))) in
  let ys := map (fun i => fadd (fmul (of_int (Z.of_nat i)) step) zero64) (seq 0 n) in
  if Nat.leb n 1 then ys else removelast ys ++ [one64].

(** nacaprofile.py 110-111 *)
Definition half_thickness64 (L : mathlib) (t x : b64) : b64 :=
  fmul (fmul five64 t)
    (fadd (fadd (fadd (fadd (fmul a0_64 (fsqrt x)) (fmul a1_64 x)) (fmul a2_64 (pow64 L x 2))) (fmul a3_64 (pow64 L x 3))) (fmul a4_64 (pow64 L x 4))).

(** nacaprofile.py 125-126: camber ordinates before and behind the junction. *)
Definition camber_front64 (L : mathlib) (m p x : b64) : b64 :=
  fmul (fmul (fdiv64 m (pow64 L p 2)) x) (fsub (fmul two64 p) x).
Definition camber_rear64 (L : mathlib) (m p x : b64) : b64 :=
  fmul (fmul (fdiv64 m (pow64 L (fsub one64 p) 2)) (fadd (fsub one64 (fmul two64 p)) x)) (fsub one64 x).
(** nacaprofile.py 133-134: the slopes. *)
Definition slope_front64 (L : mathlib) (m p x : b64) : b64 :=
  fmul (fdiv64 m (pow64 L p 2)) (fsub (fmul two64 p) (fmul two64 x)).
Definition slope_rear64 (L : mathlib) (m p x : b64) : b64 :=
  fmul (fdiv64 m (pow64 L (fsub one64 p) 2)) (fsub (fmul two64 p) (fmul two64 x)).

(** nacaprofile.py 102-149; [m], [p], [t] are the parsed digits. *)
Definition naca4_64 (L : mathlib) (m p t : b64) (cosine : bool) (n : nat) : res fprofile :=
  let x := linspace64 n in
  let yt := map (half_thickness64 L t) x in
  if Beqb p zero64 then Ok (mkF x x yt (map fneg yt)) else
  let xc1 := filter (fun a => Bleb a p) x in
  let xc2 := filter (fun a => Bltb p a) x in
  let yc := map (camber_front64 L m p) xc1 ++ map (camber_rear64 L m p) xc2 in
  if cosine then
    let theta := map (atan64 L) (map (slope_front64 L m p) xc1 ++ map (slope_rear64 L m p) xc2) in
    let* s := vzip (fun y a => fmul y (sin64 L a)) yt theta in
    let* c := vzip (fun y a => fmul y (cos64 L a)) yt theta in
    let* xu := vzip fsub x s in
    let* yu := vzip fadd yc c in
    let* xd := vzip fadd x s in
    let* yd := vzip fsub yc c in
    Ok (mkF xu xd yu yd)
  else
    let* yu := vzip fadd yc yt in
    let* yd := vzip fsub yc yt in
    Ok (mkF x x yu yd).

(** nacaprofile.py 104-107: the foil of the code [a b c d]. *)
Definition naca_foil64 (L : mathlib) (a b c d : nat) (cosine : bool) (n : nat) : res fprofile :=
  naca4_64 L (fdiv64 (of_int (Z.of_nat a)) hundred64) (fdiv64 (of_int (Z.of_nat b)) ten64)
    (fdiv64 (of_int (Z.of_nat (10 * c + d))) hundred64) cosine n.

(** nacaprofile.py 65-72: coordinates, then British parameters. *)
Definition naca_profile64 (L : mathlib) (o : dot_order) (a b c d : nat) (cosine : bool) (n : nat) : res (fprofile * fparams) :=
  let* p := naca_foil64 L a b c d cosine n in
  let* s := parameters_british64 o p in
  Ok (p, s).
