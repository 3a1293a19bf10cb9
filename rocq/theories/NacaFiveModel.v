(** Five-digit NACA foils in binary64 arithmetic (profile/nacaprofile.py
    65-72, 90-102, 151-218), rounding to nearest even.  The digits are given as numbers. *)
From Coq Require Import Reals ZArith List Bool.
From Flocq Require Import Core BinarySingleNaN.
From Verif Require Import Base PpgFloatModel FloatModel ShapeFloatModel SectionFloatModel NacaFloatModel.
Import ListNotations.

(** scipy [splev(p, splrep(P, M))] and [splev(m, splrep(M, K))] for the tables of reflex
    and standard camber (nacaprofile.py 162-172, 185-188). *)
Record splines : Type := { junction64 : bool -> b64 -> b64; strength64 : bool -> b64 -> b64 }.

(** The literals 0.15, 0.3, 6.0 (also 6), 3 (nacaprofile.py 153, 191-203). *)
Definition c15_64 : b64 := @B754_finite 53 1024 false 5404319552844595 (-55) eq_refl.
Definition c30_64 : b64 := @B754_finite 53 1024 false 5404319552844595 (-54) eq_refl.
Definition six64 : b64 := @B754_finite 53 1024 false 6755399441055744 (-50) eq_refl.
Definition three64 : b64 := @B754_finite 53 1024 false 6755399441055744 (-51) eq_refl.

(** nacaprofile.py 191-193: camber ordinates before and behind the junction [m]. *)
Definition camber5_front64 (L : mathlib) (k m x : b64) : b64 :=
  fmul (fdiv64 k six64)
    (fadd (fsub (pow64 L x 3) (fmul (fmul three64 m) (pow64 L x 2))) (fmul (fmul (pow64 L m 2) (fsub three64 m)) x)).
Definition camber5_rear64 (L : mathlib) (k m x : b64) : b64 :=
  fmul (fmul (fdiv64 k six64) (pow64 L m 3)) (fsub one64 x).
(** nacaprofile.py 200-204: the slopes. *)
Definition slope5_front64 (L : mathlib) (k m x : b64) : b64 :=
  fmul (fmul (fdiv64 one64 six64) k)
    (fadd (fsub (fmul three64 (pow64 L x 2)) (fmul (fmul six64 m) x)) (fmul (pow64 L m 2) (fsub three64 m))).
Definition slope5_rear64 (L : mathlib) (k m x : b64) : b64 :=
  fmul (fmul (fdiv64 (fneg one64) six64) k) (pow64 L m 3).

(** nacaprofile.py 102, 151-218; [cld], [p], [s], [t] are the parsed digits. *)
Definition naca5_64 (L : mathlib) (S : splines) (cld p s t : b64) (cosine : bool) (n : nat) : res fprofile :=
  let x := linspace64 n in
  let yt := map (half_thickness64 L t) x in
  let* reflex := if Beqb s one64 then Ok true else if Beqb s zero64 then Ok false else Err ValueError in
  if Beqb p zero64 then Ok (mkF x x yt (map fneg yt)) else
  let m := junction64 S reflex p in
  let k := strength64 S reflex m in
  let xc1 := filter (fun a => Bleb a m) x in
  let xc2 := filter (fun a => Bltb m a) x in
  let yc := map (camber5_front64 L k m) xc1 ++ map (camber5_rear64 L k m) xc2 in
  if cosine then
    let zc := map (fmul (fdiv64 cld c30_64)) yc in
    let theta := map (atan64 L) (map (slope5_front64 L k m) xc1 ++ map (slope5_rear64 L k m) xc2) in
    let* s := vzip (fun y a => fmul y (sin64 L a)) yt theta in
    let* c := vzip (fun y a => fmul y (cos64 L a)) yt theta in
    let* xu := vzip fsub x s in
    let* yu := vzip fadd zc c in
    let* xd := vzip fadd x s in
    let* yd := vzip fsub zc c in
    Ok (mkF xu xd yu yd)
  else
    let* yu := vzip fadd yc yt in
    let* yd := vzip fsub yc yt in
    Ok (mkF x x yu yd).

(** nacaprofile.py 151-156: the foil of the code [a b s c d]. *)
Definition naca_foil5_64 (L : mathlib) (S : splines) (a b s c d : nat) (cosine : bool) (n : nat) : res fprofile :=
  naca5_64 L S (fmul (of_int (Z.of_nat a)) c15_64) (fdiv64 (fmul five64 (of_int (Z.of_nat b))) hundred64)
    (of_int (Z.of_nat s)) (fdiv64 (of_int (Z.of_nat (10 * c + d))) hundred64) cosine n.

(** nacaprofile.py 65-72: coordinates, then British parameters. *)
Definition naca_profile5_64 (L : mathlib) (S : splines) (o : dot_order) (a b s c d : nat) (cosine : bool) (n : nat) : res (fprofile * fparams) :=
  let* p := naca_foil5_64 L S a b s c d cosine n in
  let* q := parameters_british64 o p in
  Ok (p, q).
