(** Model of profile/nacaprofile.py (class NacaProfile). *)
From Coq Require Import Reals List ZArith String Ascii.
From Verif Require Import Base ProfileModel.
Import ListNotations.
Open Scope R_scope.

(** Argument values distinguished by nacaprofile.py 79-86: [digits] is a
    string or not; [n_points] is an int, a (finite) float, or something else.
    Simplification: strings are ASCII. *)
Inductive digits_arg : Type := DStr (s : string) | DOther.
Inductive npoints_arg : Type := NInt (z : Z) | NFloat (x : R) | NOther.

(** [int(x)] for a finite float: truncation towards zero (nacaprofile.py 82). *)
Definition py_int (x : R) : Z :=
  if Rlt_dec x 0 then (- Int_part (- x))%Z else Int_part x.

(** Characters accepted by [float]. *)
Definition digit_of (c : ascii) : option R :=
  let n := nat_of_ascii c in
  if (Nat.leb 48 n && Nat.leb n 57)%bool then Some (INR (n - 48)) else None.
Definition is_space (c : ascii) : bool :=
  let n := nat_of_ascii c in
  ((Nat.leb 9 n && Nat.leb n 13) || (Nat.leb 28 n && Nat.leb n 32))%bool.
Definition is_char (k : nat) (c : ascii) : bool := Nat.eqb (nat_of_ascii c) k.

(** [float(s)] for a string of one character (nacaprofile.py 105, 106,
    152-154). *)
Definition float1 (c : ascii) : res R :=
  match digit_of c with Some d => Ok d | None => Err ValueError end.
(** [float(s)] for a string of two characters (nacaprofile.py 107, 155):
    two digits, or one digit with a point, a sign or white space. *)
Definition float2 (a b : ascii) : res R :=
  match digit_of a, digit_of b with
  | Some x, Some y => Ok (10 * x + y)
  | Some x, None => if (is_char 46 b || is_space b)%bool then Ok x else Err ValueError
  | None, Some y =>
      if is_char 46 a then Ok (y / 10) else
      if (is_char 43 a || is_space a)%bool then Ok y else
      if is_char 45 a then Ok (- y) else Err ValueError
  | None, None => Err ValueError
  end.

(** nacaprofile.py 97-101 and 110-111, 158-159: half thickness. *)
Definition half_thickness (t x : R) : R :=
  5 * t * (0.2969 * sqrt x + -0.1260 * x + -0.3516 * x ^ 2 + 0.2843 * x ^ 3 + -0.1036 * x ^ 4).

(** nacaprofile.py 123-124, 187-188: the stations up to the junction and
    those beyond. *)
Definition upto (p : R) (x : list R) : list R := filter (fun a => if Rle_dec a p then true else false) x.
Definition beyond (p : R) (x : list R) : list R := filter (fun a => if Rlt_dec p a then true else false) x.

(** nacaprofile.py 113-119, 174-180: symmetric foil. *)
Definition symmetric_foil (xs yt : list R) : profile := mkProfile xs xs yt (map Ropp yt).

(** nacaprofile.py 137-141, 206-210 (cosine_spacing) and 144-149, 213-218
    (linear spacing): thickness laid on the camber ordinates [yc].
    Simplification: array operations on equal lengths. *)
Definition lay_normal (xs yt yc slope : list R) : res profile :=
  let th := map atan slope in
  let* ys := vzip (fun t a => t * sin a) yt th in
  let* yco := vzip (fun t a => t * cos a) yt th in
  let* xu := vzip Rminus xs ys in
  let* yu := vzip Rplus yc yco in
  let* xd := vzip Rplus xs ys in
  let* yd := vzip Rminus yc yco in
  Ok (mkProfile xu xd yu yd).
Definition lay_vertical (xs yt yc : list R) : res profile :=
  let* yu := vzip Rplus yc yt in
  let* yd := vzip Rminus yc yt in
  Ok (mkProfile xs xs yu yd).

(** nacaprofile.py 103-149; [m], [p], [t] are the parsed digits. *)
Definition naca4 (m p t : R) (cosine : bool) (n : nat) : res profile :=
  let x := linspace 0 1 n in
  let yt := map (half_thickness t) x in
  if Req_EM_T p 0 then Ok (symmetric_foil x yt) else
  let xc1 := upto p x in
  let xc2 := beyond p x in
  let yc := map (fun a => m / p ^ 2 * a * (2 * p - a)) xc1 ++
            map (fun a => m / (1 - p) ^ 2 * (1 - 2 * p + a) * (1 - a)) xc2 in
  if cosine then
    let slope := map (fun a => m / p ^ 2 * (2 * p - 2 * a)) xc1 ++
                 map (fun a => m / (1 - p) ^ 2 * (2 * p - 2 * a)) xc2 in
    lay_normal x yt yc slope
  else lay_vertical x yt yc.

(** scipy [splrep]/[splev] with default arguments (nacaprofile.py 183-186) on
    four points: the interpolating cubic. *)
Definition cubic4 (x0 y0 x1 y1 x2 y2 x3 y3 x : R) : R :=
  y0 * (x - x1) * (x - x2) * (x - x3) / ((x0 - x1) * (x0 - x2) * (x0 - x3)) +
  y1 * (x - x0) * (x - x2) * (x - x3) / ((x1 - x0) * (x1 - x2) * (x1 - x3)) +
  y2 * (x - x0) * (x - x1) * (x - x3) / ((x2 - x0) * (x2 - x1) * (x2 - x3)) +
  y3 * (x - x0) * (x - x1) * (x - x2) / ((x3 - x0) * (x3 - x1) * (x3 - x2)).
(** Fourth divided difference. *)
Definition dd5 (x0 y0 x1 y1 x2 y2 x3 y3 x4 y4 : R) : R :=
  y0 / ((x0 - x1) * (x0 - x2) * (x0 - x3) * (x0 - x4)) +
  y1 / ((x1 - x0) * (x1 - x2) * (x1 - x3) * (x1 - x4)) +
  y2 / ((x2 - x0) * (x2 - x1) * (x2 - x3) * (x2 - x4)) +
  y3 / ((x3 - x0) * (x3 - x1) * (x3 - x2) * (x3 - x4)) +
  y4 / ((x4 - x0) * (x4 - x1) * (x4 - x2) * (x4 - x3)).
(** On five points FITPACK places one interior knot at the third abscissa; the
    spline is a cubic plus a multiple of (x - x2)_+^3.  Outside the table the
    end pieces are extended (ext = 0). *)
Definition truncated (k x : R) : R := if Rle_dec x k then 0 else (x - k) ^ 3.
Definition spline5 (x0 y0 x1 y1 x2 y2 x3 y3 x4 y4 x : R) : R :=
  let g := truncated x2 in
  let e := dd5 x0 y0 x1 y1 x2 y2 x3 y3 x4 y4 / dd5 x0 (g x0) x1 (g x1) x2 (g x2) x3 (g x3) x4 (g x4) in
  cubic4 x0 (y0 - e * g x0) x1 (y1 - e * g x1) x2 (y2 - e * g x2) x3 (y3 - e * g x3) x + e * g x.

(** nacaprofile.py 161-170 and 182-186: junction m and coefficient k1. *)
Definition naca5_m (reflex : bool) (p : R) : R :=
  if reflex then cubic4 (1/10) (13/100) (3/20) (217/1000) (1/5) (159/500) (1/4) (441/1000) p
  else spline5 (1/20) (29/500) (1/10) (63/500) (3/20) (81/400) (1/5) (29/100) (1/4) (391/1000) p.
Definition naca5_k (reflex : bool) (m : R) : R :=
  if reflex then cubic4 (13/100) (5199/100) (217/1000) (15793/1000) (159/500) (163/25) (441/1000) (3191/1000) m
  else spline5 (29/500) (1807/5) (63/500) (1291/25) (81/400) (15957/1000) (29/100) (6643/1000) (391/1000) (323/100) m.

(** nacaprofile.py 151-218. *)
Definition naca5 (cld p s t : R) (cosine : bool) (n : nat) : res profile :=
  let x := linspace 0 1 n in
  let yt := map (half_thickness t) x in
  let* reflex := if Req_EM_T s 1 then Ok true else if Req_EM_T s 0 then Ok false else Err ValueError in
  if Req_EM_T p 0 then Ok (symmetric_foil x yt) else
  let m := naca5_m reflex p in
  let k1 := naca5_k reflex m in
  let xc1 := upto m x in
  let xc2 := beyond m x in
  let yc := map (fun a => k1 / 6 * (a ^ 3 - 3 * m * a ^ 2 + m ^ 2 * (3 - m) * a)) xc1 ++
            map (fun a => k1 / 6 * m ^ 3 * (1 - a)) xc2 in
  if cosine then
    let zc := map (fun y => cld / (3/10) * y) yc in
    let slope := map (fun a => 1 / 6 * k1 * (3 * a ^ 2 - 6 * m * a + m ^ 2 * (3 - m))) xc1 ++
                 map (fun _ => -1 / 6 * k1 * m ^ 3) xc2 in
    lay_normal x yt zc slope
  else lay_vertical x yt yc.

(** nacaprofile.py 91-221. *)
Definition naca_coordinates (digits : string) (cosine : bool) (n : nat) : res profile :=
  match list_ascii_of_string digits with
  | [c0; c1; c2; c3] =>
      let* a := float1 c0 in let* b := float1 c1 in let* t := float2 c2 c3 in
      naca4 (a / 100) (b / 10) (t / 100) cosine n
  | [c0; c1; c2; c3; c4] =>
      let* a := float1 c0 in let* b := float1 c1 in let* s := float1 c2 in let* t := float2 c3 c4 in
      naca5 (a * (15/100)) (5 * b / 100) s (t / 100) cosine n
  | _ => Err OtherException
  end.

(** nacaprofile.py 74-86. *)
Definition naca_check (digits : digits_arg) (n : npoints_arg) : res (string * nat) :=
  match digits with
  | DOther => Err TypeError
  | DStr s =>
      let* z := match n with NInt z => Ok z | NFloat x => Ok (py_int x) | NOther => Err TypeError end in
      if (z <? 0)%Z then Err ValueError else Ok (s, Z.to_nat z)
  end.

(** nacaprofile.py 64-72. *)
Definition naca_profile (american : profile -> R -> list R -> R -> list R -> res (list R))
  (digits : digits_arg) (n : npoints_arg) (cosine : bool) : res (profile * params) :=
  let* a := naca_check digits n in
  let* p := naca_coordinates (fst a) cosine (snd a) in
  let* q := generate_parameters american "british" p in
  Ok (p, q).
