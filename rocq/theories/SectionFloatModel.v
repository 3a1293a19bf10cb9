(** Coordinates from section parameters and back, British convention, in
    binary64 arithmetic (profile/customprofile.py 64-71, 89-99, 184-196,
    profile/baseprofile.py 54-76), rounding to nearest even. *)
From Coq Require Import Reals ZArith List Bool.
From Flocq Require Import Core BinarySingleNaN.
From Verif Require Import Base PpgFloatModel FloatModel ShapeFloatModel.
Import ListNotations.

(** customprofile.py 64-69 *)
Record fparams : Type := mkFP { pchord : list b64; pcamber : list b64; pthick : list b64; pcmax : b64; ptmax : b64; plen : b64 }.

(** customprofile.py 184-196, after the None checks and conversions.
    Comparisons with NaN are false. *)
Definition check_parameters64 (s : fparams) : res unit :=
  if Bltb (pcmax s) zero64 then Err ValueError else
  if Bltb (ptmax s) zero64 then Err ValueError else
  if negb (Nat.eqb (List.length (pcamber s)) (List.length (pchord s))) then Err ValueError else
  if negb (Nat.eqb (List.length (pthick s)) (List.length (pchord s))) then Err ValueError else Ok tt.

(** customprofile.py 89-99 *)
Definition coordinates_british64 (s : fparams) : res fprofile :=
  let xs := map (fun c => fmul c (plen s)) (pchord s) in
  let half := fdiv64 (ptmax s) two64 in
  let* yu := vzip (fun c t => fadd (fmul c (pcmax s)) (fmul half t)) (pcamber s) (pthick s) in
  let* yd := vzip (fun c t => fsub (fmul c (pcmax s)) (fmul half t)) (pcamber s) (pthick s) in
  Ok (mkF xs xs yu yd).

(** customprofile.py 64-71 *)
Definition from_parameters64 (s : fparams) : res fprofile :=
  let* _ := check_parameters64 s in coordinates_british64 s.

(** [np.min] (baseprofile.py 58): a NaN anywhere is the result. *)
Definition minimum64 (a b : b64) : b64 := if Bleb a b || @is_nan 53 1024 a then a else b.
Definition vmin64 (l : list b64) : res b64 :=
  match l with
  | [] => Err ValueError
  | x :: l' => Ok (fold_left minimum64 l' x)
  end.

(** [np.linalg.norm] of two entries (baseprofile.py 56-57): the square root of the
    product of the vector with itself, which the linear algebra library may fuse. *)
Definition fsqrt : b64 -> b64 := @Bsqrt 53 1024 prec64 emax64 mode_NE.
Definition norm2_64 (o : dot_order) (x y : b64) : b64 := fsqrt (dot2 o x y x y).

(** baseprofile.py 63-66, 73-76: fractions of the largest value, zeros if it is 0. *)
Definition fractions64 (n : nat) (l : list b64) (m : b64) : list b64 :=
  if Beqb m zero64 then repeat zero64 n else map (fun x => fdiv64 x m) l.

(** baseprofile.py 54-76, British convention.  The ordinates of the two
    surfaces are combined without broadcasting. *)
Definition parameters_british64 (o : dot_order) (p : fprofile) : res fparams :=
  let* e := update_edges64 p in
  let len := norm2_64 o (fsub (fst (fst e)) (fst (snd e))) (fsub (snd (fst e)) (snd (snd e))) in
  let* x0 := vmin64 (fxup p) in
  let ch := map (fun x => fdiv64 (fsub x x0) len) (fxup p) in
  let* camber := vzip (fun u d => fdiv64 (fadd u d) two64) (fyup p) (fydown p) in
  let* c := vmax64 camber in
  let cm := fabs64 c in
  let* thick := vzip (fun u d => fabs64 (fsub u d)) (fyup p) (fydown p) in
  let* tm := vmax64 thick in
  let n := List.length (fxup p) in
  Ok (mkFP ch (fractions64 n camber cm) (fractions64 n thick tm) cm tm len).
