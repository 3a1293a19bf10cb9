(** Chord line and largest camber of a profile without interpolation in binary64
    arithmetic (profile/baseprofile.py 277-317, 601-638), rounding to nearest even. *)
From Coq Require Import Reals ZArith List Bool.
From Flocq Require Import Core BinarySingleNaN.
From Verif Require Import Base PpgFloatModel FloatModel ShapeFloatModel SectionFloatModel.
Import ListNotations.

(** baseprofile.py 293-317 with [n_interpolated_points=None], for surfaces with equal
    abscissae.  numpy divides by zero without an exception. *)
Definition compute_chord_line64 (p : fprofile) : res (list b64 * list b64) :=
  let* e := update_edges64 p in
  let le := fst e in let te := snd e in
  let aratio := fdiv64 (fsub (snd te) (snd le)) (fsub (fst te) (fst le)) in
  let* _ := same_abscissae64 p in
  Ok (fxup p, map (fun x => fadd (fmul aratio (fsub x (fst le))) (snd le)) (fxup p)).

(** [a.argmax()] (baseprofile.py 633): the first largest entry, or the first NaN. *)
Fixpoint argmax_from (best : b64) (at_ i : nat) (l : list b64) : nat :=
  match l with
  | [] => at_
  | x :: l' => if Bleb x best || @is_nan 53 1024 best then argmax_from best at_ (S i) l' else argmax_from x i (S i) l'
  end.
Definition argmax64 (l : list b64) : nat :=
  match l with
  | [] => 0
  | x :: l' => argmax_from x 0 1 l'
  end.

(** baseprofile.py 619-638 with [n_interpolated_points=None]. *)
Definition max_camber64 (o : dot_order) (p : fprofile) : res b64 :=
  let* chord := compute_chord_line64 p in
  let* line := compute_camber_line64 p in
  let* dx := vzip fsub (fst chord) (fst line) in
  let* dy := vzip fsub (snd chord) (snd line) in
  let* camber := vzip (norm2_64 o) dx dy in
  let* m := vmax64 camber in
  let i := argmax64 camber in
  if Bltb (nth i (snd line) zero64) (nth i (snd chord) zero64) then Ok (fmul m minus_one) else Ok m.
