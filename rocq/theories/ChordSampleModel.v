(** The sampled chord line in binary64 arithmetic (profile/baseprofile.py 293-313). *)
From Coq Require Import Reals ZArith List Bool.
From Flocq Require Import Core BinarySingleNaN.
From Verif Require Import Base PpgFloatModel FloatModel ShapeFloatModel SectionFloatModel NacaFloatModel ChordFloatModel.
Import ListNotations.

(** [np.linspace(a, b, num=n)] (baseprofile.py 306-309): the integers times the rounded step, or
    the quotients times the extent if the step is zero, plus the start; the last entry is overwritten. *)
Definition linspace_between64 (a b : b64) (n : nat) : list b64 :=
  let delta := fsub b a in
  if Nat.leb n 1 then map (fun i => fadd (fmul (of_int (Z.of_nat i)) delta) a) (seq 0 n)
  else
    let div := of_int (Z.of_nat (n - 1)) in
    let step := fdiv64 delta div in
    let ys := map (fun i => if Beqb step zero64 then fmul (fdiv64 (of_int (Z.of_nat i)) div) delta else fmul (of_int (Z.of_nat i)) step) (seq 0 n) in
    removelast (map (fun y => fadd y a) ys) ++ [b].

(** baseprofile.py 293-317: [n_interpolated_points], by default none for equal abscissae and
    500 otherwise; 0 stands for none.  Surfaces of different lengths cannot be compared. *)
Definition chord_line64 (n : option nat) (p : fprofile) : res (list b64 * list b64) :=
  let* e := update_edges64 p in
  let le := fst e in let te := snd e in
  let aratio := fdiv64 (fsub (snd te) (snd le)) (fsub (fst te) (fst le)) in
  let* eq := vzip (fun a b : b64 => Beqb a b) (fxup p) (fxdown p) in
  let n' := match n with None => if forallb (fun b => b) eq then 0%nat else 500%nat | Some k => k end in
  let xs := match n' with O => fxup p | _ => linspace_between64 (fst le) (fst te) n' end in
  Ok (xs, map (fun x => fadd (fmul aratio (fsub x (fst le))) (snd le)) xs).
