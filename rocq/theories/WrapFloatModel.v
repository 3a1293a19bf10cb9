(** Wrapping the sections of a blade around cylinders in binary64 arithmetic (blade.py 255-296). *)
From Coq Require Import Reals ZArith List Bool.
From Flocq Require Import Core BinarySingleNaN.
From Verif Require Import Base PpgFloatModel FloatModel SectionFloatModel.
Import ListNotations.

(** One surface: blade.py 280-289.  [np.sin] and [np.cos] are the parameters [sn] and [cs];
    simplification: functions of the number alone.  numpy divides by a zero radius without
    an exception; arrays of different lengths do not form a matrix. *)
Definition wrap64 (sn cs : b64 -> b64) (radius : b64) (xs ys : list b64) : res (list (b64 * b64 * b64)) :=
  let theta := map (fun y => fdiv64 y radius) ys in
  let y_section := map (fun t => fmul radius (sn t)) theta in
  let z_section := map (fun t => fmul radius (cs t)) theta in
  let* yz := vzip pair y_section z_section in
  vzip (fun x q => (x, fst q, snd q)) xs yz.

(** [np.stack] (blade.py 295-296): at least one array, all of one shape. *)
Definition stackable64 (l : list (list (b64 * b64 * b64))) : bool :=
  match l with
  | [] => false
  | a :: l' => forallb (fun b => Nat.eqb (List.length b) (List.length a)) l'
  end.

(** blade.py 275-296: the pairs of sections and radii from the last, without surplus; both
    surfaces of each, then both stacks. *)
Definition cylinder64 (sn cs : b64 -> b64) (sections : list fprofile) (radii : list b64)
    : res (list (list (b64 * b64 * b64)) * list (list (b64 * b64 * b64))) :=
  let* ud := mapM (fun sr : fprofile * b64 =>
      let* u := wrap64 sn cs (snd sr) (fxup (fst sr)) (fyup (fst sr)) in
      let* d := wrap64 sn cs (snd sr) (fxdown (fst sr)) (fydown (fst sr)) in
      Ok (u, d)) (combine (rev sections) (rev radii)) in
  let up := map fst ud in
  let down := map snd ud in
  if stackable64 down && stackable64 up then Ok (up, down) else Err ValueError.
