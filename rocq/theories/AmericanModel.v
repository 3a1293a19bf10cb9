(** Model of _compute_thickness_american (profile/baseprofile.py 506-543).

    The interpolated lower surface (scipy RBFInterpolator, baseprofile.py
    476-489) and scipy's newton on arrays are parameters. *)
From Coq Require Import Reals List Bool.
From Verif Require Import Base ProfileModel CustomModel.
Import ListNotations.
Open Scope R_scope.

(** [a\[mask\]] and [a\[mask\] = v] (baseprofile.py 526-535); the mask must have
    the length of the array, the values must fit. *)
Fixpoint compress {A} (mask : list bool) (l : list A) : res (list A) :=
  match mask, l with
  | [], [] => Ok []
  | b :: mask', x :: l' => let* r := compress mask' l' in Ok (if b then x :: r else r)
  | _, _ => Err IndexError
  end.
Fixpoint scatter {A} (mask : list bool) (l v : list A) : res (list A) :=
  match mask, l with
  | [], [] => match v with [] => Ok [] | _ => Err ValueError end
  | true :: mask', _ :: l' =>
      match v with
      | [] => Err ValueError
      | x :: v' => let* r := scatter mask' l' v' in Ok (x :: r)
      end
  | false :: mask', x :: l' => let* r := scatter mask' l' v in Ok (x :: r)
  | _, _ => Err IndexError
  end.

Section American.
(** [curve x y t]: the interpolant through (x, y) evaluated at t, as in
    CustomModel; [newton f x0]: the root scipy finds from x0. *)
Variable curve : list R -> list R -> list R -> res (list R).
Variable newton : (list R -> res (list R)) -> list R -> res (list R).

(** baseprofile.py 511-516: slopes of the camber line, m\[0\] = 0. *)
Definition camber_slopes (n : nat) (chord : R) (cperc : list R) (cmax : R) (camperc : list R) : res (list R) :=
  let* ms := mapM (fun i =>
    let* c1 := item camperc i in let* c0 := item camperc (i - 1) in
    let* x1 := item cperc i in let* x0 := item cperc (i - 1) in
    let* a := fdiv (c1 - c0) (x1 - x0) in fdiv (a * cmax) chord) (seq 1 (n - 1)) in
  Ok (0 :: ms).

(** baseprofile.py 523-531; [kept] holds abscissa and ordinate of the camber line
    and the angle where the camber line is not horizontal. *)
Definition eq_to_solve (p : profile) (kept : list (R * R * R)) (xs : list R) : res (list R) :=
  let* s := curve (xdown p) (ydown p) xs in
  let* l := vzip (fun (k : R * R * R) x => let '(cx, cy, a) := k in cy + cos a / sin a * (cx - x)) kept xs in
  vzip Rminus s l.

(** baseprofile.py 506-543 for at least one point. *)
Definition thickness_american (p : profile) (chord : R) (cperc : list R) (cmax : R) (camperc : list R)
  : res (list R) :=
  match xup p with
  | [] => Err Unmodelled
  | xu0 :: _ =>
  let* m := camber_slopes (List.length (xup p)) chord cperc cmax camperc in
  let ang := map atan m in
  let mask := map (fun a => if Req_EM_T (sin a) 0 then false else true) ang in
  let* kx := compress mask (vscale chord cperc) in
  let* ky := compress mask (map (fun c => cmax * c) camperc) in
  let* ka := compress mask ang in
  let* x0 := compress mask (xdown p) in
  let* roots := newton (eq_to_solve p (combine (combine kx ky) ka)) x0 in
  let* xd := scatter mask (xdown p) roots in
  let* xu := vzip (fun c x => 2 * c * chord - x) cperc xd in
  let* yd := curve (xdown p) (ydown p) xd in
  let* yu := vzip (fun c y => 2 * cmax * c - y) camperc yd in
  let* xu1 := item xu 1 in
  let* r :=
    if Rlt_dec xu1 xu0 then
      let* a := item xu 2 in let* b := item xd 2 in
      let* c := item yu 2 in let* d := item yd 2 in
      Ok (set1 a xu, set1 b xd, set1 c yu, set1 d yd)
    else Ok (xu, xd, yu, yd) in
  let '(xu, xd, yu, yd) := r in
  let* dx := vzip Rminus xu xd in
  let* dy := vzip Rminus yu yd in
  vzip (fun a b => sqrt (a * a + b * b)) dx dy
  end.
End American.
