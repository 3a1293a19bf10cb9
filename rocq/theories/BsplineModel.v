(** Model of scipy_bspline (ndinterpolator.py 256-272).

    [splev] is FITPACK's routine: a search for the knot interval, the
    recurrence of fpbspl for the degree + 1 basis values that do not vanish
    there, and their scalar product with the coefficients. *)
From Coq Require Import Reals List ZArith.
From Verif Require Import Base.
Import ListNotations.
Open Scope R_scope.

(** ndinterpolator.py 266: [np.clip(np.arange(c+degree+1)-degree, 0, c-degree)]
    for degree <= c; truncated subtraction is the clip at 0. *)
Definition knot (c k i : nat) : R := INR (Nat.min (i - k) (c - k)).

(** splev: the interval is searched from index k up to c - 1 (0-based);
    [room] is the number of intervals still allowed.  Simplification: FITPACK
    resumes the search at the interval of the previous point; for the
    increasing points of line 268 this finds the same interval. *)
Fixpoint span (t : nat -> R) (room l : nat) (x : R) : nat :=
  match room with
  | O => l
  | S room' => if Rlt_dec x (t (S l)) then l else span t room' (S l) x
  end.

(** fpbspl, one raise of the degree to [j]; [hh] holds the values of degree
    j - 1 from position [i] on, [carry] what the previous position contributes. *)
Fixpoint raise_degree (t : nat -> R) (x : R) (l j i : nat) (carry : R) (hh : list R) : list R :=
  match hh with
  | [] => [carry]
  | h :: hs =>
      let f := if Req_EM_T (t (l + i)%nat) (t (l + i - j)%nat) then 0
               else h / (t (l + i)%nat - t (l + i - j)%nat) in
      (carry + f * (t (l + i)%nat - x)) :: raise_degree t x l j (S i) (f * (x - t (l + i - j)%nat)) hs
  end.
(** fpbspl: the values of all non-vanishing basis functions of degree [k]. *)
Fixpoint fpbspl (t : nat -> R) (x : R) (l k : nat) : list R :=
  match k with
  | O => [1]
  | S k' => raise_degree t x l k 1 0 (fpbspl t x l k')
  end.

(** splev at one point. *)
Definition splev1 (cv : list R) (k : nat) (x : R) : R :=
  let c := List.length cv in
  let t := knot c k in
  let l := span t (c - 1 - k) k x in
  dot (skipn (l - k) cv) (fpbspl t x l k).

(** ndinterpolator.py 256-272 for one coordinate.  A negative number of points
    is refused by np.linspace, a negative degree by splev.  Outside the model:
    no points at all, degree >= number of control points (FITPACK then reads
    beyond its knots) and degree > 19 (FITPACK's work array). *)
Definition bspline1 (cv : list R) (npoints degree : Z) : res (list R) :=
  if (npoints <? 0)%Z then Err ValueError else
  if (degree <? 0)%Z then Err ValueError else
  let k := Z.to_nat degree in
  let c := List.length cv in
  if (Nat.ltb k c && Nat.leb k 19 && (0 <? npoints)%Z)%bool then
    Ok (map (splev1 cv k) (linspace 0 (INR (c - k)) (Z.to_nat npoints)))
  else Err Unmodelled.

(** The same on planar control points: [cv.T] is evaluated row by row. *)
Definition bspline2 (cv : list pt) (npoints degree : Z) : res (list pt) :=
  let* xs := bspline1 (map fst cv) npoints degree in
  let* ys := bspline1 (map snd cv) npoints degree in
  Ok (combine xs ys).
