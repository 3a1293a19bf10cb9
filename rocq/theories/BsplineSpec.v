(** Vocabulary of the B-spline statements. *)
From Coq Require Import Reals List ZArith.
From Verif Require Import Base BsplineModel.
Import ListNotations.
Open Scope R_scope.

(** Cox-de Boor basis functions on any knots, with the last interval (the one
    numbered [last]) closed on the right; 0/0 counts as 0. *)
Fixpoint cox_de_boor (t : nat -> R) (last k i : nat) (x : R) : R :=
  match k with
  | O => if Rle_dec (t i) x then
           if Rlt_dec x (t (S i)) then 1
           else if Nat.eq_dec i last then (if Req_EM_T x (t (S i)) then 1 else 0) else 0
         else 0
  | S k' =>
      let w a d := if Req_EM_T d 0 then 0 else a / d in
      w (x - t i) (t (i + k)%nat - t i) * cox_de_boor t last k' i x +
      w (t (S (i + k)) - x) (t (S (i + k)) - t (S i)) * cox_de_boor t last k' (S i) x
  end.

(** [sumn n f] is f 0 + ... + f (n-1). *)
Fixpoint sumn (n : nat) (f : nat -> R) : R :=
  match n with O => 0 | S m => sumn m f + f m end.

(** The i-th basis function of [c] control points and degree [k] on the knots
    of scipy_bspline, and the curve it defines. *)
Definition basis_fun (c k i : nat) (x : R) : R := cox_de_boor (knot c k) (c - 1) k i x.
Definition spline_value (cv : list R) (k : nat) (x : R) : R :=
  sumn (List.length cv) (fun i => nth i cv 0 * basis_fun (List.length cv) k i x).

(** Parameter of sample [i] of [n] on [0, c - k]. *)
Definition sample (c k n i : nat) : R := INR i * (INR (c - k) / INR (n - 1)).

(** Unit vector number [i] of length [n]. *)
Definition unit_vec (n i : nat) : list R := map (fun j => if Nat.eq_dec j i then 1 else 0) (seq 0 n).

(** Sizes scipy_bspline can evaluate: at least one point, a degree FITPACK
    supports, more control points than the degree. *)
Definition fits (c : nat) (npoints degree : Z) : Prop :=
  (0 < npoints)%Z /\ (0 <= degree <= 19)%Z /\ (Z.to_nat degree < c)%nat.

(** An affine map of the plane. *)
Definition affine (a b e c d f : R) (p : pt) : pt := (a * fst p + b * snd p + e, c * fst p + d * snd p + f).

(** Total variation of a sequence. *)
Definition variation (v : list R) : R := sumn (List.length v - 1) (fun i => Rabs (nth (S i) v 0 - nth i v 0)).

(** Greville abscissa number [i]: the mean of the [k] knots after knot [i], the
    knots being i - k cut off at 0 and at c - k. *)
Definition greville (c k i : nat) : R := sumn k (fun j => INR (Nat.min (S (i + j) - k) (c - k))) / INR k.
(** The control values whose curve runs evenly from [a] to [b]. *)
Definition even_control (c k : nat) (a b : R) : list R := map (fun i => a + greville c k i / INR (c - k) * (b - a)) (seq 0 c).
