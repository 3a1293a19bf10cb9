(** Vocabulary of the statements about the American thickness convention. *)
From Coq Require Import Reals List.
From Verif Require Import Base ProfileModel ProfileSpec CustomSpec.
Import ListNotations.
Open Scope R_scope.

(** The iteration returns only exact roots. *)
Definition finds_roots (newton : (list R -> res (list R)) -> list R -> res (list R)) : Prop :=
  forall F x r, newton F x = Ok r -> exists z, F r = Ok z /\ Forall (fun v => v = 0) z.
(** The interpolant through (x, y) is the graph of [f]. *)
Definition graph_of (curve : list R -> list R -> list R -> res (list R)) (x y : list R) (f : R -> R) : Prop :=
  forall ts, curve x y ts = Ok (map f ts).

(** The camber line is horizontal when it arrives at station j. *)
Definition level (q : params) (j : nat) : Prop :=
  j = 0%nat \/ snd (camber_point q j) = snd (camber_point q (pred j)).
(** [x] is the abscissa of the lower point of station j: where the lower curve
    meets the line orthogonal to the camber line, or the given lower abscissa if
    the camber line is horizontal. *)
Definition lower_abscissa (q : params) (p : profile) (f : R -> R) (j : nat) (x : R) : Prop :=
  (level q j -> x = nth j (xdown p) 0) /\
  (~ level q j -> pdot (psub (x, f x) (camber_point q j)) (psub (camber_point q j) (camber_point q (pred j))) = 0).

(** The station whose distance becomes the thickness of station i: the second
    one takes that of the third when its upper point lies before the first upper
    point of the profile. *)
Definition station_used (q : params) (p : profile) (xs : list R) (i : nat) : nat :=
  if Nat.eq_dec i 1 then if Rlt_dec (2 * fst (camber_point q 1) - nth 1 xs 0) (hd 0 (xup p)) then 2%nat else 1%nat else i.
