(** Vocabulary of the least-squares statements. *)
From Coq Require Import Reals List.
From Verif Require Import Base.
Import ListNotations.
Open Scope R_scope.

(** Linear combination of the vectors [vs] of length [n] with weights [w]. *)
Fixpoint comb (n : nat) (w : list R) (vs : list (list R)) : list R :=
  match w, vs with
  | a :: w', v :: vs' => map2 Rplus (vscale a v) (comb n w' vs')
  | _, _ => zeros n
  end.
(** Squared distance between A x and b for the matrix A with columns [cols]. *)
Definition residual (cols : list (list R)) (x b : list R) : R :=
  let d := map2 Rminus (comb (List.length b) x cols) b in dot d d.
