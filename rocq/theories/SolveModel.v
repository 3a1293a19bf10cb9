(** Model of [numpy.linalg.solve] as called in ndinterpolator.py 246-247. *)
From Coq Require Import Reals List.
From Verif Require Import Base.
Import ListNotations.
Open Scope R_scope.

Notation row := (list R * R)%type.
Definition lead (r : row) : R := hd 0 (fst r).

(** Partial pivoting (LAPACK gesv): take out the row whose leading coefficient
    is largest in absolute value.  The order of the remaining rows is not
    LAPACK's; in exact arithmetic it does not influence the solution. *)
Fixpoint pick_pivot (rows : list row) : option (row * list row) :=
  match rows with
  | [] => None
  | r :: rs =>
      match pick_pivot rs with
      | None => Some (r, [])
      | Some (p, rest) =>
          if Rlt_dec (Rabs (lead r)) (Rabs (lead p)) then Some (p, r :: rest)
          else Some (r, p :: rest)
      end
  end.

Definition eliminate (p r : row) : row :=
  let k := lead r / lead p in
  (map2 (fun c a => c - k * a) (tl (fst r)) (tl (fst p)), snd r - k * snd p).

(** Gaussian elimination followed by back substitution on [n] unknowns
    (what LAPACK gesv does for [np.linalg.solve], ndinterpolator.py 246-247;
    exact arithmetic).  A zero pivot is numpy's "Singular matrix" LinAlgError. *)
Fixpoint gauss (n : nat) (rows : list row) : res (list R) :=
  match n with
  | O => Ok []
  | S m =>
      match pick_pivot rows with
      | None => Err LinAlgError
      | Some (p, rest) =>
          if Req_EM_T (lead p) 0 then Err LinAlgError
          else let* xs := gauss m (map (eliminate p) rest) in
               Ok ((snd p - dot (tl (fst p)) xs) / lead p :: xs)
      end
  end.

(** Shape checks of [np.linalg.solve], then the solver (ndinterpolator.py
    246-247; one-dimensional right-hand side only). *)
Definition linalg_solve (A : list (list R)) (b : list R) : res (list R) :=
  let n := length A in
  if forallb (fun r => Nat.eqb (length r) n) A then
    if Nat.eqb (length b) n then gauss n (combine A b) else Err ValueError
  else Err LinAlgError.
