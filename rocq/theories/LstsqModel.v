(** Model of [numpy.linalg.lstsq] (deform.py 147-150): the least-squares
    solution of smallest norm.

    LAPACK computes it by a singular value decomposition and drops singular
    values below the machine precision (rcond = -1); in exact arithmetic the
    solution is unique, so it is computed here by orthogonalisation.  That
    this function returns the minimiser of smallest norm is proved, not
    assumed (LstsqProofs.v). *)
From Coq Require Import Reals List.
From Verif Require Import Base SolveModel.
Import ListNotations.
Open Scope R_scope.

(** Equation [p] minus the multiple of equation [q] that makes the
    coefficients orthogonal (deform.py 147-150). *)
Definition reduce (q p : row) : row :=
  let k := dot (fst q) (fst p) / dot (fst q) (fst q) in
  (map2 (fun a b => a - k * b) (fst p) (fst q), snd p - k * snd q).

(** Smallest solution of a solvable system of equations in [n] unknowns;
    [fuel] is the number of equations (deform.py 147-150). *)
Fixpoint min_norm (n fuel : nat) (rows : list row) : list R :=
  match fuel, rows with
  | S f, (r, c) :: rest =>
      if Req_EM_T (dot r r) 0 then min_norm n f rest
      else map2 Rplus (min_norm n f (map (reduce (r, c)) rest)) (vscale (c / dot r r) r)
  | _, _ => zeros n
  end.

(** The rows of the matrix with columns [cols] and [m] rows. *)
Definition rows_of (m : nat) (cols : list (list R)) : list (list R) :=
  map (fun i => map (fun c => nth i c 0) cols) (seq 0 m).

(** [np.linalg.lstsq(A, b)\[0\]] for the matrix with columns [cols]: [b] is
    projected on the column space, then the smallest preimage is taken
    (deform.py 147-150). *)
Definition lstsq (cols : list (list R)) (b : list R) : list R :=
  let m := List.length b in
  let projected := min_norm m (List.length cols) (map (fun c => (c, dot c b)) cols) in
  min_norm (List.length cols) m (combine (rows_of m cols) projected).
