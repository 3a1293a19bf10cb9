(** Model of ndinterpolator.py: class RBF and function reconstruct_f. *)
From Coq Require Import Reals List String.
From Verif Require Import Base SolveModel.
Import ListNotations.
Open Scope R_scope.

(** ndinterpolator.py 75-86: the five basis functions. *)
Inductive basis : Set :=
| Gaussian | MultiQuadratic | InvMultiQuadratic | ThinPlate | Wendland.

(** ndinterpolator.py 75-93: look-up by name, NameError otherwise. *)
Definition basis_of_name (s : string) : res basis :=
  if String.eqb s "gaussian_spline" then Ok Gaussian
  else if String.eqb s "multi_quadratic_biharmonic_spline" then Ok MultiQuadratic
  else if String.eqb s "inv_multi_quadratic_biharmonic_spline" then Ok InvMultiQuadratic
  else if String.eqb s "thin_plate_spline" then Ok ThinPlate
  else if String.eqb s "beckert_wendland_c2_basis" then Ok Wendland
  else Err NameError.

(** ndinterpolator.py 115. *)
Definition gaussian_spline (X r : R) : res R :=
  let* q := fdiv (- (X * X)) (r * r) in Ok (exp q).
(** ndinterpolator.py 133. *)
Definition multi_quadratic_biharmonic_spline (X r : R) : res R :=
  Ok (sqrt (X * X + r * r)).
(** ndinterpolator.py 151. *)
Definition inv_multi_quadratic_biharmonic_spline (X r : R) : res R :=
  fdiv 1 (sqrt (X * X + r * r)).
(** ndinterpolator.py 170-173. *)
Definition thin_plate_spline (X r : R) : res R :=
  let* arg := fdiv X r in
  let result := arg * arg in
  if Rlt_dec 0 arg then Ok (result * ln arg) else Ok result.
(** ndinterpolator.py 192-195. *)
Definition beckert_wendland_c2_basis (X r : R) : res R :=
  let* arg := fdiv X r in
  let fst := if Rlt_dec 0 (1 - arg) then (1 - arg) ^ 4 else 0 in
  let snd := 4 * arg + 1 in
  Ok (fst * snd).

(** ndinterpolator.py 89: [self.basis]. *)
Definition eval_basis (b : basis) : R -> R -> res R :=
  match b with
  | Gaussian => gaussian_spline
  | MultiQuadratic => multi_quadratic_biharmonic_spline
  | InvMultiQuadratic => inv_multi_quadratic_biharmonic_spline
  | ThinPlate => thin_plate_spline
  | Wendland => beckert_wendland_c2_basis
  end.

(** A point of an input array: one row after [reshape(-1, 1)]
    (ndinterpolator.py 211-214). *)
Notation point := (list R) (only parsing).

(** scipy [cdist] with the default Euclidean metric (ndinterpolator.py 215). *)
Definition cdist (x y : point) : R :=
  sqrt (fold_right Rplus 0 (map2 (fun a b => (a - b) * (a - b)) x y)).

(** ndinterpolator.py 211-212: a one-dimensional array becomes a column. *)
Definition column (v : list R) : list point := map (fun x => [x]) v.

(** ndinterpolator.py 197-215.  Simplification: all points are assumed to have
    the same dimension (cdist would raise otherwise). *)
Definition weights_matrix (b : basis) (radius : R) (X1 X2 : list point)
  : res (list (list R)) :=
  mapM (fun x => mapM (fun y => eval_basis b (cdist x y) radius) X2) X1.

(** ndinterpolator.py 251-253: the accumulation loop.  [W] are the rows of
    weights_rbf.  An output array that is too short raises IndexError as soon
    as it is indexed (never, if there are no nodes).  Simplification: entries
    already updated when IndexError is raised are not reported. *)
Fixpoint accumulate (w : list R) (W : list (list R)) (out : list R)
  : res (list R) :=
  match W, out with
  | [], _ => Ok out
  | _ :: _, [] => Err IndexError
  | row :: W', o :: out' =>
      let* rest := accumulate w W' out' in Ok (o + dot w row :: rest)
  end.

(** ndinterpolator.py 218-253; [rbf_output] is updated in place in Python, the
    model returns its new content. *)
Definition reconstruct_f (original_input : list point) (original_output : list R)
  (rbf_input : list point) (rbf_output : list R) (basis_name : string) (radius : R)
  : res (list R) :=
  let* b := basis_of_name basis_name in
  let* A := weights_matrix b radius original_input original_input in
  let* weights_coeff := linalg_solve A original_output in
  let* weights_rbf := weights_matrix b radius rbf_input original_input in
  match original_input with
  | [] => Ok rbf_output
  | _ :: _ => accumulate weights_coeff weights_rbf rbf_output
  end.

(** The call made for one-dimensional arrays everywhere in the package
    (e.g. baseprofile.py 257-263). *)
Definition reconstruct_1d (x y xx out : list R) (basis_name : string) (radius : R)
  : res (list R) :=
  reconstruct_f (column x) y (column xx) out basis_name radius.
