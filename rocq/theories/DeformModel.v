(** Model of deform.py. *)
From Coq Require Import Reals List ZArith Ascii String Bool.
From Verif Require NacaModel.
From Verif Require Import Base RbfModel SolveModel BsplineModel LstsqModel TextModel ParamsModel.
Import ListNotations.
Open Scope R_scope.

(** deform.py 115-119: [int(rbf_points or 0)] unless an int was passed. *)
Definition rbf_count (rbf_points : option pynum) : Z :=
  match rbf_points with
  | None => 0%Z
  | Some (PyInt z) => z
  | Some (PyFloat x) => NacaModel.py_int x
  end.
(** deform.py 121-132: the arrays the control points are fitted to. *)
Definition fit_data (X Y : list R) (n : Z) : res (list R * list R) :=
  if (0 <? n)%Z then
    let* a := first X in
    let* b := final X in
    let xx := linspace a b (Z.to_nat n) in
    let* yy := reconstruct_1d X Y xx (zeros (Z.to_nat n)) "beckert_wendland_c2_basis"%string 2 in
    Ok (xx, yy)
  else Ok (X, Y).
(** deform.py 138-139: the abscissae of [cv_new], entry [i] is 1.  The other two
    columns are zeros and not used. *)
Definition one_hot (n i : nat) : list R := map (fun j => if Nat.eqb j i then 1 else 0) (seq 0 n).
(** deform.py 147-150 for one coordinate: the fitted interior coordinates.
    [c0], [cn] are the first and last columns of A, [inner] the others.
    Simplification: arrays of different lengths raise ValueError, also where
    numpy would broadcast an array of length one. *)
Definition fit (inner : list (list R)) (c0 cn v : list R) : res (list R) :=
  let* v0 := first v in
  let* vn := final v in
  let* d0 := vzip (fun x a => x - a * v0) v c0 in
  let* d := vzip (fun x a => x - a * vn) d0 cn in
  Ok (lstsq inner d).
(** deform.py 152-159: the ends are the data, the rest is fitted. *)
Definition with_ends (v0 vn : pt) (xs ys : list R) : list pt := v0 :: combine xs ys ++ [vn].
(** deform.py 90-161.  Fewer than two control points are refused by
    [np.zeros((len(X), nbasis - 2))]. *)
Definition optimum_control_points (X Y : list R) (degree nbasis : Z) (rbf_points : option pynum) : res (list pt) :=
  let* (X, Y) := fit_data X Y (rbf_count rbf_points) in
  if (nbasis <? 2)%Z then Err ValueError else
  let n := Z.to_nat nbasis in
  let* A := mapM (fun i => bspline1 (one_hot n i) (Z.of_nat (List.length X)) degree) (seq 0 n) in
  let* c0 := first A in
  let* cn := final A in
  let inner := removelast (tl A) in
  let* xs := fit inner c0 cn X in
  let* ys := fit inner c0 cn Y in
  let* x0 := first X in let* xn := final X in
  let* y0 := first Y in let* yn := final Y in
  Ok (with_ends (x0, y0) (xn, yn) xs ys).

(** deform.py 64-87: the attributes (paramfile is not used again). *)
Record deform := {
  param : params R;
  deformed : dict (list R);
  control : dict (option (list pt));
  curve : dict (option (list pt))
}.
Definition set_deformed (d : deform) (k : key) (v : list R) : deform :=
  Build_deform (param d) (set_key k v (deformed d)) (control d) (curve d).
Definition set_control (d : deform) (k : key) (v : list pt) : deform :=
  Build_deform (param d) (deformed d) (set_key k (Some v) (control d)) (curve d).
Definition set_curve (d : deform) (k : key) (v : list pt) : deform :=
  Build_deform (param d) (deformed d) (control d) (set_key k (Some v) (curve d)).

(** deform.py 64-87; [cd] converts array entries to and from text. *)
Definition new_deform (cd : codec R) (fs : files) (a : arg) : files * res deform :=
  match read_parameters R cd fs (new_params R cd) a with
  | (fs', (_, Err e)) => (fs', Err e)
  | (fs', (p, Ok _)) =>
      match radii R p with
      | None => (fs', Err AttributeError)
      | Some r => (fs', Ok (Build_deform p (same_for_all (zeros (List.length r))) (same_for_all None) (same_for_all None)))
      end
  end.

(** deform.py 163-176. *)
Definition check_name (name : list ascii) : res key :=
  match find (fun k => eqb_str name (key_name k)) keys with
  | Some k => Ok k
  | None => Err ValueError
  end.

(** A method: the object is updated also when an exception is raised. *)
Definition run (A : Type) : Type := (deform * res A)%type.
Definition then_do {A B} (m : run A) (k : deform -> A -> run B) : run B :=
  match m with
  | (d, Ok a) => k d a
  | (d, Err e) => (d, Err e)
  end.
(** An assignment whose right-hand side may raise. *)
Definition assign {A} (d : deform) (v : res A) (upd : A -> deform) : run unit :=
  match v with
  | Ok a => (upd a, Ok tt)
  | Err e => (d, Err e)
  end.

(** deform.py 216-238.  A distribution that is None is outside the model. *)
Definition compute_control_points (d : deform) (name : list ascii) (rbf_points : option pynum) : run unit :=
  match check_name name with
  | Err e => (d, Err e)
  | Ok k =>
      match radii R (param d), at_key (parameters R (param d)) k with
      | None, _ => (d, Err TypeError)
      | _, None => (d, Err Unmodelled)
      | Some X, Some Y =>
          assign d (optimum_control_points X Y (at_key (degree R (param d)) k) (at_key (nbasis R (param d)) k) rbf_points)
            (set_control d k)
      end
  end.

(** deform.py 240-258 with _check_control_points (178-189). *)
Definition update_control_points (d : deform) (name : list ascii) : run unit :=
  match check_name name with
  | Err e => (d, Err e)
  | Ok k =>
      match at_key (control d) k with
      | None => (d, Err ValueError)
      | Some cv =>
          let v := at_key (deformations R (param d)) k in
          if Nat.eqb (List.length cv) (List.length v)
          then (set_control d k (map2 (fun p (y : R) => (fst p, snd p + y) : pt) cv v), Ok tt)
          else (d, Err ValueError)
      end
  end.

(** deform.py 260-275 with 178-189. *)
Definition generate_spline (d : deform) (name : list ascii) : run unit :=
  match check_name name with
  | Err e => (d, Err e)
  | Ok k =>
      match at_key (control d) k with
      | None => (d, Err ValueError)
      | Some cv => assign d (bspline2 cv (at_key (npoints R (param d)) k) (at_key (degree R (param d)) k)) (set_curve d k)
      end
  end.

(** deform.py 297, 305-308: the first sample whose abscissa is near [r]. *)
Fixpoint near (s : list pt) (r tol : R) : option pt :=
  match s with
  | [] => None
  | p :: s' => if Rlt_dec (Rabs (fst p - r)) tol then Some p else near s' r tol
  end.
(** [a\[i\] = x]. *)
Fixpoint set_item (v : list R) (i : nat) (x : R) : res (list R) :=
  match v, i with
  | [], _ => Err IndexError
  | _ :: v', O => Ok (x :: v')
  | y :: v', S i' => let* w := set_item v' i' x in Ok (y :: w)
  end.
(** deform.py 296-308: the array being filled and whether all radii were found. *)
Fixpoint sample_radii (s : list pt) (tol : R) (i : nat) (radii v : list R) : list R * res unit :=
  match radii with
  | [] => (v, Ok tt)
  | r :: rs =>
      match near s r tol with
      | None => (v, Err ValueError)
      | Some p =>
          match set_item v i (snd p) with
          | Err e => (v, Err e)
          | Ok w => sample_radii s tol (S i) rs w
          end
      end
  end.
(** deform.py 277-308 with _check_spline (191-202). *)
Definition compute_deformed_parameters (d : deform) (name : list ascii) (tol : R) : run unit :=
  match check_name name with
  | Err e => (d, Err e)
  | Ok k =>
      match at_key (curve d) k with
      | None => (d, Err ValueError)
      | Some s =>
          match radii R (param d) with
          | None => (d, Err TypeError)
          | Some rs => let (v, o) := sample_radii s tol 0 rs (at_key (deformed d) k) in (set_deformed d k v, o)
          end
      end
  end.

(** deform.py 361-364, one pass of the loop. *)
Definition compute_one (rbf_points : option pynum) (tols : dict R) (d : deform) (k : key) : run unit :=
  then_do (compute_control_points d (key_name k) rbf_points) (fun d _ =>
  then_do (update_control_points d (key_name k)) (fun d _ =>
  then_do (generate_spline d (key_name k)) (fun d _ =>
  compute_deformed_parameters d (key_name k) (at_key tols k)))).
Fixpoint compute_list (rbf_points : option pynum) (tols : dict R) (d : deform) (ks : list key) : run unit :=
  match ks with
  | [] => (d, Ok tt)
  | k :: ks' => then_do (compute_one rbf_points tols d k) (fun d' _ => compute_list rbf_points tols d' ks')
  end.
(** deform.py 310-364. *)
Definition compute_all (d : deform) (rbf_points : option pynum) (tols : dict R) : run unit :=
  compute_list rbf_points tols d keys.

(** What a call of plt.plot draws (deform.py 406-447). *)
Inductive series : Set := Original | ControlPoints | Spline | Rbf | Deformed.
(** The arguments of deform.py 366-374. *)
Record plot_options := {
  original : bool; ctrl_points : bool; spline : bool; rbf : bool; rbf_points : Z; show_deformed : bool
}.
(** [outfile] (deform.py 453-458): falsy (None, the empty string, ...), a name or
    something else. *)
Inductive outfile_arg : Type := Falsy | Name (s : list ascii) | NotAString.
(** plt.show or plt.savefig. *)
Inductive shown : Type := Screen | File (s : list ascii).

(** plt.plot refuses arrays of different lengths. *)
Definition points (xs ys : list R) : res (list pt) :=
  if Nat.eqb (List.length xs) (List.length ys) then Ok (combine xs ys) else Err ValueError.
(** deform.py 204-214. *)
Definition check_deformed (v : list R) : res unit :=
  if existsb (fun x => if Req_EM_T x 0 then true else false) v then Err ValueError else Ok tt.
(** One [if] block: nothing if not asked for. *)
Definition draw (wanted : bool) (what : series) (p : res (list pt)) : res (list (series * list pt)) :=
  if wanted then let* p := p in Ok [(what, p)] else Ok [].
Definition given {A} (v : option A) (e : exn) : res A := match v with Some a => Ok a | None => Err e end.
(** deform.py 404-458 for a valid name.  A radii or distribution that is None is
    outside the model.  The decorations (grid, title, legend) are not modelled. *)
Definition plot_key (d : deform) (o : plot_options) (out : outfile_arg) (k : key) : res (list (series * list pt) * shown) :=
  let p := param d in
  let X := given (radii R p) Unmodelled in
  let Y := given (at_key (parameters R p) k) Unmodelled in
  let* a := draw (original o) Original (let* X := X in let* Y := Y in points X Y) in
  let* b := draw (ctrl_points o) ControlPoints (given (at_key (control d) k) ValueError) in
  let* c := draw (spline o) Spline (given (at_key (curve d) k) ValueError) in
  let* r := draw (rbf o) Rbf (let* X := X in let* Y := Y in
              let* x0 := first X in let* xn := final X in
              if (rbf_points o <? 0)%Z then Err ValueError else
              let n := Z.to_nat (rbf_points o) in
              let xx := linspace x0 xn n in
              let* yy := reconstruct_1d X Y xx (zeros n) "beckert_wendland_c2_basis"%string 2 in
              points xx yy) in
  let* e := draw (show_deformed o) Deformed
              (let* _ := check_deformed (at_key (deformed d) k) in let* X := X in points X (at_key (deformed d) k)) in
  let all := a ++ b ++ c ++ r ++ e in
  match out with
  | Falsy => Ok (all, Screen)
  | Name s => Ok (all, File s)
  | NotAString => Err ValueError
  end.
(** deform.py 366-458. *)
Definition plot_parametric_curve (d : deform) (o : plot_options) (out : outfile_arg) (name : list ascii)
  : res (list (series * list pt) * shown) :=
  let* k := check_name name in plot_key d o out k.
(** deform.py 460-508 for a list of names (a single name is first put in a list):
    the figures in order. *)
Definition plot (d : deform) (names : list (list ascii)) (o : plot_options) (out : outfile_arg)
  : res (list (list (series * list pt) * shown)) :=
  mapM (plot_parametric_curve d o out) names.

(** deform.py 524-531, one pass of the loop; [np.zeros] refuses a negative
    size. *)
Definition export_key (d : deform) (prm : params R) (k : key) : meth R unit :=
  let p := param d in
  let v := if forallb (fun x => if Req_EM_T x 0 then true else false) (at_key (deformations R p) k)
           then at_key (parameters R p) k else Some (at_key (deformed d) k) in
  let prm1 := Build_params R (radii R prm) (set_key k v (parameters R prm))
                (set_key k (at_key (nbasis R p) k) (nbasis R prm))
                (set_key k (at_key (nbasis R p) k) (degree R prm))
                (set_key k (at_key (npoints R p) k) (npoints R prm)) (deformations R prm) in
  if (at_key (nbasis R p) k <? 0)%Z then (prm1, Err ValueError)
  else (set_deformations R prm1 k (zeros (Z.to_nat (at_key (nbasis R p) k))), Ok tt).
(** deform.py 510-533. *)
Definition export_param_file (cd : codec R) (fs : files) (d : deform) (a : arg) : files * res unit :=
  match for_each R (export_key d) keys (set_radii R (new_params R cd) (radii R (param d))) with
  | (_, Err e) => (fs, Err e)
  | (prm, Ok _) => let '(fs', (_, o)) := write_parameters R cd fs prm a in (fs', o)
  end.
