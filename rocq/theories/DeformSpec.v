(** Vocabulary of the deformation statements. *)
From Coq Require Import String Reals List ZArith Ascii.
From Verif Require Import Base RbfModel BsplineModel TextModel ParamsModel ParamsSpec DeformModel.
Import ListNotations.
Open Scope R_scope.

Definition sq_dist (a b : list R) : R := let d := map2 Rminus a b in dot d d.

(** Among the control coordinates that start and end like the data, the curve of
    [c] is nearest to the data; among the nearest, [c] is the smallest. *)
Definition best_fit (degree : Z) (data c : list R) : Prop :=
  exists s, bspline1 c (Z.of_nat (List.length data)) degree = Ok s /\
  forall v s', List.length v = List.length c -> nth 0 v 0 = nth 0 data 0 -> last v 0 = last data 0 ->
    bspline1 v (Z.of_nat (List.length data)) degree = Ok s' ->
    sq_dist s data <= sq_dist s' data /\
    (sq_dist s' data <= sq_dist s data -> dot c c <= dot v v /\ (dot v v <= dot c c -> v = c)).

(** [p] is the first sample of [s] whose abscissa is less than [tol] from [r]. *)
Definition first_near (s : list pt) (r tol : R) (p : pt) : Prop :=
  exists j, nth_error s j = Some p /\ Rabs (fst p - r) < tol /\
    forall i q, (i < j)%nat -> nth_error s i = Some q -> tol <= Rabs (fst q - r).
Definition no_near (s : list pt) (r tol : R) : Prop := forall q, In q s -> tol <= Rabs (fst q - r).

(** Client calls. *)
Inductive action : Type :=
| AControl (name : list ascii) (rbf : option pynum)
| AUpdate (name : list ascii)
| ASpline (name : list ascii)
| ADeformed (name : list ascii) (tol : R)
| AAll (rbf : option pynum) (tols : dict R).
Definition call (d : deform) (a : action) : deform * res unit :=
  match a with
  | AControl n r => compute_control_points d n r
  | AUpdate n => update_control_points d n
  | ASpline n => generate_spline d n
  | ADeformed n t => compute_deformed_parameters d n t
  | AAll r t => compute_all d r t
  end.
(** [d'] is the object after some calls on [d]; calls that raise included. *)
Inductive after (d : deform) : deform -> Prop :=
| after_none : after d d
| after_call : forall d1 a, after d d1 -> after d (fst (call d1 a)).

(** [update_control_points] called [n] times. *)
Fixpoint updates (n : nat) (d : deform) (name : list ascii) : deform * res unit :=
  match n with
  | O => (d, Ok tt)
  | S m => then_do (updates m d name) (fun d' _ => update_control_points d' name)
  end.

(** What holds of every object between calls. *)
Definition sound (d : deform) : Prop :=
  consistent (param d) /\ populated (param d) /\
  forall k, List.length (at_key (deformed d) k) = List.length (or_empty R (radii R (param d))) /\
    (forall cv, at_key (control d) k = Some cv -> Z.of_nat (List.length cv) = at_key (nbasis R (param d)) k) /\
    (forall s, at_key (curve d) k = Some s -> Z.of_nat (List.length s) = at_key (npoints R (param d)) k /\
       at_key (control d) k <> None).
(** Everything but the data of parameter [k] is the same. *)
Definition same_elsewhere (k : key) (d d' : deform) : Prop :=
  param d' = param d /\ forall j, j <> k ->
    at_key (deformed d') j = at_key (deformed d) j /\ at_key (control d') j = at_key (control d) j /\
    at_key (curve d') j = at_key (curve d) j.

(** An instance of the text conversion: whole numbers. *)
Definition whole_codec : codec R :=
  Build_codec R (fun x => show_int (up x - 1)) (fun s => option_map IZR (parse_int s)) 0 [3; 4; 5; 6; 7; 8; 9; 10].

(** The series asked for, in drawing order. *)
Definition wanted (o : plot_options) : list series :=
  (if original o then [Original] else []) ++ (if ctrl_points o then [ControlPoints] else []) ++ (if spline o then [Spline] else []) ++
  (if rbf o then [Rbf] else []) ++ (if show_deformed o then [Deformed] else []).
Definition target (out : outfile_arg) : res shown := match out with Falsy => Ok Screen | Name s => Ok (File s) | NotAString => Err ValueError end.
(** What a series shows. *)
Inductive depicts (d : deform) (m : Z) (k : key) : series -> list pt -> Prop :=
| dep_original : forall X Y, radii R (param d) = Some X -> at_key (parameters R (param d)) k = Some Y -> depicts d m k Original (combine X Y)
| dep_control : forall cv, at_key (control d) k = Some cv -> depicts d m k ControlPoints cv
| dep_spline : forall s, at_key (curve d) k = Some s -> depicts d m k Spline s
| dep_rbf : forall X Y yy, radii R (param d) = Some X -> at_key (parameters R (param d)) k = Some Y -> (0 <= m)%Z ->
    reconstruct_1d X Y (linspace (nth 0 X 0) (last X 0) (Z.to_nat m)) (zeros (Z.to_nat m)) "beckert_wendland_c2_basis" 2 = Ok yy ->
    depicts d m k Rbf (combine (linspace (nth 0 X 0) (last X 0) (Z.to_nat m)) yy)
| dep_deformed : forall X, radii R (param d) = Some X -> Forall (fun x => x <> 0) (at_key (deformed d) k) ->
    depicts d m k Deformed (combine X (at_key (deformed d) k)).

(** [w] is a u + b v, entry by entry. *)
Definition combination (a b : R) (u v w : list R) : Prop :=
  List.length u = List.length w /\ List.length v = List.length w /\
  forall i, (i < List.length w)%nat -> nth i w 0 = a * nth i u 0 + b * nth i v 0.
(** Two objects with the same radii and spline settings for [k]. *)
Definition same_settings (k : key) (d e : deform) : Prop :=
  radii R (param e) = radii R (param d) /\ at_key (degree R (param e)) k = at_key (degree R (param d)) k /\
  at_key (nbasis R (param e)) k = at_key (nbasis R (param d)) k /\ at_key (npoints R (param e)) k = at_key (npoints R (param d)) k.
(** The values and displacements of [k] in [f] are combinations of those in [d] and [e]. *)
Definition mixture (a b : R) (d e f : deform) (k : key) : Prop :=
  same_settings k f d /\ same_settings k f e /\
  combination a b (or_empty R (at_key (parameters R (param d)) k)) (or_empty R (at_key (parameters R (param e)) k)) (or_empty R (at_key (parameters R (param f)) k)) /\
  combination a b (at_key (deformations R (param d)) k) (at_key (deformations R (param e)) k) (at_key (deformations R (param f)) k).

(** Degree, numbers of control and curve points and resampling count with which
    parameter [k] is fitted to equally spaced radii without ambiguity. *)
Definition resampled (d : deform) (rbf : option pynum) (k : key) : Prop :=
  let n := at_key (nbasis R (param d)) k in let g := at_key (degree R (param d)) k in
  (1 <= g <= 19)%Z /\ (g < n)%Z /\ (2 <= at_key (npoints R (param d)) k)%Z /\ (n <= rbf_count rbf)%Z.

(** No other control coordinates that start and end like the data have a curve
    as near to the data. *)
Definition only_fit (degree : Z) (data c : list R) : Prop :=
  forall v s s', List.length v = List.length c -> nth 0 v 0 = nth 0 data 0 -> last v 0 = last data 0 ->
    bspline1 c (Z.of_nat (List.length data)) degree = Ok s -> bspline1 v (Z.of_nat (List.length data)) degree = Ok s' ->
    sq_dist s' data <= sq_dist s data -> v = c.

(** No more radii than control points of [k], and a number of curve points
    whose steps divide the steps between the radii evenly. *)
Definition through (d : deform) (k : key) : Prop :=
  let X := or_empty R (radii R (param d)) in let n := at_key (nbasis R (param d)) k in let g := at_key (degree R (param d)) k in
  (2 <= List.length X)%nat /\ (Z.of_nat (List.length X) <= n)%Z /\ (0 <= g <= 19)%Z /\ (g < n)%Z /\
  exists r, (1 <= r)%Z /\ (at_key (npoints R (param d)) k - 1 = r * (Z.of_nat (List.length X) - 1))%Z.
